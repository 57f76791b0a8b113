(** A PCA object through a history of calls (C252-C255).

    [history e new_pca l] is the object made from the cube of [e] after the calls [l]; a call that
    raises is caught and the next one is made.  [eigh_ok e]: np.linalg.eigh gives the orthonormal
    eigenvectors of the covariance matrices of the cube, with the eigenvalues in descending order.
    [decomposition e o ms]: eigenvalues, eigenvectors, mean subtraction and total variance of [o]
    are those of the cube decomposed with the mean subtraction [ms]. *)
From Coq Require Import String Reals List Bool ZArith Arith Lia Lra.
From Verif Require Import Lib.PyBase Lib.Fl Lib.RSum Lib.Arr Spec.Blank Spec.Covariance Spec.EigenImage Spec.Components Spec.PcaRun
  Model.Psds Model.Units Model.BaseStat Model.Pca Model.PcaFit Model.PcaRun Proofs.PcaRun_Proofs Proofs.PcaRun2_Proofs Proofs.PcaRun3_Proofs.
Import ListNotations.
Local Open Scope R_scope.

(** ** C252: one decomposition through any history *)
(** C252.  Partial: not covered are the covariance matrix and the proportion of variance for the
    current number of components (refuted below). *)
Theorem C252_one_decomposition_partial : forall e l, eigh_ok e -> let o := history e new_pca l in
  (forall n, o_n_eigs o = Some n -> (1 <= n)%Z) /\
  (undecomposed o \/ exists ms k n, decomposition e o ms /\ o_n_eigs o = Some n /\ (1 <= k <= e_nz e)%nat /\ o_prop o = Some (proportion_of e ms k)).
Proof. exact one_decomposition. Qed.
Print Assumptions C252_one_decomposition_partial.
(** C252.  A call that succeeds leaves all of them for the same decomposition; one that is refused
    keeps them. *)
Theorem C252_computed : forall e o ms n v k o' x, eigh_ok e -> do_call e o (CCompute ms n v k) = (o', x) ->
  (x = None -> decomposition e o' ms /\ o_cov o' = Some (e_cov e ms) /\
     exists m, (1 <= m <= e_nz e)%nat /\ o_n_eigs o' = Some (Z.of_nat m) /\ o_prop o' = Some (proportion_of e ms m) /\
       match n with Count c => c = Z.of_nat m \/ (c = -1)%Z /\ m = e_nz e | Auto => v <> None end) /\
  (x <> None -> o_n_eigs o' = o_n_eigs o /\ o_prop o' = o_prop o /\ o_eigvals o' = o_eigvals o /\ o_eigvecs o' = o_eigvecs o /\ o_mean_sub o' = o_mean_sub o /\ o_total o' = o_total o).
Proof. exact computed. Qed.
Print Assumptions C252_computed.
(** C252 fails for the covariance matrix: a refused call replaces it and leaves the eigenvalues. *)
Theorem C252_covariance_refuted : forall e o ms ms', eigh_ok e -> decomposition e o ms ->
  exists o', do_call e o (decompose ms' 0) = (o', Some OtherError) /\ decomposition e o' ms /\ o_cov o' = Some (e_cov e ms').
Proof. exact refused_cov. Qed.
Print Assumptions C252_covariance_refuted.
(** C252 fails for the proportion of variance: setting n_eigs leaves it. *)
Theorem C252_proportion_refuted : exists e o, eigh_ok e /\ o = history e new_pca [decompose true 1; CSetN 2] /\ decomposition e o true /\
  o_n_eigs o = Some 2%Z /\ o_prop o = Some (Fin (1 / 2)) /\ proportion_of e true 2 = Fin 1.
Proof. exact prop_stale. Qed.
Print Assumptions C252_proportion_refuted.
Example C252_case : eigh_ok (toy toy_a) /\ e_cov (toy toy_a) true <> e_cov (toy toy_a) false /\
  exists o, decomposition (toy toy_a) o false /\ o = history (toy toy_a) new_pca [decompose false 2; decompose true 0] /\ o_cov o = Some (e_cov (toy toy_a) true).
Proof.
  split; [apply toy_a_ok|]. split.
  - intros E. pose proof (a_cov true 0 0 ltac:(lia) ltac:(lia)) as A. rewrite E, a_cov in A by lia. unfold diag_of, f3 in A. cbn in A. lra.
  - destruct (decompose_ok (toy toy_a) new_pca false 2 toy_a_ok ltac:(cbn; lia)) as (o1 & E1 & D1 & _). destruct (refused_cov (toy toy_a) o1 false true toy_a_ok D1) as (o2 & E2 & D2 & C2).
    exists o2. split; [exact D2|]. split; [|exact C2]. cbn [history]. change 2%Z with (Z.of_nat 2). rewrite E1. cbn [fst]. unfold decompose. cbn [do_call]. now rewrite E2.
Qed.

(** ** C253: what a run leaves *)
(** C253.  Whether a run raises, and what it leaves when it does not, is the same on any object
    made from the cube. *)
Theorem C253_fresh : forall e o o2 a, snd (run e o a) = snd (run e o2 a) /\
  (snd (run e o a) = None -> same_decomposition (fst (run e o a)) (fst (run e o2 a)) /\
     (a_decomp_only a = false -> same_widths (fst (run e o a)) (fst (run e o2 a)) /\ same_fit (fst (run e o a)) (fst (run e o2 a)))).
Proof. exact run_any. Qed.
Print Assumptions C253_fresh.
(** C253.  A full run that succeeds leaves one decomposition, as many widths as components (two at
    least), and the fit of just those widths. *)
Theorem C253_widths : forall e o a o', eigh_ok e -> one_each e -> a_decomp_only a = false -> run e o a = (o', None) ->
  exists m sp v, (2 <= m <= e_nz e)%nat /\ o_n_eigs o' = Some (Z.of_nat m) /\ decomposition e o' (a_mean_sub a) /\
    o_cov o' = Some (e_cov e (a_mean_sub a)) /\ o_prop o' = Some (proportion_of e (a_mean_sub a) m) /\
    o_spatial o' = Some sp /\ o_spectral o' = Some v /\ length sp = m /\ length v = m /\
    exists st, fit_plaw (e_stat e) (rows_of sp v) (e_odr e) (e_bayes e) unfit (a_fit a) = (st, None) /\ p_fit (o_fit o') = p_fit st /\ p_fit st <> None /\
      forall c_s g, sonic_length (o_fit o') c_s g = sonic_length st c_s g.
Proof. exact full_run. Qed.
Print Assumptions C253_widths.
(** C253 fails for one component: a full run raises after the decomposition, with the widths and
    the fit of an earlier run left. *)
Theorem C253_single_refuted : forall e o a beam, eigh_ok e -> (1 <= e_ny e)%nat -> a_decomp_only a = false -> a_n_eigs a = Count 1 -> a_beam a = Some beam ->
  exists o' x, run e o a = (o', Some x) /\ decomposition e o' (a_mean_sub a) /\ same_widths o o' /\ o_fit o' = o_fit o.
Proof. exact single_run. Qed.
Print Assumptions C253_single_refuted.
(** C253 fails for a run with decomp_only=True: it leaves the widths and the fit of the earlier
    decomposition. *)
Theorem C253_stale_refuted : forall e o a o1 a' o2, eigh_ok e -> run e o a = (o1, None) -> a_decomp_only a' = true -> run e o1 a' = (o2, None) ->
  decomposition e o2 (a_mean_sub a') /\ same_widths o1 o2 /\ same_fit o1 o2.
Proof. exact stale. Qed.
Print Assumptions C253_stale_refuted.
Example C253_case : eigh_ok (toy toy_b) /\ one_each (toy toy_b) /\ (exists o', run (toy toy_b) new_pca run_toy = (o', None)) /\
  exists o1 o2 a', run (toy toy_b) new_pca run_toy = (o1, None) /\ a_decomp_only a' = true /\ a_mean_sub a' = false /\ run (toy toy_b) o1 a' = (o2, None) /\ o_spatial o2 <> None.
Proof.
  split; [apply toy_b_ok|]. split; [apply toy_each|]. split; [apply toy_run|]. destruct toy_run as [o1 R].
  pose (a' := mk_args false true (Count 2) None "value" "contour" "walk-down" (mk_call "odr" None None) None true).
  destruct (decompose_ok (toy toy_b) o1 false 2 toy_b_ok ltac:(cbn; lia)) as (o2 & E & _ & _ & _ & _ & (W & _) & _). cbn [do_call decompose] in E. change (Z.of_nat 2) with 2%Z in E.
  exists o1, (set_decomp_only o2 true), a'. split; [exact R|]. split; [reflexivity|]. split; [reflexivity|].
  destruct (full_run (toy toy_b) new_pca run_toy o1 toy_b_ok (toy_each toy_b) eq_refl R) as (m & sp & v & _ & _ & _ & _ & _ & SP & _).
  split; [|cbn [set_decomp_only o_spatial]; rewrite W, SP; discriminate].
  unfold run. cbn [a' a_beam a_brunt a_decomp_only negb andb a_mean_sub a_n_eigs a_min_eigval a_cut]. rewrite E. reflexivity.
Qed.

(** ** C254: the beam *)
(** C254.  Without a beam, a full run that would correct for it is refused before anything changes. *)
Theorem C254_refused : forall e o a x, e_beam e = Err x -> a_beam a = None -> a_brunt a = true -> a_decomp_only a = false -> run e o a = (o, Some ValueError).
Proof. exact no_beam. Qed.
Print Assumptions C254_refused.
(** C254.  The beam of the header is not used when one is given, when no correction is asked for, or
    when only the decomposition is; otherwise it counts as if it had been given. *)
Theorem C254_unused : forall e o a b, a_beam a <> None \/ a_brunt a = false \/ a_decomp_only a = true -> run (with_beam e b) o a = run e o a.
Proof. exact beam_unused. Qed.
Print Assumptions C254_unused.
Theorem C254_header : forall e o a b, e_beam e = Ok b -> a_beam a = None -> a_brunt a = true -> a_decomp_only a = false -> run e o a = run e o (give_beam a b).
Proof. exact header_beam. Qed.
Print Assumptions C254_header.
Example C254_case : exists a, e_beam (toy toy_b) = Err OtherError /\ a_beam a = None /\ a_brunt a = true /\ a_decomp_only a = false /\
  give_beam a 1 = run_toy /\ e_beam (with_beam (toy toy_b) (Ok 1)) = Ok 1 /\ exists o', run (with_beam (toy toy_b) (Ok 1)) new_pca a = (o', None).
Proof.
  exists (mk_args true false (Count 2) None "value" "contour" "walk-down" (mk_call "odr" None None) None true). do 4 (split; [reflexivity|]). split; [reflexivity|]. split; [reflexivity|].
  rewrite (header_beam _ _ _ 1) by reflexivity. change (give_beam _ 1) with run_toy. rewrite beam_unused by (left; discriminate). apply toy_run.
Qed.

(** ** C255: PCA objects given to PCA_Distance *)
(** C255.  Partial: objects decomposed with the mean subtraction of the distance. *)
Theorem C255_matching_partial : forall e1 e2 o1 o2 n ms, eigh_ok e1 -> eigh_ok e2 -> decomposition e1 o1 ms -> decomposition e2 o2 ms -> (1 <= n < e_nz e1)%nat -> (n < e_nz e2)%nat ->
  objects_distance e1 e2 o1 o2 (Z.of_nat n) ms = cubes_distance e1 e2 (Z.of_nat n) ms.
Proof. exact objects_cubes. Qed.
Print Assumptions C255_matching_partial.
(** C255 fails for objects decomposed without mean subtraction: the argument mean_sub is not used
    to decompose them again, only to choose the eigenvalues. *)
Theorem C255_mean_sub_refuted : exists e1 e2 o1 o2, eigh_ok e1 /\ eigh_ok e2 /\ o1 = history e1 new_pca [decompose false 2] /\ o2 = history e2 new_pca [decompose false 2] /\
  decomposition e1 o1 false /\ decomposition e2 o2 false /\
  objects_distance e1 e2 o1 o2 2 true = Ok (Fin 0) /\ cubes_distance e1 e2 2 true = Ok (Fin (sqrt (1 / 2))) /\ 0 < sqrt (1 / 2).
Proof. exact other_mean_sub. Qed.
Print Assumptions C255_mean_sub_refuted.
(** C255 fails for refused calls: n_eigs of the object is changed all the same.  With more components
    than channels its widths can then no longer be found. *)
Theorem C255_changed_refuted : forall e o ms0 ms n, eigh_ok e -> decomposition e o ms0 -> (Z.of_nat (e_nz e) <= n)%Z ->
  exists o', do_call e o (CDistance n ms) = (o', Some ValueError) /\ decomposition e o' ms0 /\ o_n_eigs o' = Some n /\ o_prop o' = o_prop o /\
    ((Z.of_nat (e_nz e) < n)%Z -> forall m brunt beam, exists x, do_call e o' (CSpatial m brunt beam) = (o', Some x)).
Proof. exact changed_given. Qed.
Print Assumptions C255_changed_refuted.
Example C255_case : exists o1 o2, decomposition (toy toy_a) o1 true /\ decomposition (toy toy_b) o2 true /\
  objects_distance (toy toy_a) (toy toy_b) o1 o2 2 true = Ok (Fin (sqrt (1 / 2))).
Proof.
  destruct (decompose_ok (toy toy_a) new_pca true 2 toy_a_ok ltac:(cbn; lia)) as (o1 & _ & D1 & _). destruct (decompose_ok (toy toy_b) new_pca true 2 toy_b_ok ltac:(cbn; lia)) as (o2 & _ & D2 & _).
  exists o1, o2. split; [exact D1|]. split; [exact D2|]. change 2%Z with (Z.of_nat 2).
  rewrite (objects_value (toy toy_a) (toy toy_b) o1 o2 true true 2 true toy_a_ok toy_b_ok D1 D2) by (cbn; lia). apply toy_distance.
Qed.
