(** Proofs about Model/PcaRun.v. *)
From Coq Require Import String Reals List ZArith Arith Bool Lia Lra.
From Verif Require Import Lib.PyBase Lib.Fl Lib.RSum Lib.Arr Spec.Covariance Spec.EigenImage Spec.Components Spec.PcaRun
  Model.Psds Model.BaseStat Model.Pca Model.PcaFit Model.PcaRun Proofs.Pca_Proofs.
Import ListNotations.
Local Open Scope R_scope.

(** ** The decomposition through a history *)
Definition sound (e : pca_env) (o : pca_obj) : Prop :=
  (forall n, o_n_eigs o = Some n -> (1 <= n)%Z) /\
  (undecomposed o \/ exists ms k n, decomposition e o ms /\ o_n_eigs o = Some n /\ (1 <= k <= e_nz e)%nat /\ o_prop o = Some (proportion_of e ms k)).

(** Only n_eigs may differ *)
Definition keeps (o o' : pca_obj) : Prop :=
  o_n_eigs o' = o_n_eigs o /\ o_total o' = o_total o /\ o_prop o' = o_prop o /\ o_eigvals o' = o_eigvals o /\ o_eigvecs o' = o_eigvecs o /\ o_mean_sub o' = o_mean_sub o.
Lemma keeps_refl o : keeps o o. Proof. unfold keeps. auto 10. Qed.
Lemma keeps_trans a b c : keeps a b -> keeps b c -> keeps a c.
Proof. unfold keeps. intuition congruence. Qed.
Lemma sound_keeps e o o' : sound e o -> keeps o o' -> sound e o'.
Proof.
  intros [N S] (A & B & C & D & E & F). split; [rewrite A; exact N|]. unfold undecomposed, decomposition in *. rewrite A, B, C, D, E, F. exact S.
Qed.

Lemma setter_ok n m : n_eigs_setter n = Ok m -> m = n /\ (1 <= n)%Z.
Proof. unfold n_eigs_setter. destruct (Z.leb_spec n 0); [discriminate|]. intros [= <-]. split; [reflexivity|lia]. Qed.
Lemma set_n_sound e o n : sound e o -> sound e (fst (set_n o n)).
Proof.
  intros H. unfold set_n. destruct (n_eigs_setter n) as [m|x] eqn:E; [|exact H]. apply setter_ok in E. destruct E as [-> E]. destruct H as [_ S].
  split; [now intros k [= <-]|]. destruct S as [S|(ms & k & n0 & S & _ & K)]; [left; exact S|]. right. exists ms, k, n. now split.
Qed.
Lemma compute_inv e o ms n v k o' x : eigh_ok e -> compute_pca e o ms n v k = (o', x) ->
  same_widths o o' /\ o_fit o' = o_fit o /\
  ((x <> None /\ keeps o o') \/
   (x = None /\ decomposition e o' ms /\ o_cov o' = Some (e_cov e ms) /\ exists m, (1 <= m <= e_nz e)%nat /\ o_n_eigs o' = Some (Z.of_nat m) /\ o_prop o' = Some (proportion_of e ms m) /\
      choose_n_eigs (e_nz e) n v k (eigvals_of e ms) = Ok (Z.of_nat m))).
Proof.
  intros [Z1 OK] H. destruct (OK ms) as [L _]. unfold compute_pca in H. fold (eigvals_of e ms) in *.
  assert (G : (match n, v with Auto, None => False | _, _ => True end) ->
    compute_pca e o ms n v k = (o', x) -> same_widths o o' /\ o_fit o' = o_fit o /\
    ((x <> None /\ keeps o o') \/
   (x = None /\ decomposition e o' ms /\ o_cov o' = Some (e_cov e ms) /\ exists m, (1 <= m <= e_nz e)%nat /\ o_n_eigs o' = Some (Z.of_nat m) /\ o_prop o' = Some (proportion_of e ms m) /\
      choose_n_eigs (e_nz e) n v k (eigvals_of e ms) = Ok (Z.of_nat m)))).
  { intros V. unfold compute_pca.
    unfold decomposition, eigvals_of, eigvecs_of in *. destruct (e_eigh e (e_cov e ms)) as [l V'] eqn:E. cbn [fst snd] in *.
    assert (K : forall r : result Z, (match r with
       | Err x => (mk_pobj (Some (e_cov e ms)) (o_n_eigs o) (o_total o) (o_prop o) (o_eigvals o) (o_eigvecs o) (o_mean_sub o) (o_spatial o) (o_spectral o) (o_fit o) (Some true), Some x)
       | Ok n => let '(total, prop) := variance_summary ms n l in
          (mk_pobj (Some (e_cov e ms)) (Some n) (Some total) (Some prop) (Some l) (Some V') (Some ms) (o_spatial o) (o_spectral o) (o_fit o) (Some true), None) end) = (o', x) ->
       choose_n_eigs (e_nz e) n v k l = r ->
       same_widths o o' /\ o_fit o' = o_fit o /\
    ((x <> None /\ keeps o o') \/
   (x = None /\ (o_eigvals o' = Some l /\ o_eigvecs o' = Some V' /\ o_mean_sub o' = Some ms /\ o_total o' = Some (Fin (lsum (compared ms (e_nz e) l)))) /\
      o_cov o' = Some (e_cov e ms) /\ exists m, (1 <= m <= e_nz e)%nat /\ o_n_eigs o' = Some (Z.of_nat m) /\ o_prop o' = Some (proportion_of e ms m) /\
      choose_n_eigs (e_nz e) n v k l = Ok (Z.of_nat m)))).
    { intros r. destruct r as [z|y].
      - intros H' C. pose proof (choose_range _ _ _ _ _ _ L Z1 C) as R. replace z with (Z.of_nat (Z.to_nat z)) in * by lia. set (m := Z.to_nat z) in *.
        rewrite variance_formula in H' by lia. injection H' as <- <-. split; [now split|]. split; [reflexivity|]. right. split; [reflexivity|].
        cbn [o_eigvals o_eigvecs o_mean_sub o_total o_cov o_n_eigs o_prop]. rewrite L. split; [auto|]. split; [reflexivity|]. exists m. split; [lia|]. split; [reflexivity|].
        split; [|exact C]. unfold proportion_of, eigvals_of. now rewrite E.
      - intros H' C. injection H' as <- <-. split; [now split|]. split; [reflexivity|]. left. split; [discriminate|]. unfold keeps. auto 10. }
    intros H'. destruct n as [|z]; [destruct v as [v|]; [|destruct V]|]; eapply K; try reflexivity; exact H'. }
  destruct n as [|z].
  - destruct v as [v|]; [now apply G|]. injection H as <- <-. split; [now split|]. split; [reflexivity|]. left. split; [discriminate|]. unfold keeps. auto 10.
  - now apply G.
Qed.
Lemma compute_sound e o ms n v k : eigh_ok e -> sound e o -> sound e (fst (compute_pca e o ms n v k)).
Proof.
  intros OK S. destruct (compute_pca e o ms n v k) as [o' x] eqn:E. cbn [fst]. apply compute_inv in E; [|assumption].
  destruct E as (_ & _ & [[_ K]|(_ & D & _ & m & M & N & P & _)]); [now apply (sound_keeps e o)|].
  split; [intros j J; rewrite N in J; injection J as <-; lia|]. right. exists ms, m, (Z.of_nat m). auto.
Qed.
Lemma spatial_keeps e o m b f : keeps o (fst (find_spatial e o m b f)).
Proof. unfold find_spatial. destruct (spatial_of e o m b f); [|apply keeps_refl]. unfold keeps. auto 10. Qed.
Lemma spectral_keeps e o m : keeps o (fst (find_spectral e o m)).
Proof. unfold find_spectral. destruct (spectral_of e o m); [|apply keeps_refl]. unfold keeps. auto 10. Qed.
Lemma fit_keeps e o c : keeps o (fst (fit_obj e o c)).
Proof.
  unfold fit_obj. cbv zeta. cbn [set_decomp_only o_spatial o_spectral]. destruct (o_spatial o); [|unfold keeps; auto 10]. destruct (o_spectral o); [|unfold keeps; auto 10].
  destruct (fit_plaw _ _ _ _ _ _). unfold keeps. auto 10.
Qed.
Lemma also_fst (P : pca_obj -> Prop) r k : P (fst r) -> (forall o, P o -> P (fst (k o))) -> P (fst (also r k)).
Proof. destruct r as [o [x|]]; cbn [also fst]; auto. Qed.
Lemma decomp_keeps o b : keeps o (set_decomp_only o b). Proof. unfold keeps. auto 10. Qed.
Lemma run_sound e o a : eigh_ok e -> sound e o -> sound e (fst (run e o a)).
Proof.
  intros OK S. unfold run. destruct (match a_beam a with Some b => _ | None => _ end) as [beam|x]; [|exact S].
  apply (also_fst (sound e)); [now apply compute_sound|]. intros o1 S1. cbv zeta. pose proof (sound_keeps _ _ _ S1 (decomp_keeps o1 (a_decomp_only a))) as S2.
  destruct (a_decomp_only a); [exact S2|]. apply (also_fst (sound e)); [eapply sound_keeps; [exact S2|apply spatial_keeps]|]. intros o3 S3.
  apply (also_fst (sound e)); [eapply sound_keeps; [exact S3|apply spectral_keeps]|]. intros o4 S4. eapply sound_keeps; [exact S4|apply fit_keeps].
Qed.
Lemma given_sound e o n ms : eigh_ok e -> sound e o -> sound e (fst (given_to_distance e o n ms)).
Proof.
  intros OK S. unfold given_to_distance. destruct (o_eigvals o) as [l|]; [|now apply run_sound].
  apply (also_fst (sound e)); [now apply set_n_sound|]. intros o1 S1. now destruct (_ <=? _)%Z.
Qed.
Lemma history_sound e l : eigh_ok e -> forall o, sound e o -> sound e (history e o l).
Proof.
  intros OK. induction l as [|c l IH]; intros o S; [exact S|]. apply IH. destruct c; cbn [do_call].
  - now apply set_n_sound.
  - now apply compute_sound.
  - eapply sound_keeps; [exact S|apply spatial_keeps].
  - eapply sound_keeps; [exact S|apply spectral_keeps].
  - eapply sound_keeps; [exact S|apply fit_keeps].
  - now apply run_sound.
  - now apply given_sound.
Qed.
Lemma new_sound e : sound e new_pca.
Proof. split; [discriminate|]. left. unfold undecomposed. auto 10. Qed.

(** A refused call *)
Lemma refused_cov e o ms ms' : eigh_ok e -> decomposition e o ms ->
  exists o', compute_pca e o ms' (Count 0) None "value" = (o', Some OtherError) /\ decomposition e o' ms /\ o_cov o' = Some (e_cov e ms').
Proof.
  intros [Z1 _] D. unfold compute_pca. destruct (e_eigh e (e_cov e ms')) as [l V]. cbn [choose_n_eigs]. change (0 =? -1)%Z with false. cbv iota.
  change ((0 <? -1)%Z) with false. change (0 =? 0)%Z with true. rewrite orb_true_r. eexists. split; [reflexivity|]. split; [exact D|reflexivity].
Qed.
Lemma set_n_prop o n : (1 <= n)%Z -> exists o', set_n o n = (o', None) /\ o_n_eigs o' = Some n /\ o_prop o' = o_prop o /\ o_eigvals o' = o_eigvals o.
Proof.
  intros H. unfold set_n, n_eigs_setter. destruct (Z.leb_spec n 0); [lia|]. eexists. split; [reflexivity|]. auto.
Qed.

(** ** A run does not depend on the history *)
Lemma compute_any e o o2 ms n v k : snd (compute_pca e o ms n v k) = snd (compute_pca e o2 ms n v k) /\
  (snd (compute_pca e o ms n v k) = None -> same_decomposition (fst (compute_pca e o ms n v k)) (fst (compute_pca e o2 ms n v k))).
Proof.
  unfold compute_pca. destruct (e_eigh e (e_cov e ms)) as [l V]. unfold same_decomposition.
  destruct n as [|z]; [destruct v as [v|]|]; [|split; [reflexivity|discriminate]|].
  - destruct (choose_n_eigs _ _ _ _ _) as [m|x]; [|split; [reflexivity|discriminate]]. destruct (variance_summary ms m l). cbn. auto 10.
  - destruct (choose_n_eigs _ _ _ _ _) as [m|x]; [|split; [reflexivity|discriminate]]. destruct (variance_summary ms m l). cbn. auto 10.
Qed.
Lemma same_decomp_dec o o2 b : same_decomposition o o2 -> same_decomposition (set_decomp_only o b) (set_decomp_only o2 b).
Proof. unfold same_decomposition. cbn. auto. Qed.
Lemma spatial_any e o o2 m b f : same_decomposition o o2 -> spatial_of e o2 m b f = spatial_of e o m b f.
Proof. intros (_ & A & _ & _ & B & C & D). unfold spatial_of, decomposed. now rewrite A, B, C, D. Qed.
Lemma spectral_any e o o2 m : same_decomposition o o2 -> spectral_of e o2 m = spectral_of e o m.
Proof. intros (_ & A & _ & _ & B & C & D). unfold spectral_of. now rewrite A, C. Qed.
Lemma fit_plaw_any s rows odr bayes st st2 c : snd (fit_plaw s rows odr bayes st c) = snd (fit_plaw s rows odr bayes st2 c) /\
  (snd (fit_plaw s rows odr bayes st c) = None ->
   let r := fst (fit_plaw s rows odr bayes st c) in let r2 := fst (fit_plaw s rows odr bayes st2 c) in
   p_fit r2 = p_fit r /\ p_method r2 = p_method r /\ p_xlow r2 = p_xlow r /\ p_xhigh r2 = p_xhigh r /\ forall c_s g, sonic_length r2 c_s g = sonic_length r c_s g).
Proof.
  unfold fit_plaw. destruct (_ && _); [split; [reflexivity|discriminate]|]. destruct (limit_pixels s (c_xlow c)) as [lo|x]; [|split; [reflexivity|discriminate]].
  destruct (limit_pixels s (c_xhigh c)) as [hi|x]; [|split; [reflexivity|discriminate]]. destruct (fit_rows lo hi rows) as [pts|x]; [|split; [reflexivity|discriminate]].
  destruct (String.eqb (c_method c) "odr") eqn:E; cbn [fst snd p_fit p_method p_xlow p_xhigh]; split; try reflexivity; intros _; repeat (split; [reflexivity|]); intros c_s g;
    unfold sonic_length; cbn [p_fit p_method p_samps]; rewrite E; reflexivity.
Qed.
Lemma run_any e o o2 a : snd (run e o a) = snd (run e o2 a) /\
  (snd (run e o a) = None -> same_decomposition (fst (run e o a)) (fst (run e o2 a)) /\
     (a_decomp_only a = false -> same_widths (fst (run e o a)) (fst (run e o2 a)) /\ same_fit (fst (run e o a)) (fst (run e o2 a)))).
Proof.
  unfold run. destruct (match a_beam a with Some b => _ | None => _ end) as [beam|x]; [|split; [reflexivity|discriminate]].
  pose proof (compute_any e o o2 (a_mean_sub a) (a_n_eigs a) (a_min_eigval a) (a_cut a)) as [C1 C2].
  destruct (compute_pca e o _ _ _ _) as [p x]. destruct (compute_pca e o2 _ _ _ _) as [p2 x2]. cbn [fst snd] in C1, C2. subst x2.
  destruct x as [x|]; cbn [also]; [split; [reflexivity|discriminate]|]. specialize (C2 eq_refl). apply (same_decomp_dec _ _ (a_decomp_only a)) in C2.
  destruct (a_decomp_only a); [split; [reflexivity|]; intros _; split; [exact C2|discriminate]|].
  set (q := set_decomp_only p false) in *. set (q2 := set_decomp_only p2 false) in *. clearbody q q2. unfold find_spatial. rewrite (spatial_any e q q2) by exact C2.
  destruct (spatial_of e q (a_spatial a) (a_brunt a) beam) as [w|x]; cbn [also]; [|split; [reflexivity|discriminate]].
  unfold find_spectral.
  match goal with |- context[spectral_of e (mk_pobj (o_cov q) _ _ _ _ _ _ _ _ _ _) _] => idtac end.
  assert (EQ : forall s1 s2 f1 f2 d1 d2 w1 w2, spectral_of e (mk_pobj (o_cov q2) (o_n_eigs q2) (o_total q2) (o_prop q2) (o_eigvals q2) (o_eigvecs q2) (o_mean_sub q2) w1 s1 f1 d1) (a_spectral a) =
     spectral_of e (mk_pobj (o_cov q) (o_n_eigs q) (o_total q) (o_prop q) (o_eigvals q) (o_eigvecs q) (o_mean_sub q) w2 s2 f2 d2) (a_spectral a)).
  { intros. apply spectral_any. unfold same_decomposition in *. cbn. exact C2. }
  rewrite (EQ (o_spectral q2) (o_spectral q) (o_fit q2) (o_fit q) (o_decomp_only q2) (o_decomp_only q) (Some w) (Some w)).
  destruct (spectral_of e _ (a_spectral a)) as [v|x]; cbn [also]; [|split; [reflexivity|discriminate]].
  unfold fit_obj. cbv zeta. cbn [set_decomp_only o_cov o_n_eigs o_total o_prop o_eigvals o_eigvecs o_mean_sub o_spatial o_spectral o_fit o_decomp_only].
  set (rows := rows_of w _).
  pose proof (fit_plaw_any (e_stat e) rows (e_odr e) (e_bayes e) (o_fit q) (o_fit q2) (a_fit a)) as [F1 F2].
  destruct (fit_plaw _ rows _ _ (o_fit q) _) as [st x]. destruct (fit_plaw _ rows _ _ (o_fit q2) _) as [st2 x2]. cbn [fst snd] in *. subst x2. split; [reflexivity|].
  intros X. assert (x = None) as -> by (destruct x as [[]|]; try discriminate; try reflexivity; now destruct (Nat.eqb _ _)).
  specialize (F2 eq_refl). cbv zeta in F2. unfold same_decomposition, same_widths, same_fit in *. cbn. split; [exact C2|]. intros _. split; [auto|exact F2].
Qed.
