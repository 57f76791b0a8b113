(** Proofs about Model/PcaRun.v: what a run leaves, the beam, objects given to PCA_Distance. *)
From Coq Require Import String Reals List ZArith Arith Bool Lia Lra.
From Verif Require Import Lib.PyBase Lib.Fl Lib.RSum Lib.Arr Lib.PySlice Spec.Covariance Spec.EigenImage Spec.Components Spec.PcaRun
  Model.Psds Model.Units Model.BaseStat Model.Pca Model.PcaFit Model.PcaRun Proofs.Pca_Proofs Proofs.Pca2_Proofs Proofs.Cov_Proofs Proofs.PcaRun_Proofs.
Import ListNotations.
Local Open Scope R_scope.

Lemma images_length nz ny nx d ms eps l V m acors : (1 <= m)%nat -> autocorr_images nz ny nx d ms eps l V (Z.of_nat m) = Ok acors -> length acors = m.
Proof.
  intros M. unfold autocorr_images, eigimages. destruct (Z.ltb_spec 0 (Z.of_nat m)); [|lia]. cbn [bind]. rewrite Nat2Z.id.
  destruct (existsb _ _); cbn [bind]; [discriminate|]. destruct m as [|[|m]]; [lia| |].
  - cbn [seq bind]. destruct (Nat.eqb ny 0); discriminate.
  - cbn [seq bind]. intros [= <-]. cbn [map length]. now rewrite !map_length, seq_length.
Qed.
Lemma spec_length nz V m acors : autocorr_spec nz V (Z.of_nat m) = Ok acors -> length acors = m /\ (2 <= m)%nat.
Proof.
  unfold autocorr_spec. destruct (Z.leb_spec (Z.of_nat m) 0); [discriminate|]. destruct (Z.ltb_spec (Z.of_nat nz) (Z.of_nat m)); [discriminate|].
  destruct (Z.eqb_spec (Z.of_nat m) 1); [discriminate|]. intros [= <-]. rewrite map_length, seq_length, Nat2Z.id. split; [reflexivity|lia].
Qed.

Lemma full_run e o a o' : eigh_ok e -> one_each e -> a_decomp_only a = false -> run e o a = (o', None) ->
  exists m sp v, (2 <= m <= e_nz e)%nat /\ o_n_eigs o' = Some (Z.of_nat m) /\ decomposition e o' (a_mean_sub a) /\
    o_cov o' = Some (e_cov e (a_mean_sub a)) /\ o_prop o' = Some (proportion_of e (a_mean_sub a) m) /\
    o_spatial o' = Some sp /\ o_spectral o' = Some v /\ length sp = m /\ length v = m /\
    exists st, fit_plaw (e_stat e) (rows_of sp v) (e_odr e) (e_bayes e) unfit (a_fit a) = (st, None) /\ p_fit (o_fit o') = p_fit st /\ p_fit st <> None /\
      forall c_s g, sonic_length (o_fit o') c_s g = sonic_length st c_s g.
Proof.
  intros OK [O1 O2] D. unfold run. destruct (match a_beam a with Some b => _ | None => _ end) as [beam|x]; [|discriminate].
  destruct (compute_pca e o _ _ _ _) as [p x] eqn:EC. apply compute_inv in EC; [|assumption]. destruct EC as (_ & _ & EC).
  destruct x as [x|]; cbn [also]; [discriminate|]. destruct EC as [[C _]|(_ & DE & CO & m & M & N & P & _)]; [now contradiction C|].
  rewrite D. cbv zeta. unfold find_spatial. destruct (spatial_of e _ _ _ _) as [sp|x] eqn:ES; cbn [also]; [|discriminate].
  unfold find_spectral. destruct (spectral_of e _ _) as [v|x] eqn:EV; cbn [also]; [|discriminate]. cbn [set_decomp_only o_cov o_n_eigs o_total o_prop o_eigvals o_eigvecs o_mean_sub o_spatial o_spectral o_fit o_decomp_only] in *.
  unfold fit_obj. cbv zeta. cbn [set_decomp_only o_cov o_n_eigs o_total o_prop o_eigvals o_eigvecs o_mean_sub o_spatial o_spectral o_fit o_decomp_only].
  destruct DE as (D1 & D2 & D3 & D4). unfold spatial_of, decomposed in ES. cbn [set_decomp_only o_n_eigs o_eigvals o_eigvecs o_mean_sub] in ES. rewrite N, D1, D2, D3 in ES.
  destruct (if a_brunt a then _ else _) as [bb|y]; cbn [bind] in ES; [|discriminate].
  destruct (autocorr_images _ _ _ _ _ _ _ _ (Z.of_nat m)) as [acors|y] eqn:EA; cbn [bind] in ES; [|discriminate].
  destruct (noise_ACF _ _ _ _ _ _ _ _ _) as [noise|y]; cbn [bind] in ES; [|discriminate]. apply O1 in ES. rewrite (images_length _ _ _ _ _ _ _ _ m acors (proj1 M) EA) in ES.
  unfold spectral_of in EV. cbn [o_n_eigs o_eigvecs] in EV. rewrite N, D2 in EV. destruct (autocorr_spec _ _ _) as [sa|y] eqn:EB; cbn [bind] in EV; [|discriminate].
  apply spec_length in EB. destruct EB as [EB M2]. apply O2 in EV. rewrite EB in EV. rewrite ES, EV, Nat.eqb_refl.
  pose proof (fit_plaw_any (e_stat e) (rows_of sp v) (e_odr e) (e_bayes e) (o_fit p) unfit (a_fit a)) as [F1 F2].
  destruct (fit_plaw _ _ _ _ (o_fit p) _) as [st x] eqn:EF. cbn [fst snd] in *. intros H. injection H as <- X.
  assert (x = None) as -> by (destruct x as [[]|]; try discriminate; reflexivity). specialize (F2 eq_refl). cbv zeta in F2. destruct F2 as (G1 & _ & _ & _ & G2).
  exists m, sp, v. cbn [o_cov o_n_eigs o_total o_prop o_eigvals o_eigvecs o_mean_sub o_spatial o_spectral o_fit]. split; [lia|]. split; [exact N|].
  split; [unfold decomposition; cbn [o_cov o_n_eigs o_total o_prop o_eigvals o_eigvecs o_mean_sub]; auto|].
  split; [exact CO|]. split; [exact P|]. split; [reflexivity|]. split; [reflexivity|]. split; [exact ES|]. split; [exact EV|].
  destruct (fit_plaw _ _ _ _ unfit _) as [st2 x2] eqn:EU. cbn [fst snd] in *. subst x2. exists st2. split; [reflexivity|]. split; [now symmetry|].
  split; [|intros; now rewrite G2]. rewrite G1. clear -EF. unfold fit_plaw in EF. destruct (_ && _); [discriminate|]. destruct (limit_pixels _ _); [|discriminate].
  destruct (limit_pixels _ _); [|discriminate]. destruct (fit_rows _ _ _); [|discriminate]. destruct (String.eqb _ "odr"); injection EF as <-; discriminate.
Qed.

Lemma decomp_run e o a o' : eigh_ok e -> a_decomp_only a = true -> run e o a = (o', None) ->
  decomposition e o' (a_mean_sub a) /\ same_widths o o' /\ o_fit o' = o_fit o.
Proof.
  intros OK D. unfold run. destruct (match a_beam a with Some b => _ | None => _ end) as [beam|x]; [|discriminate].
  destruct (compute_pca e o _ _ _ _) as [p x] eqn:EC. apply compute_inv in EC; [|assumption]. destruct EC as (W & F & EC).
  destruct x as [x|]; cbn [also]; [discriminate|]. destruct EC as [[C _]|(_ & DE & _)]; [now contradiction C|]. rewrite D. cbv zeta. intros [= <-].
  split; [exact DE|]. split; [exact W|exact F].
Qed.
Lemma stale e o a o1 a' o2 : eigh_ok e -> run e o a = (o1, None) -> a_decomp_only a' = true -> run e o1 a' = (o2, None) ->
  decomposition e o2 (a_mean_sub a') /\ same_widths o1 o2 /\ same_fit o1 o2.
Proof.
  intros OK _ D R. destruct (decomp_run e o1 a' o2 OK D R) as [A [B C]]. split; [exact A|]. split; [exact B|]. unfold same_fit. rewrite C. auto 10.
Qed.

Lemma single_run e o a beam : eigh_ok e -> (1 <= e_ny e)%nat -> a_decomp_only a = false -> a_n_eigs a = Count 1 -> a_beam a = Some beam ->
  exists o' x, run e o a = (o', Some x) /\ decomposition e o' (a_mean_sub a) /\ same_widths o o' /\ o_fit o' = o_fit o.
Proof.
  intros OK Y D N B. unfold run. rewrite B. destruct (compute_pca e o _ _ _ _) as [p x] eqn:EC. pose proof EC as EC'. apply compute_inv in EC; [|assumption]. destruct EC as (W & F & EC).
  destruct EC as [[C _]|(-> & DE & _ & m & M & NE & _ & CH)].
  - exfalso. apply C. unfold compute_pca in EC'. rewrite N in EC'. destruct (e_eigh e _) as [l V]. rewrite choose_count in EC' by apply OK.
    change (1 =? -1)%Z with false in EC'. change (1 <=? 1)%Z with true in EC'. destruct (Z.leb_spec 1 (Z.of_nat (e_nz e))); [|destruct OK; lia].
    cbn [andb] in EC'. destruct (variance_summary _ _ _). now injection EC' as _ <-.
  - cbn [also]. rewrite D. cbv zeta. unfold find_spatial, spatial_of, decomposed. cbn [set_decomp_only o_n_eigs o_eigvals o_eigvecs o_mean_sub].
    destruct DE as (D1 & D2 & D3 & D4). rewrite NE, D1, D2, D3.
    rewrite N, choose_count in CH by apply OK. change (1 =? -1)%Z with false in CH. change (1 <=? 1)%Z with true in CH. destruct (Z.leb_spec 1 (Z.of_nat (e_nz e))); [|destruct OK; lia].
    cbn [andb] in CH. injection CH as CH. rewrite <- CH. destruct OK as [Z1 _].
    destruct (a_brunt a); cbn [bind]; rewrite autocorr_single by assumption; cbn [bind also]; (eexists; eexists; split; [reflexivity|]; split; [unfold decomposition; auto|]; split; [exact W|exact F]).
Qed.

(** ** The beam *)
Lemma no_beam e o a x : e_beam e = Err x -> a_beam a = None -> a_brunt a = true -> a_decomp_only a = false -> run e o a = (o, Some ValueError).
Proof. intros E B U D. unfold run. now rewrite B, U, D, E. Qed.
Lemma beam_unused e o a b : a_beam a <> None \/ a_brunt a = false \/ a_decomp_only a = true -> run (with_beam e b) o a = run e o a.
Proof.
  intros H. unfold run. destruct (a_beam a) as [f|] eqn:B.
  - change (compute_pca (with_beam e b)) with (compute_pca e). destruct (compute_pca e o _ _ _ _) as [p [x|]]; cbn [also]; [reflexivity|]. cbv zeta. destruct (a_decomp_only a); [reflexivity|].
    unfold find_spatial. assert (E : spatial_of (with_beam e b) (set_decomp_only p false) (a_spatial a) (a_brunt a) (Some f) = spatial_of e (set_decomp_only p false) (a_spatial a) (a_brunt a) (Some f)) by reflexivity.
    now rewrite E.
  - destruct (a_brunt a) eqn:U; cbn [andb].
    + destruct H as [H|[H|H]]; [congruence|discriminate|]. rewrite H. cbn [negb]. change (compute_pca (with_beam e b)) with (compute_pca e). reflexivity.
    + change (compute_pca (with_beam e b)) with (compute_pca e). destruct (compute_pca e o _ _ _ _) as [p [x|]]; cbn [also]; [reflexivity|]. cbv zeta. destruct (a_decomp_only a); [reflexivity|].
      unfold find_spatial. assert (E : spatial_of (with_beam e b) (set_decomp_only p false) (a_spatial a) false None = spatial_of e (set_decomp_only p false) (a_spatial a) false None) by reflexivity.
      now rewrite E.
Qed.
Definition give_beam (a : run_args) (b : R) : run_args :=
  mk_args (a_mean_sub a) (a_decomp_only a) (a_n_eigs a) (a_min_eigval a) (a_cut a) (a_spatial a) (a_spectral a) (a_fit a) (Some b) (a_brunt a).
Lemma header_beam e o a b : e_beam e = Ok b -> a_beam a = None -> a_brunt a = true -> a_decomp_only a = false -> run e o a = run e o (give_beam a b).
Proof. intros E B U D. unfold run. cbn [give_beam a_mean_sub a_decomp_only a_n_eigs a_min_eigval a_cut a_spatial a_spectral a_fit a_beam a_brunt]. now rewrite B, U, D, E. Qed.

(** ** Objects given to PCA_Distance *)
Lemma given_object e o n ms ms0 : eigh_ok e -> decomposition e o ms0 -> (1 <= n < e_nz e)%nat ->
  exists o', given_to_distance e o (Z.of_nat n) ms = (o', None) /\ o_eigvals o' = Some (eigvals_of e ms0) /\ o_n_eigs o' = Some (Z.of_nat n) /\ o_prop o' = o_prop o.
Proof.
  intros [Z1 OK] (D1 & _) N. destruct (OK ms0) as [L _]. unfold given_to_distance. rewrite D1. destruct (set_n_prop o (Z.of_nat n) ltac:(lia)) as (o' & -> & A & B & C). cbn [also].
  rewrite L. destruct (Z.leb_spec (Z.of_nat (e_nz e)) (Z.of_nat n)); [lia|]. exists o'. rewrite C. auto.
Qed.
Lemma given_new e n ms : eigh_ok e -> (1 <= n <= e_nz e)%nat ->
  exists o', given_to_distance e new_pca (Z.of_nat n) ms = (o', None) /\ o_eigvals o' = Some (eigvals_of e ms).
Proof.
  intros OK N. unfold given_to_distance. cbn [new_pca o_eigvals]. unfold run. cbn [a_beam a_brunt a_decomp_only negb andb a_mean_sub a_n_eigs a_min_eigval a_cut].
  destruct (compute_pca e new_pca _ _ _ _) as [p x] eqn:EC. pose proof EC as EC'. apply compute_inv in EC; [|assumption]. destruct EC as (W & F & EC).
  destruct EC as [[C _]|(-> & (DE & _) & _)].
  - exfalso. apply C. unfold compute_pca in EC'. destruct (e_eigh e _) as [l V]. rewrite choose_count in EC' by apply OK.
    destruct (Z.eqb_spec (Z.of_nat n) (-1)); [lia|]. destruct (Z.leb_spec 1 (Z.of_nat n)); [|lia]. destruct (Z.leb_spec (Z.of_nat n) (Z.of_nat (e_nz e))); [|lia].
    cbn [andb] in EC'. destruct (variance_summary _ _ _). now injection EC' as _ <-.
  - cbn [also]. eexists. split; [reflexivity|exact DE].
Qed.
Lemma objects_value e1 e2 o1 o2 ms1 ms2 n ms : eigh_ok e1 -> eigh_ok e2 -> decomposition e1 o1 ms1 -> decomposition e2 o2 ms2 -> (1 <= n < e_nz e1)%nat -> (n < e_nz e2)%nat ->
  objects_distance e1 e2 o1 o2 (Z.of_nat n) ms = pca_distance ms (Z.of_nat n) (eigvals_of e1 ms1) (eigvals_of e2 ms2).
Proof.
  intros K1 K2 D1 D2 N1 N2. unfold objects_distance. destruct (given_object e1 o1 n ms ms1 K1 D1 N1) as (p1 & -> & -> & _).
  destruct (given_object e2 o2 n ms ms2 K2 D2 ltac:(lia)) as (p2 & -> & -> & _). reflexivity.
Qed.
Lemma cubes_value e1 e2 n ms : eigh_ok e1 -> eigh_ok e2 -> (1 <= n <= e_nz e1)%nat -> (n <= e_nz e2)%nat ->
  cubes_distance e1 e2 (Z.of_nat n) ms = pca_distance ms (Z.of_nat n) (eigvals_of e1 ms) (eigvals_of e2 ms).
Proof.
  intros K1 K2 N1 N2. unfold cubes_distance, objects_distance. destruct (given_new e1 n ms K1 N1) as (p1 & -> & ->). destruct (given_new e2 n ms K2 ltac:(lia)) as (p2 & -> & ->). reflexivity.
Qed.
Lemma refused_given e o ms0 ms n : eigh_ok e -> decomposition e o ms0 -> (Z.of_nat (e_nz e) <= n)%Z ->
  exists o', given_to_distance e o n ms = (o', Some ValueError) /\ o_n_eigs o' = Some n /\ o_prop o' = o_prop o.
Proof.
  intros [Z1 OK] (D1 & _) N. destruct (OK ms0) as [L _]. unfold given_to_distance. rewrite D1. destruct (set_n_prop o n ltac:(lia)) as (o' & -> & A & B & C). cbn [also].
  rewrite L. destruct (Z.leb_spec (Z.of_nat (e_nz e)) n); [|lia]. exists o'. auto.
Qed.
(** With more components than channels the spatial widths cannot be computed *)
Lemma too_many e o ms n m brunt beam : decomposition e o ms -> o_n_eigs o = Some n -> (Z.of_nat (e_nz e) < n)%Z ->
  exists x, find_spatial e o m brunt beam = (o, Some x).
Proof.
  intros (D1 & D2 & D3 & _) N L. unfold find_spatial, spatial_of, decomposed. rewrite N, D1, D2, D3. destruct (if brunt then _ else _) as [bb|x]; cbn [bind]; [|eauto].
  unfold autocorr_images at 1, eigimages. destruct (Z.ltb_spec 0 n); [|lia]. cbn [bind].
  assert (E : existsb (fun i => Nat.leb (e_nz e) i) (seq 0 (Z.to_nat n)) = true).
  { apply existsb_exists. exists (e_nz e). split; [apply in_seq; lia|apply Nat.leb_refl]. }
  rewrite E. cbn [bind]. eauto.
Qed.

(** ** Forms of the theorems *)
Lemma one_decomposition e l : eigh_ok e -> let o := history e new_pca l in
  (forall n, o_n_eigs o = Some n -> (1 <= n)%Z) /\
  (undecomposed o \/ exists ms k n, decomposition e o ms /\ o_n_eigs o = Some n /\ (1 <= k <= e_nz e)%nat /\ o_prop o = Some (proportion_of e ms k)).
Proof. intros OK. exact (history_sound e l OK new_pca (new_sound e)). Qed.
Lemma computed e o ms n v k o' x : eigh_ok e -> do_call e o (CCompute ms n v k) = (o', x) ->
  (x = None -> decomposition e o' ms /\ o_cov o' = Some (e_cov e ms) /\
     exists m, (1 <= m <= e_nz e)%nat /\ o_n_eigs o' = Some (Z.of_nat m) /\ o_prop o' = Some (proportion_of e ms m) /\
       match n with Count c => c = Z.of_nat m \/ (c = -1)%Z /\ m = e_nz e | Auto => v <> None end) /\
  (x <> None -> o_n_eigs o' = o_n_eigs o /\ o_prop o' = o_prop o /\ o_eigvals o' = o_eigvals o /\ o_eigvecs o' = o_eigvecs o /\ o_mean_sub o' = o_mean_sub o /\ o_total o' = o_total o).
Proof.
  intros OK H. cbn [do_call] in H. pose proof H as H0. apply compute_inv in H; [|assumption]. destruct H as (_ & _ & [[C K]|(-> & D & CO & m & M & N & P & CH)]).
  - split; [intros ->; now contradiction C|]. intros _. unfold keeps in K. intuition congruence.
  - split; [|intros C; now contradiction C]. intros _. split; [exact D|]. split; [exact CO|]. exists m. split; [exact M|]. split; [exact N|]. split; [exact P|].
    destruct n as [|c].
    + intros ->. unfold compute_pca in H0. discriminate.
    + rewrite choose_count in CH by apply OK. destruct (Z.eqb_spec c (-1)); [right; injection CH as CH; split; [assumption|lia]|]. destruct (_ && _); [|discriminate]. injection CH as CH. now left.
Qed.
Lemma objects_cubes e1 e2 o1 o2 n ms : eigh_ok e1 -> eigh_ok e2 -> decomposition e1 o1 ms -> decomposition e2 o2 ms -> (1 <= n < e_nz e1)%nat -> (n < e_nz e2)%nat ->
  objects_distance e1 e2 o1 o2 (Z.of_nat n) ms = cubes_distance e1 e2 (Z.of_nat n) ms.
Proof. intros K1 K2 D1 D2 N1 N2. rewrite (objects_value e1 e2 o1 o2 ms ms n ms), (cubes_value e1 e2 n ms) by (assumption || lia). reflexivity. Qed.
Lemma changed_given e o ms0 ms n : eigh_ok e -> decomposition e o ms0 -> (Z.of_nat (e_nz e) <= n)%Z ->
  exists o', do_call e o (CDistance n ms) = (o', Some ValueError) /\ decomposition e o' ms0 /\ o_n_eigs o' = Some n /\ o_prop o' = o_prop o /\
    ((Z.of_nat (e_nz e) < n)%Z -> forall m brunt beam, exists x, do_call e o' (CSpatial m brunt beam) = (o', Some x)).
Proof.
  intros [Z1 OK] D N. pose proof D as (D1 & _). destruct (OK ms0) as [L _]. cbn [do_call]. unfold given_to_distance. rewrite D1. unfold set_n, n_eigs_setter. destruct (Z.leb_spec n 0); [lia|]. cbn [also].
  rewrite L. destruct (Z.leb_spec (Z.of_nat (e_nz e)) n); [|lia]. eexists. split; [reflexivity|]. split; [exact D|]. split; [reflexivity|]. split; [reflexivity|]. intros N' m brunt beam.
  eapply too_many; [exact D|reflexivity|exact N'].
Qed.
