(** Wrappers and concrete cases for the properties of windows, 2D fits and
    synthetic fields. *)
From Coq Require Import Reals String List ZArith Arith Bool Lra Lia Permutation.
From Coquelicot Require Import Coquelicot.
From Coq Require Import List.
From Verif Require Import Lib.PyBase Lib.RSum Lib.Fl Lib.PySlice Lib.Arr Lib.DFT Lib.DFT2 Lib.DFT3
  Spec.Freq Spec.Taper Spec.EllipFit Spec.Fields Model.StatsUtils Model.Psds Model.Apodize Model.EllipPlaw Model.GenField
  Proofs.Apodize_Proofs Proofs.EllipPlaw_Proofs Proofs.EllipFit_Proofs Proofs.GenField_Proofs Proofs.GenField3_Proofs.
Import ListNotations.
Local Open Scope R_scope.

Lemma ex_half_width : half_width 9 9 = 4.
Proof. unfold half_width. cbn [Nat.min INR]. field. Qed.
Lemma ex_centre : centre_dist 9 9 4 4 = 0.
Proof. unfold centre_dist. replace ((INR 4 - (INR 9 - 1) / 2)² + (INR 4 - (INR 9 - 1) / 2)²) with 0; [apply sqrt_0|]. unfold Rsqr. cbn [INR]. field. Qed.
Lemma ex_edge : centre_dist 9 9 0 4 = 4.
Proof.
  unfold centre_dist. replace ((INR 0 - (INR 9 - 1) / 2)² + (INR 4 - (INR 9 - 1) / 2)²) with (4²); [apply sqrt_Rsqr; lra|]. unfold Rsqr. cbn [INR]. field.
Qed.
Lemma ex_corner : 5 < centre_dist 9 9 0 0.
Proof.
  unfold centre_dist. rewrite <- (sqrt_Rsqr 5) by lra. apply sqrt_lt_1; unfold Rsqr; cbn [INR]; lra.
Qed.

Lemma ex_window : window_at (Tukey (1 / 2)) 9 9 4 4 = 1 /\ window_at (Tukey (1 / 2)) 9 9 0 4 = 0 /\ window_at (Tukey (1 / 2)) 9 9 0 0 = 0.
Proof.
  split; [|split].
  - apply window_inside; [lia|lia|cbn [alpha Tukey]; lra|]. rewrite ex_half_width, ex_centre. cbn [beta Tukey]. lra.
  - apply tukey_edge; rewrite ?ex_half_width, ?ex_edge; lra.
  - apply window_outside. rewrite ex_half_width. pose proof ex_corner. cbn [beta alpha Tukey]. lra.
Qed.

Lemma ex_edge_hyps : 1 <= 1 / 2 * half_width 9 9 /\ half_width 9 9 <= centre_dist 9 9 0 4 /\ 1 <= half_width 9 9.
Proof. rewrite ex_half_width, ex_edge. lra. Qed.

(** The four names and their windows. *)
Lemma kernel_names data centroid kt a b sh n0 n1 K i j :
  (data = Some sh \/ (data = None /\ centroid = Some sh)) -> (sh = [n0; n1] \/ exists nv, sh = [nv; n0; n1]) ->
  apodizing_kernel data centroid kt a b = Ok K -> (i < n0)%nat -> (j < n1)%nat ->
  (kt = "splitcosinebell"%string /\ at2 0 K i j = window_at (SplitCosineBell a b) n0 n1 i j) \/
  (kt = "hanning"%string /\ at2 0 K i j = window_at Hanning n0 n1 i j) \/
  (kt = "tukey"%string /\ at2 0 K i j = window_at (Tukey a) n0 n1 i j) \/
  (kt = "cosinebell"%string /\ at2 0 K i j = window_at (CosineBell a) n0 n1 i j).
Proof.
  intros HD HS HK Hi Hj. destruct (kernel_at _ _ _ _ _ _ _ _ _ _ _ HD HS HK Hi Hj) as [w [Hw E]]. rewrite E. clear - Hw. unfold window_of in Hw.
  destruct (String.eqb_spec kt "splitcosinebell"); [inversion Hw; auto|].
  destruct (String.eqb_spec kt "hanning"); [inversion Hw; auto|].
  destruct (String.eqb_spec kt "tukey"); [inversion Hw; auto|].
  destruct (String.eqb_spec kt "cosinebell"); [inversion Hw; auto|discriminate].
Qed.

Lemma kernel_total data centroid kt a b sh n0 n1 :
  (data = Some sh \/ (data = None /\ centroid = Some sh)) -> (sh = [n0; n1] \/ exists nv, sh = [nv; n0; n1]) ->
  (In kt ["splitcosinebell"; "hanning"; "tukey"; "cosinebell"]%string -> exists K, apodizing_kernel data centroid kt a b = Ok K /\ has_shape2 n0 n1 K) /\
  (~ In kt ["splitcosinebell"; "hanning"; "tukey"; "cosinebell"]%string -> apodizing_kernel data centroid kt a b = Err ValueError).
Proof.
  intros HD HS. rewrite (kernel_ok _ _ kt a b _ _ _ HD HS). unfold window_of.
  assert (T : forall w, has_shape2 n0 n1 (tab2 n0 n1 (window_at w n0 n1))).
  { intros w. unfold has_shape2, tab2. rewrite tab1_length. split; [reflexivity|]. intros r Hr. apply in_map_iff in Hr. destruct Hr as [k [<- _]]. apply tab1_length. }
  destruct (String.eqb_spec kt "splitcosinebell") as [->|N1]; [split; [intros _; eexists; split; [reflexivity|apply T]|intros H; exfalso; apply H; left; reflexivity]|].
  destruct (String.eqb_spec kt "hanning") as [->|N2]; [split; [intros _; eexists; split; [reflexivity|apply T]|intros H; exfalso; apply H; right; left; reflexivity]|].
  destruct (String.eqb_spec kt "tukey") as [->|N3]; [split; [intros _; eexists; split; [reflexivity|apply T]|intros H; exfalso; apply H; right; right; left; reflexivity]|].
  destruct (String.eqb_spec kt "cosinebell") as [->|N4]; [split; [intros _; eexists; split; [reflexivity|apply T]|intros H; exfalso; apply H; right; right; right; left; reflexivity]|].
  split; [intros [E|[E|[E|[E|[]]]]]; congruence|reflexivity].
Qed.

Lemma ex_kernel : exists K, apodizing_kernel (Some [5; 9; 9]%nat) None "tukey" (1 / 2) 0 = Ok K /\ at2 0 K 0 4 = 0 /\ at2 0 K 4 4 = 1.
Proof.
  assert (H : apodizing_kernel (Some [5; 9; 9]%nat) None "tukey" (1 / 2) 0 = Ok (tab2 9 9 (window_at (Tukey (1 / 2)) 9 9))) by reflexivity.
  assert (HD : Some [5; 9; 9]%nat = Some [5; 9; 9]%nat \/ (Some [5; 9; 9]%nat = None /\ @None (list nat) = Some [5; 9; 9]%nat)) by (left; reflexivity).
  assert (HS : [5; 9; 9]%nat = [9; 9]%nat \/ exists nv, [5; 9; 9]%nat = [nv; 9; 9]%nat) by (right; eexists; reflexivity).
  eexists. split; [exact H|]. destruct ex_window as [W1 [W2 _]].
  assert (L0 : (0 < 9)%nat) by lia. assert (L4 : (4 < 9)%nat) by lia.
  destruct (kernel_at _ _ _ _ _ _ _ _ _ _ _ HD HS H L0 L4) as [w [Hw E]]. destruct (kernel_at _ _ _ _ _ _ _ _ _ _ _ HD HS H L4 L4) as [w' [Hw' E']].
  rewrite E, E'. cbn in Hw, Hw'. apply (f_equal (fun x => match x with Some y => y | None => w end)) in Hw. apply (f_equal (fun x => match x with Some y => y | None => w' end)) in Hw'.
  subst w w'. split; assumption.
Qed.

Lemma ex_evaluate : evaluate 3 4 1 PInf 0 (-2) = Fin (1 + (-2) * log10 5).
Proof.
  rewrite evaluate_isotropic by (left; lra). do 4 f_equal. replace (3 ^ 2 + 4 ^ 2) with (5²) by (unfold Rsqr; ring). apply sqrt_Rsqr. lra.
Qed.

Lemma ex_interval : 0 < 1 / 4 < 1 /\ interval_transform (1 / 4) 0 1 = - ln 3 /\ inverse_interval_transform 0 2 6 = 4.
Proof.
  split; [lra|split].
  - unfold interval_transform. replace (1 / 4 - 0) with (/ 4) by field. replace (1 - 1 / 4) with (3 * / 4) by field.
    rewrite ln_mult by lra. lra.
  - unfold inverse_interval_transform. rewrite Ropp_0, exp_0. field.
Qed.

Lemma ex_form : form (1 / 2) 0 2 3 = 10 /\ 0 < 1 / 2 < 1.
Proof. unfold form. rewrite cos_0, sin_0. split; [field|lra]. Qed.

(** Concrete generated images. *)
Lemma ex_image : exists img, make_extended 4 3 (1 / 2) (1 / 2) ex_angles = Ok img /\ Cmod (mean_sq 4 ex_angles) <> 0 /\
  is_freq 4 1 (1 / 4) /\ is_freq 4 3 (- (1 / 4)).
Proof.
  destruct (make_extended_even 4 3 (1 / 2) (1 / 2) ex_angles ltac:(lia) eq_refl ltac:(lra)) as [img [o [HI _]]].
  exists img. split; [exact HI|]. rewrite ex_mean, Cmod_R, Rabs_pos_eq by lra. split; [lra|]. split; (split; [lra|]).
  - exists 0%Z. cbn [INR]. lra.
  - exists (-1)%Z. cbn [INR]. lra.
Qed.

Lemma ex_fit_flip : exists r s, fit_elliptical_powerlaw solve_flip [[0%nat]] [Fin 0] [1] [0] (mkParams 0 (Fin 0) 0 0) true true (6827 / 10000) false false = Ok r /\
  r_params r = mkParams 0 (Fin 0) 1 0 /\ store_2D r = Ok s /\ ellip2D s = Fin (1 / 2).
Proof.
  destruct (fit_ok solve_flip [[0%nat]] [0] [1] [0] (mkParams 0 (Fin 0) 0 0) true (6827 / 10000) false false) as [r Hr].
  cbn [map] in Hr.
  pose proof (fit_unfixed solve_flip [[0%nat]] [0] [1] [0] (mkParams 0 (Fin 0) 0 0) true (6827 / 10000) false r Hr) as D.
  cbv zeta in D. rewrite solve_flip_at_0, solve_flip_at_f in D. cbn [fst snd] in D.
  assert (A : r_params r = mkParams 0 (Fin 0) 1 0).
  { destruct D as [[_ [D _]]|[D _]]; [exact D|exfalso].
    cbn [misfit] in D. rewrite surface_flat in D by (left; lra).
    assert (B : surface (mkParams 5 (Fin 0) 0 (-2)) 1 0 = 5).
    { unfold surface. cbn [p_amp p_ell p_theta p_gamma]. rewrite evaluate_away by (left; lra). cbn [real_of].
      assert (Q : q_of 0 = 1 / 2) by (unfold q_of; rewrite Ropp_0, exp_0; field).
      assert (E : form (q_of 0) 0 1 0 = / 2 * / 2) by (unfold form; rewrite Q, cos_0, sin_0; field).
      rewrite E.
      exfalso. unfold surface in D. cbn [p_amp p_ell p_theta p_gamma] in D. rewrite evaluate_away in D by (left; lra). cbn [real_of] in D.
      rewrite E in D. unfold log10 in D. rewrite ln_mult in D by lra. rewrite ln_Rinv in D by lra.
      assert (L2 : 0 < ln 2) by (rewrite <- ln_1; apply ln_increasing; lra).
      assert (L10 : 0 < ln 10) by (rewrite <- ln_1; apply ln_increasing; lra).
      replace (5 + 1 / 2 * -2 * ((- ln 2 + - ln 2) / ln 10)) with (5 + 2 * (ln 2 / ln 10)) in D by (field; lra).
      assert (P : 0 < ln 2 / ln 10) by now apply Rdiv_lt_0_compat.
      rewrite (Rabs_left (0 - (5 + 2 * (ln 2 / ln 10)))) in D by lra. rewrite Rminus_0_r, Rabs_R0 in D. lra. }
    rewrite B in D. rewrite (Rabs_left (0 - 5)) in D by lra. rewrite Rminus_0_r, Rabs_R0 in D. lra. }
  assert (P0 : [[0%nat]] <> []) by discriminate.
  assert (HA : 0 <= 6827 / 10000 <= 1) by lra.
  destruct (boot_errors_nonneg solve_flip [[0%nat]] [0] [1] [0] (mkParams 0 (Fin 0) 0 0) _ false false r 0 HA P0 Hr) as [L _].
  exists r.
  destruct (r_stderrs r) as [|e0 [|e1 [|e2 [|e3 l]]]] eqn:ES; try discriminate.
  eexists. split; [exact Hr|]. split; [exact A|]. unfold store_2D. rewrite ES. cbn [nth_error]. split; [reflexivity|].
  cbn [ellip2D]. rewrite A. cbn [p_ell]. rewrite ellip_of_Fin. apply (f_equal Fin). unfold q_of. rewrite Ropp_0, exp_0. field.
Qed.

Definition solve_fixed : solver := fun p0 _ _ _ => (p0, Some [[4; 0]; [0; 9]]).
Lemma ex_fit_fixed : exists r, fit_elliptical_powerlaw solve_fixed [[0%nat]] [Fin 0] [1] [0] (mkParams 0 (Fin 0) 0 0) true false (6827 / 10000) false true = Ok r /\
  errors_of [[4; 0]; [0; 9]] (r_stderrs r) /\ store_2D r = Err IndexError.
Proof.
  destruct (fit_ok solve_fixed [[0%nat]] [0] [1] [0] (mkParams 0 (Fin 0) 0 0) false (6827 / 10000) false true) as [r Hr].
  exists r. split; [exact Hr|]. split.
  - exact (fit_fixed_errors solve_fixed [[0%nat]] [0] [1] [0] (mkParams 0 (Fin 0) 0 0) _ false r [[4; 0]; [0; 9]] Hr eq_refl).
  - exact (fit_fixed_index_error solve_fixed [[0%nat]] [0] [1] [0] (mkParams 0 (Fin 0) 0 0) _ false r [[4; 0]; [0; 9]] Hr eq_refl eq_refl).
Qed.

(** Without the bootstrap the fit with a fixed ellipticity cannot be stored. *)
Lemma fixed_unusable : ~ (forall (solve : solver) vals xs ys p0 alpha rw r cov,
  fit_elliptical_powerlaw solve [] (map Fin vals) xs ys p0 true false alpha rw true = Ok r ->
  snd (solve (mkParams (p_amp p0) PInf (p_theta p0) (p_gamma p0)) true vals (weights_of rw xs ys)) = Some cov -> length cov = 2%nat ->
  exists s, store_2D r = Ok s).
Proof.
  intros H. destruct (fit_ok solve_fixed [] [0] [1] [0] (mkParams 0 (Fin 0) 0 0) false (6827 / 10000) false true) as [r Hr].
  destruct (H solve_fixed [0] [1] [0] (mkParams 0 (Fin 0) 0 0) _ false r [[4; 0]; [0; 9]] Hr eq_refl eq_refl) as [s Hs].
  rewrite (fit_fixed_index_error solve_fixed [] [0] [1] [0] (mkParams 0 (Fin 0) 0 0) _ false r [[4; 0]; [0; 9]] Hr eq_refl eq_refl) in Hs. discriminate.
Qed.

Lemma ex_refuses : ~ (forall v, In v [Fin 1; NaN] -> is_fin v = true).
Proof. intros H. specialize (H NaN (or_intror (or_introl eq_refl))). discriminate. Qed.

Lemma errors_refuted : ~ (forall (solve : solver) vals xs ys p0 alpha r cov,
  fit_elliptical_powerlaw solve [] (map Fin vals) xs ys p0 true false alpha false false = Ok r ->
  (solve p0 false vals None = (r_params r, Some cov) \/ solve (flip_p0 p0) false vals None = (r_params r, Some cov)) ->
  errors_of cov (r_stderrs r)).
Proof.
  intros H. destruct errors_lost as [r [Hr [Hs Hn]]]. apply Hn. exact (H solve_flip [0] [1] [0] (mkParams 0 (Fin 0) 0 0) _ r (ex_cov 4) Hr (or_intror Hs)).
Qed.

(** What is stored: angle, ellipticity and its error. *)
Lemma ex_resample : Permutation [1; 0]%nat (seq 0 2) /\ resample [5; 7] [4; 4] [1; 0]%nat = [5 + (7 - 4); 7 + (5 - 4)].
Proof. split; [apply perm_swap|reflexivity]. Qed.

Lemma ex_cube : (4 <= 6)%nat /\ Nat.even 6 = true /\ 3 <> 0 /\ rms3 1 1 2 (fun _ _ k => if Nat.eqb k 0 then 3 else -3) = 3.
Proof.
  split; [lia|]. split; [reflexivity|]. split; [lra|]. unfold rms3. cbn [rsum Nat.eqb Nat.mul Nat.add INR].
  match goal with |- sqrt ?x = _ => replace x with (3²) end; [apply sqrt_Rsqr; lra|]. unfold Rsqr. field.
Qed.

Lemma ex_tukey_thin : ~ (forall a n i j, (3 <= n)%nat -> 0 <= a <= 1 -> half_width n n <= centre_dist n n i j -> window_at (Tukey a) n n i j = 0).
Proof.
  intros H. assert (O : Nat.odd 9 = true) by reflexivity. pose proof (thin_tukey_edge 9 ltac:(lia) O) as T.
  change ((9 - 1) / 2)%nat with 4%nat in T. rewrite H in T; [lra|lia|lra|].
  rewrite ex_half_width. unfold centre_dist. replace ((INR 4 - (INR 9 - 1) / 2)² + (INR 0 - (INR 9 - 1) / 2)²) with (4²); [rewrite sqrt_Rsqr; lra|]. unfold Rsqr. cbn [INR]. field.
Qed.

Lemma image_fft N p th e ang : (1 <= N)%nat -> Nat.even N = true -> 0 < e <= 1 -> exists img F,
  make_extended N p th e ang = Ok img /\ extended_fft N p th e ang = Ok F /\
  forall ky kx, (ky < N)%nat -> (kx < N)%nat ->
    dft2 N N (fun y x => RtoC (at2 0 img y x)) ky kx = at2 (RtoC 0) F (centred N ky) (centred N kx).
Proof.
  intros HN Ev He. destruct (make_extended_even N p th e ang HN Ev He) as [img [o [HI [HO [HR [_ [_ HF]]]]]]].
  destruct (full_map_ok N o HN) as [full [Hf Ef]].
  exists img. eexists. split; [exact HI|]. split; [unfold extended_fft; rewrite HO; cbn [bind]; rewrite Hf; reflexivity|].
  intros ky kx Hy Hx. rewrite HF by assumption. rewrite Ef.
  rewrite Psds_Proofs.fftshift2_tab by assumption. rewrite Psds_Proofs.at2_tab by now apply centred_lt.
  rewrite !unshift_centred by assumption. reflexivity.
Qed.

Lemma odd_sizes N p th e amp ang2 ang3 : (3 <= N)%nat -> Nat.odd N = true -> 0 < e <= 1 ->
  (exists img, make_extended N p th e ang2 = Ok img /\ has_shape2 N (N - 1) img) /\
  (exists cube, make_3dfield N p amp ang3 = Ok cube /\ has_shape3 N N (N - 1) cube).
Proof. intros. split; [apply make_extended_odd; auto; lia|now apply make_3dfield_odd]. Qed.

Lemma even_sizes N p th e amp ang2 ang3 : (4 <= N)%nat -> Nat.even N = true -> 0 < e <= 1 -> amp <> 0 ->
  (exists img, make_extended N p th e ang2 = Ok img /\ has_shape2 N N img) /\
  exists cube, make_3dfield N p amp ang3 = Ok cube /\ has_shape3 N N N cube /\
  exists v : nat -> nat -> nat -> R,
    (forall i j k, (i < N)%nat -> (j < N)%nat -> (k < N)%nat -> nth k (nth j (nth i cube []) []) NaN = Fin (v i j k)) /\
    rms3 N N N v = Rabs amp.
Proof.
  intros HN Ev He Ha. split; [|now apply make_3dfield_even].
  destruct (make_extended_even N p th e ang2 ltac:(lia) Ev He) as [img [o [H1 [_ [_ [H2 _]]]]]]. exists img. auto.
Qed.

Lemma errors_are solve perms vals xs ys p0 alpha rw r :
  fit_elliptical_powerlaw solve perms (map Fin vals) xs ys p0 true false alpha rw false = Ok r ->
  (r_params r = fst (solve (flip_p0 p0) false vals (weights_of rw xs ys)) /\ r_stderrs r = [NaN; NaN; NaN; NaN]) \/
  (r_params r = fst (solve p0 false vals (weights_of rw xs ys)) /\
   forall cov, snd (solve (flip_p0 p0) false vals (weights_of rw xs ys)) = Some cov -> errors_of cov (r_stderrs r)).
Proof.
  intros H. destruct (fit_unfixed _ _ _ _ _ _ _ _ _ _ H) as [[_ [A B]]|[_ [A B]]]; [left; auto|right]. split; [exact A|].
  intros cov E. rewrite (B eq_refl), E. apply diag_errs_spec.
Qed.

Lemma unit_factor N p ang img ky kx fy fx : Nat.even N = true -> (1 <= N)%nat -> Cmod (mean_sq N ang) <> 0 ->
  make_extended N p 0 1 ang = Ok img -> (ky < N)%nat -> (kx < N)%nat -> ky <> 0%nat \/ kx <> 0%nat ->
  is_freq N ky fy -> is_freq N kx fx -> fy <> - (1 / 2) -> fx <> - (1 / 2) ->
  1 <= / Cmod (mean_sq N ang) /\
  Cnorm2 (dft2 N N (fun y x => RtoC (at2 0 img y x)) ky kx) = / Cmod (mean_sq N ang) * Rpower (sqrt (fx ^ 2 + fy ^ 2)) (- p).
Proof.
  intros Ev HN M HI Hy Hx K Fy Fx Ny Nx. split.
  - pose proof (mean_sq_le N ang HN). pose proof (Cmod_ge_0 (mean_sq N ang)). rewrite <- Rinv_1. apply Rinv_le_contravar; lra.
  - assert (He : 0 < 1 <= 1) by lra. pose proof (image_power N p 0 1 ang img ky kx fy fx Ev HN He M HI Hy Hx K Fy Fx Ny Nx) as B.
    rewrite B, form_circle. unfold Rdiv. apply Rmult_comm.
Qed.

Lemma store_ellip_both r s t : store_2D r = Ok s -> p_ell (r_params r) = Fin t ->
  (exists q, ellip2D s = Fin q /\ 0 < q < 1 /\ interval_transform q 0 1 = t) /\
  (forall e d, nth_error (r_stderrs r) 1 = Some (Fin e) -> is_derive (fun t => inverse_interval_transform t 0 1) t d ->
    ellip2D_err s = Fin (Rabs d * e)).
Proof.
  intros H E. split; [exact (store_ellip r s t H E)|]. intros e d H1 Hd. rewrite (store_ellip_err r s t e H E H1). apply (f_equal Fin).
  now apply inverse_stderr.
Qed.

Lemma fit_lowest_ok solve perms vals xs ys p0 bootstrap alpha rw : exists r,
  fit_elliptical_powerlaw solve perms (map Fin vals) xs ys p0 true bootstrap alpha rw false = Ok r /\
  (r_params r = fst (solve p0 false vals (weights_of rw xs ys)) \/ r_params r = fst (solve (flip_p0 p0) false vals (weights_of rw xs ys))) /\
  misfit (surface (r_params r)) xs ys vals <= misfit (surface (fst (solve p0 false vals (weights_of rw xs ys)))) xs ys vals /\
  misfit (surface (r_params r)) xs ys vals <= misfit (surface (fst (solve (flip_p0 p0) false vals (weights_of rw xs ys)))) xs ys vals.
Proof.
  destruct (fit_ok solve perms vals xs ys p0 bootstrap alpha rw false) as [r Hr]. exists r. split; [exact Hr|].
  exact (fit_lowest _ _ _ _ _ _ _ _ _ _ Hr).
Qed.

Lemma rfft3_half N cube : has_shape3 N N (S (N / 2)) (rfft3 N cube).
Proof. rewrite <- np1_half. apply rfft3_shape. Qed.

Lemma ex_output3 : exists o, output3 4 2 (fun _ _ _ => 0) = Ok o.
Proof. destruct (output3_ok 4 2 (fun _ _ _ => 0) ltac:(lia)) as [o [E _]]. exists o. exact E. Qed.
