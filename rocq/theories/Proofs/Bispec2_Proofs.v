(** Shifts, factors, offsets and the tracker of the bispectrum (C153-C155). *)
From Coq Require Import Reals List ZArith Arith Bool Lia Lra.
From Coquelicot Require Import Complex.
From Verif Require Import Lib.PyBase Lib.Arr Lib.DFT Lib.Fl Lib.RSum Model.Bispec Spec.Waves Proofs.Bispec_Proofs Proofs.ThreeD_Proofs.
Import ListNotations.
Local Open Scope R_scope.

(** ** Shifts *)
Definition phase (ny nx s0 s1 : nat) (k : Z * Z) : C := cis (2 * PI * (IZR (fst k) * INR s0 / INR ny + IZR (snd k) * INR s1 / INR nx)).

Lemma mode_roll ny nx s0 s1 data k : (0 < ny)%nat -> (0 < nx)%nat ->
  mode ny nx (rolled ny nx s0 s1 data) k = Cmult (phase ny nx s0 s1 k) (mode ny nx data k).
Proof.
  intros Y X. rewrite <- !mode_dft by assumption. unfold pidx. cbn [fst snd]. rewrite !dft2_rows.
  rewrite (dft1_ext ny _ (fun y => Cmult (Cconj (tw nx s1 (widx nx (snd k)))) ((fun y => dft1 nx (fun x => RtoC (data y x)) (widx nx (snd k))) ((y + s0) mod ny)%nat))).
  - assert (S : forall c x, dft1 ny (fun y => Cmult c (x y)) (widx ny (fst k)) = Cmult c (dft1 ny x (widx ny (fst k)))).
    { intros c x. unfold dft1. rewrite <- csum_scal. apply csum_ext. intros. apply Ceq; cbn; ring. }
    rewrite S. rewrite (dft1_roll ny (fun y => dft1 nx (fun x => RtoC (data y x)) (widx nx (snd k)))) by assumption.
    rewrite !tw_Z by assumption. rewrite <- !cis_opp, !Ropp_involutive. rewrite Cmult_assoc, <- cis_plus. apply f_equal2; [| reflexivity]. unfold phase. apply f_equal. ring.
  - intros y _. unfold rolled. apply (dft1_roll nx (fun x => RtoC (data ((y + s0) mod ny)%nat x))). assumption.
Qed.

Lemma phase_sum ny nx s0 s1 a b : Cmult (phase ny nx s0 s1 a) (phase ny nx s0 s1 b) = phase ny nx s0 s1 (wave_sum a b).
Proof. unfold phase. rewrite <- cis_plus. unfold wave_sum. cbn [fst snd]. rewrite !plus_IZR. apply f_equal. unfold Rdiv. ring. Qed.

Lemma triple_roll ny nx s0 s1 data a b : (0 < ny)%nat -> (0 < nx)%nat ->
  triple (mode ny nx (rolled ny nx s0 s1 data)) a b (wave_sum a b) = triple (mode ny nx data) a b (wave_sum a b).
Proof.
  intros Y X. unfold triple. rewrite !mode_roll by assumption. rewrite Cconj_mult. rewrite <- phase_sum.
  set (p := phase ny nx s0 s1 a). set (q := phase ny nx s0 s1 b).
  set (u := mode ny nx data a). set (v := mode ny nx data b). set (w := Cconj (mode ny nx data (wave_sum a b))).
  assert (P : Cmult p (Cconj p) = RtoC 1) by apply cis_conj_r. assert (Q : Cmult q (Cconj q) = RtoC 1) by apply cis_conj_r.
  rewrite Cconj_mult. transitivity (Cmult (Cmult (Cmult p (Cconj p)) (Cmult q (Cconj q))) (Cmult (Cmult u v) w)).
  - apply Ceq; cbn; ring.
  - rewrite P, Q, !Cmult_1_l. reflexivity.
Qed.

Lemma mode_ext ny nx d e k : (forall i j, (i < ny)%nat -> (j < nx)%nat -> d i j = e i j) -> mode ny nx d k = mode ny nx e k.
Proof. intro H. unfold mode. apply csum_ext. intros i I. apply csum_ext. intros j J. now rewrite H. Qed.

Lemma sum2_roll ny nx s0 s1 (g : nat -> nat -> R) : (0 < ny)%nat -> (0 < nx)%nat ->
  rsum ny (fun i => rsum nx (fun j => rolled ny nx s0 s1 g i j)) = rsum ny (fun i => rsum nx (fun j => g i j)).
Proof.
  intros Y X. apply RtoC_inj. pose proof (mode_roll ny nx s0 s1 g (0, 0)%Z Y X) as H.
  assert (Z : forall d, mode ny nx d (0, 0)%Z = RtoC (rsum ny (fun i => rsum nx (fun j => d i j)))).
  { intro d. unfold mode. rewrite <- csum_RtoC. apply csum_ext. intros i _. rewrite <- csum_RtoC. apply csum_ext. intros j _. cbn [fst snd].
    replace (- (2 * PI * (0 * INR i / INR ny + 0 * INR j / INR nx))) with 0 by (unfold Rdiv; ring). rewrite cis_0. apply Cmult_1_r. }
  rewrite !Z in H. rewrite H. unfold phase. cbn [fst snd]. replace (2 * PI * (0 * INR s0 / INR ny + 0 * INR s1 / INR nx)) with 0 by (unfold Rdiv; ring). rewrite cis_0, Cmult_1_l. reflexivity.
Qed.

Lemma used_roll ny nx s0 s1 img ms i j : (0 < ny)%nat -> (0 < nx)%nat ->
  used_data ny nx (rolled ny nx s0 s1 img) ms i j = rolled ny nx s0 s1 (used_data ny nx img ms) i j.
Proof.
  intros Y X. destruct ms; [| reflexivity].
  change (pix_data img ((i + s0) mod ny)%nat ((j + s1) mod nx)%nat - rsum ny (fun i => rsum nx (fun j => rolled ny nx s0 s1 (pix_data img) i j)) / INR (ny * nx)
    = pix_data img ((i + s0) mod ny)%nat ((j + s1) mod nx)%nat - rsum ny (fun i => rsum nx (fun j => pix_data img i j)) / INR (ny * nx)).
  now rewrite sum2_roll by assumption.
Qed.

(** cells whose sampled triangles are closed do not see a shift *)
Theorem shift_closed ny nx img ms angles s0 s1 r r' k1 k2 : fits ny nx -> (forall k1 k2, (k1 < ny / 2)%nat -> (k2 < nx / 2)%nat -> angles k1 k2 <> []) ->
  (k1 < ny / 2)%nat -> (k2 < nx / 2)%nat ->
  (forall phi w1 w2 w3, In phi (angles k1 k2) -> draws k1 k2 phi w1 w2 w3 -> w3 = wave_sum w1 w2) ->
  compute_bispectrum ny nx img ms angles = Ok r -> compute_bispectrum ny nx (rolled ny nx s0 s1 img) ms angles = Ok r' ->
  s_bispectrum r' k1 k2 = s_bispectrum r k1 k2 /\ s_bicoherence r' k1 k2 = s_bicoherence r k1 k2.
Proof.
  intros F N K1 K2 T E E'.
  assert (Y : (0 < ny)%nat) by (destruct ny; [cbn in K1; lia | lia]). assert (X : (0 < nx)%nat) by (destruct nx; [cbn in K2; lia | lia]).
  destruct (compute_value ny nx img ms angles) as [q [Q [_ V]]]; [intros; now apply fits_inside | assumption |].
  destruct (compute_value ny nx (rolled ny nx s0 s1 img) ms angles) as [q' [Q' [_ V']]]; [intros; now apply fits_inside | assumption |].
  assert (q = r) by (rewrite E in Q; now inversion Q). assert (q' = r') by (rewrite E' in Q'; now inversion Q'). subst q q'.
  destruct (V k1 k2 K1 K2) as [-> [-> _]]. destruct (V' k1 k2 K1 K2) as [-> [-> _]].
  assert (S : samples ny nx (rolled ny nx s0 s1 img) ms angles k1 k2 = samples ny nx img ms angles k1 k2).
  { unfold samples. apply map_ext_in. intros phi I. rewrite (T phi _ _ _ I (draws_waves k1 k2 phi)).
    rewrite <- (triple_roll ny nx s0 s1 (used_data ny nx img ms)) by assumption. unfold triple.
    rewrite !(mode_ext ny nx (used_data ny nx (rolled ny nx s0 s1 img) ms) (rolled ny nx s0 s1 (used_data ny nx img ms))); try reflexivity; intros; now apply used_roll. }
  rewrite S. auto.
Qed.

(** ** Shifts change the bicoherence: a point source on an n x n map *)
Definition point (i j : nat) : option R := if Nat.eqb i 0 && Nat.eqb j 0 then Some 1 else Some 0.

Lemma mode_point n k : (0 < n)%nat -> mode n n (fun i j => fill (point i j)) k = RtoC 1.
Proof.
  intro N. unfold mode. rewrite (csum_single _ _ 0) ; [| lia | intros i I NI; apply csum_zero; intros j J; unfold point; destruct (Nat.eqb_spec i 0); [lia |]; cbn [andb fill]; apply Cmult_0_l].
  rewrite (csum_single _ _ 0) ; [| lia | intros j J NJ; unfold point; destruct (Nat.eqb_spec j 0); [lia |]; cbn [andb fill Nat.eqb]; apply Cmult_0_l].
  unfold point. cbn [Nat.eqb andb fill INR]. replace (- _) with 0 by (unfold Rdiv; ring). rewrite cis_0. apply Cmult_1_l.
Qed.

Definition skewed : list (R * R) := [(PI / 4, PI / 4); (0, 0)].

Lemma trunc_small x : 0 <= x < 1 -> trunc x = 0%Z.
Proof. intro H. apply (truncates_unique x); [apply trunc_truncates |]. unfold truncates. rewrite Rabs_R0, Rabs_right by lra. lra. Qed.
Lemma trunc_one x : 1 <= x < 2 -> trunc x = 1%Z.
Proof. intro H. apply (truncates_unique x); [apply trunc_truncates |]. unfold truncates. rewrite Rabs_R1, Rabs_right by lra. lra. Qed.

Lemma inv_sqrt2 : 1 / 2 <= 1 / sqrt 2 < 1.
Proof.
  pose proof sqrt2_neq_0. assert (S : sqrt 2 * sqrt 2 = 2) by (apply sqrt_sqrt; lra). pose proof (sqrt_pos 2).
  assert (A : 1 < sqrt 2) by nra. assert (B : sqrt 2 <= 2) by nra.
  assert (E : 1 / sqrt 2 * sqrt 2 = 1) by (field; lra). assert (P : 0 < 1 / sqrt 2) by (apply Rdiv_lt_0_compat; lra).
  set (q := 1 / sqrt 2) in *. split; nra.
Qed.

Lemma skewed_waves : wave1 1 1 (PI / 4, PI / 4) = (0, 0)%Z /\ wave2 1 1 (PI / 4, PI / 4) = (0, 0)%Z /\ wave3 1 1 (PI / 4, PI / 4) = (1, 1)%Z /\
  wave1 1 1 (0, 0) = (1, 0)%Z /\ wave2 1 1 (0, 0) = (1, 0)%Z /\ wave3 1 1 (0, 0) = (2, 0)%Z.
Proof.
  pose proof inv_sqrt2 as I. unfold wave1, wave2, wave3. cbn [fst snd INR]. rewrite cos_PI4, sin_PI4, cos_0, sin_0.
  rewrite !Rmult_1_l. repeat split; apply f_equal2; try (apply trunc_small; lra); try (apply trunc_one; lra).
  replace (1 + 1) with (IZR 2) by lra. apply trunc_Z.
Qed.

Theorem shift_breaks n : (4 <= n)%nat -> (n mod 4 = 0)%nat -> exists angles r r', (forall k1 k2, angles k1 k2 <> []) /\
  compute_bispectrum n n point false angles = Ok r /\ compute_bispectrum n n (rolled n n (n / 4) 0 point) false angles = Ok r' /\
  s_bicoherence r 1 1 = Fin 1 /\ exists v, s_bicoherence r' 1 1 = Fin v /\ v < 1.
Proof.
  intros N D. exists (fun _ _ => skewed).
  destruct (compute_value n n point false (fun _ _ => skewed)) as [r [E [_ V]]]; [intros; now apply fits_inside; [apply fits_square | |] | discriminate |].
  destruct (compute_value n n (rolled n n (n / 4) 0 point) false (fun _ _ => skewed)) as [r' [E' [_ V']]]; [intros; now apply fits_inside; [apply fits_square | |] | discriminate |].
  exists r, r'. split; [discriminate |]. split; [exact E |]. split; [exact E' |].
  assert (H2 : (1 < n / 2)%nat) by (apply Nat.div_le_lower_bound; lia).
  destruct (V 1%nat 1%nat H2 H2) as [_ [-> _]]. destruct (V' 1%nat 1%nat H2 H2) as [_ [-> _]].
  destruct skewed_waves as [W1 [W2 [W3 [W4 [W5 W6]]]]].
  assert (P : (0 < INR n)) by (apply lt_0_INR; lia).
  assert (Q : INR (n / 4) / INR n = 1 / 4).
  { assert (M : n = (4 * (n / 4))%nat) by (pose proof (Nat.div_mod n 4); lia). rewrite M at 2. rewrite mult_INR. cbn [INR]. assert (INR (n / 4) <> 0) by (apply not_0_INR; intro; lia). field. assumption. }
  assert (S : samples n n point false (fun _ _ => skewed) 1 1 = [RtoC 1; RtoC 1]).
  { unfold samples, skewed. cbn [map]. rewrite W1, W2, W3, W4, W5, W6. unfold triple. change (used_data n n point false) with (fun i j => fill (point i j)).
    rewrite !mode_point by lia. rewrite Cconj_RtoC, !Cmult_1_l. reflexivity. }
  assert (S' : samples n n (rolled n n (n / 4) 0 point) false (fun _ _ => skewed) 1 1 = [Cconj Ci; RtoC 1]).
  { unfold samples. cbn [map skewed]. rewrite W1, W2, W3, W4, W5, W6.
    assert (M : forall k, mode n n (used_data n n (rolled n n (n / 4) 0 point) false) k = phase n n (n / 4) 0 k).
    { intro k. rewrite <- (Cmult_1_r (phase n n (n / 4) 0 k)). rewrite <- (mode_point n k) by lia. rewrite <- mode_roll by lia. reflexivity. }
    unfold triple. rewrite !M. rewrite <- (phase_sum n n (n / 4) 0 (1, 0)%Z (1, 0)%Z : _ = phase n n (n / 4) 0 (2, 0)%Z).
    assert (P1 : phase n n (n / 4) 0 (1, 0)%Z = Ci /\ phase n n (n / 4) 0 (1, 1)%Z = Ci /\ phase n n (n / 4) 0 (0, 0)%Z = RtoC 1).
    { unfold phase. cbn [fst snd INR]. assert (A : 1 * INR (n / 4) / INR n = 1 / 4) by (rewrite Rmult_1_l; exact Q).
      replace (0 * INR (n / 4) / INR n) with 0 by (unfold Rdiv; ring). replace (1 * 0 / INR n) with 0 by (unfold Rdiv; ring). replace (0 * 0 / INR n) with 0 by (unfold Rdiv; ring). rewrite A.
      replace (2 * PI * (1 / 4 + 0)) with (PI / 2) by field. replace (2 * PI * (0 + 0)) with 0 by ring. unfold cis. rewrite cos_PI2, sin_PI2, cos_0, sin_0. auto. }
    destruct P1 as [-> [-> ->]]. apply (f_equal2 cons); [| apply (f_equal2 cons); [| reflexivity]]; apply Ceq; cbn; ring. }
  rewrite S, S'. cbn [map csum_list fold_right]. unfold lsum. cbn [fold_right]. rewrite Cmod_conj, Cmod_R, Rabs_R1.
  assert (MI : Cmod Ci = 1) by (transitivity (sqrt 1); [unfold Cmod; cbn; f_equal; ring | apply sqrt_1]). rewrite MI.
  assert (A1 : Cmod (Cplus (RtoC 1) (Cplus (RtoC 1) (RtoC 0))) = 2).
  { rewrite Cplus_0_r. rewrite <- RtoC_plus. rewrite Cmod_R. rewrite Rabs_right; lra. }
  assert (A2 : Cmod (Cplus (Cconj Ci) (Cplus (RtoC 1) (RtoC 0))) = sqrt 2) by (unfold Cmod; cbn; f_equal; ring).
  rewrite A1, A2. cbn [fdiv]. destruct (Reqb_spec (1 + (1 + 0)) 0); [lra |]. split; [apply f_equal; field |]. eexists. split; [reflexivity |].
  assert (sqrt 2 * sqrt 2 = 2) by (apply sqrt_sqrt; lra). pose proof (sqrt_pos 2). assert (sqrt 2 < 2) by nra. lra.
Qed.

(** ** Factors and offsets *)

Lemma mode_scal ny nx c d k : mode ny nx (fun i j => c * d i j) k = Cmult (RtoC c) (mode ny nx d k).
Proof.
  unfold mode. rewrite <- csum_scal. apply csum_ext. intros i _. rewrite <- csum_scal. apply csum_ext. intros j _. rewrite RtoC_mult. now rewrite Cmult_assoc.
Qed.
Lemma used_scal ny nx c img ms i j : used_data ny nx (scaled_img c img) ms i j = c * used_data ny nx img ms i j.
Proof.
  assert (P : forall i j, pix_data (scaled_img c img) i j = c * pix_data img i j) by (intros a b; unfold pix_data, scaled_img; destruct (img a b); cbn; ring).
  unfold used_data. rewrite P. destruct ms; [| reflexivity].
  assert (S : rsum ny (fun i => rsum nx (fun j => pix_data (scaled_img c img) i j)) = c * rsum ny (fun i => rsum nx (fun j => pix_data img i j))).
  { rewrite <- rsum_scal. apply rsum_ext. intros a _. rewrite <- rsum_scal. apply rsum_ext. intros b _. apply P. }
  rewrite S. unfold Rdiv. ring.
Qed.

Lemma csum_list_scal c l : csum_list (map (Cmult c) l) = Cmult c (csum_list l).
Proof. induction l as [| a l IH]; cbn [map csum_list fold_right]; [now rewrite Cmult_0_r |]. unfold csum_list in IH. rewrite IH. now rewrite Cmult_plus_distr_l. Qed.
Lemma lsum_mod_scal c l : lsum (map Cmod (map (Cmult c) l)) = Cmod c * lsum (map Cmod l).
Proof. rewrite map_map. rewrite <- (lsum_map_scal (Cmod c) Cmod l). apply lsum_map_ext. intros. apply Cmod_mult. Qed.

Theorem scaling ny nx img ms angles c r r' : fits ny nx -> (forall k1 k2, (k1 < ny / 2)%nat -> (k2 < nx / 2)%nat -> angles k1 k2 <> []) -> c <> 0 ->
  compute_bispectrum ny nx img ms angles = Ok r -> compute_bispectrum ny nx (scaled_img c img) ms angles = Ok r' ->
  forall k1 k2, (k1 < ny / 2)%nat -> (k2 < nx / 2)%nat ->
    s_bispectrum r' k1 k2 = Cmult (RtoC (c ^ 3)) (s_bispectrum r k1 k2) /\ s_bicoherence r' k1 k2 = s_bicoherence r k1 k2.
Proof.
  intros F N C0 E E' k1 k2 K1 K2.
  destruct (compute_value ny nx img ms angles) as [q [Q [_ V]]]; [intros; now apply fits_inside | assumption |].
  destruct (compute_value ny nx (scaled_img c img) ms angles) as [q' [Q' [_ V']]]; [intros; now apply fits_inside | assumption |].
  assert (q = r) by (rewrite E in Q; now inversion Q). assert (q' = r') by (rewrite E' in Q'; now inversion Q'). subst q q'.
  destruct (V k1 k2 K1 K2) as [-> [-> _]]. destruct (V' k1 k2 K1 K2) as [-> [-> _]].
  assert (S : samples ny nx (scaled_img c img) ms angles k1 k2 = map (Cmult (RtoC (c ^ 3))) (samples ny nx img ms angles k1 k2)).
  { unfold samples. rewrite map_map. apply map_ext. intro phi. unfold triple.
    rewrite !(mode_ext ny nx (used_data ny nx (scaled_img c img) ms) (fun i j => c * used_data ny nx img ms i j)) by (intros; apply used_scal).
    rewrite !mode_scal. rewrite Cconj_mult, Cconj_RtoC. apply Ceq; cbn; ring. }
  rewrite S, csum_list_scal, lsum_mod_scal. split; [reflexivity |].
  rewrite Cmod_mult, Cmod_R. set (u := Cmod (csum_list _)). set (v := lsum _). assert (P : 0 < Rabs (c ^ 3)) by (apply Rabs_pos_lt, pow_nonzero; assumption).
  cbn [fdiv]. destruct (Reqb_spec (Rabs (c ^ 3) * v) 0) as [Z | Z]; destruct (Reqb_spec v 0) as [Z' | Z'].
  - assert (U : u = 0). { pose proof (sum_bound (samples ny nx img ms angles k1 k2)) as B. fold u in B. fold v in B. pose proof (Cmod_ge_0 (csum_list (samples ny nx img ms angles k1 k2))). fold u in H. lra. }
    rewrite U, Rmult_0_r. reflexivity.
  - apply Rmult_integral in Z. lra.
  - subst v. rewrite Z', Rmult_0_r in Z. lra.
  - apply f_equal. field. split; lra.
Qed.

Theorem offset_free ny nx img angles c : (0 < ny)%nat -> (0 < nx)%nat -> (forall i j, (i < ny)%nat -> (j < nx)%nat -> img i j <> None) ->
  fits ny nx -> (forall k1 k2, (k1 < ny / 2)%nat -> (k2 < nx / 2)%nat -> angles k1 k2 <> []) ->
  forall r r', compute_bispectrum ny nx img true angles = Ok r -> compute_bispectrum ny nx (offset_img c img) true angles = Ok r' ->
  forall k1 k2, (k1 < ny / 2)%nat -> (k2 < nx / 2)%nat ->
    s_bispectrum r' k1 k2 = s_bispectrum r k1 k2 /\ s_bicoherence r' k1 k2 = s_bicoherence r k1 k2.
Proof.
  intros Y X B F N r r' E E' k1 k2 K1 K2.
  destruct (compute_value ny nx img true angles) as [q [Q [_ V]]]; [intros; now apply fits_inside | assumption |].
  destruct (compute_value ny nx (offset_img c img) true angles) as [q' [Q' [_ V']]]; [intros; now apply fits_inside | assumption |].
  assert (q = r) by (rewrite E in Q; now inversion Q). assert (q' = r') by (rewrite E' in Q'; now inversion Q'). subst q q'.
  destruct (V k1 k2 K1 K2) as [-> [-> _]]. destruct (V' k1 k2 K1 K2) as [-> [-> _]].
  assert (P : forall i j, (i < ny)%nat -> (j < nx)%nat -> pix_data (offset_img c img) i j = pix_data img i j + c).
  { intros i j I J. unfold pix_data, offset_img. specialize (B i j I J). destruct (img i j); [reflexivity | now destruct B]. }
  assert (U : forall i j, (i < ny)%nat -> (j < nx)%nat -> used_data ny nx (offset_img c img) true i j = used_data ny nx img true i j).
  { intros i j I J. unfold used_data. rewrite P by assumption.
    assert (S : rsum ny (fun i => rsum nx (fun j => pix_data (offset_img c img) i j)) = rsum ny (fun i => rsum nx (fun j => pix_data img i j)) + INR (ny * nx) * c).
    { rewrite (rsum_ext ny _ (fun i => rsum nx (fun j => pix_data img i j) + INR nx * c)).
      - rewrite rsum_plus, rsum_const, mult_INR. ring.
      - intros a A. rewrite (rsum_ext nx _ (fun j => pix_data img a j + c)) by (intros; now apply P). rewrite (rsum_plus nx (fun j => pix_data img a j) (fun _ => c)), rsum_const. ring. }
    rewrite S. field. apply not_0_INR. nia. }
  assert (S : samples ny nx (offset_img c img) true angles k1 k2 = samples ny nx img true angles k1 k2).
  { unfold samples. apply map_ext. intro phi. unfold triple. now rewrite !(mode_ext ny nx (used_data ny nx (offset_img c img) true) (used_data ny nx img true)) by assumption. }
  rewrite S. auto.
Qed.

(** mean_subtract leaves no power at (0, 0) *)
Theorem mean_subtract_blank ny nx img angles r : (2 <= ny)%nat -> (2 <= nx)%nat -> fits ny nx -> (forall k1 k2, (k1 < ny / 2)%nat -> (k2 < nx / 2)%nat -> angles k1 k2 <> []) ->
  compute_bispectrum ny nx img true angles = Ok r -> s_bicoherence r 0 0 = NaN.
Proof.
  intros Y X F N E.
  assert (HY : (0 < ny / 2)%nat) by (apply Nat.div_le_lower_bound; lia). assert (HX : (0 < nx / 2)%nat) by (apply Nat.div_le_lower_bound; lia).
  destruct (compute_value ny nx img true angles) as [q [Q [_ V]]]; [intros; now apply fits_inside | assumption |].
  assert (q = r) by (rewrite E in Q; now inversion Q). subst q. destruct (V 0%nat 0%nat HY HX) as [_ [-> _]].
  apply (proj1 (ratio_value (samples ny nx img true angles 0 0))). intros c I. unfold samples in I. apply in_map_iff in I. destruct I as [phi [<- _]].
  assert (W : wave1 0 0 phi = (0, 0)%Z). { unfold wave1. cbn [INR]. rewrite !Rmult_0_l. apply f_equal2; apply trunc_small; lra. }
  unfold triple. rewrite W.
  assert (Z : mode ny nx (used_data ny nx img true) (0, 0)%Z = RtoC 0).
  { unfold mode. rewrite (csum_ext ny _ (fun i => RtoC (rsum nx (fun j => used_data ny nx img true i j)))).
    - rewrite csum_RtoC. apply f_equal. unfold used_data. set (m := rsum ny (fun i => rsum nx (fun j => pix_data img i j))).
      rewrite (rsum_ext ny _ (fun i => rsum nx (fun j => pix_data img i j) - INR nx * (m / INR (ny * nx)))) by (intros a A; rewrite (rsum_minus nx (fun j => pix_data img a j) (fun _ => m / INR (ny * nx))), rsum_const; reflexivity).
      rewrite rsum_minus, rsum_const. fold m. rewrite mult_INR. field. split; apply not_0_INR; lia.
    - intros i _. rewrite <- csum_RtoC. apply csum_ext. intros j _. cbn [fst snd]. replace (- _) with 0 by (unfold Rdiv; ring). rewrite cis_0. apply Cmult_1_r. }
  rewrite Z. rewrite !Cmult_0_l. reflexivity.
Qed.
