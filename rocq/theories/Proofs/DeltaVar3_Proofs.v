(** Proofs about Model/DeltaVar.v: kernels (C32, C89) and blanks with positive weights (C86). *)
From Coquelicot Require Import Coquelicot.
From Coq Require Import Reals List ZArith Lia Lra Arith Bool.
From Verif Require Import Lib.PyBase Lib.RSum Lib.Fl Lib.Arr Spec.Blank Spec.DeltaVar
  Model.Scf Model.DeltaVar Proofs.Fl_Proofs Proofs.Scf_Proofs Proofs.DeltaVar_Proofs.
Import ListNotations.
Local Open Scope R_scope.

(** ** Kernels *)
Definition gauss (s r : R) : R := exp (- (r * r) / (2 * (s * s))).

Lemma gauss_primitive s R0 : s <> 0 -> is_RInt (fun r => r * gauss s r) 0 R0 (s * s * (1 - gauss s R0)).
Proof.
  intros Hs. evar_last.
  - apply (is_RInt_derive (fun r => - (s * s) * gauss s r) (fun r => r * gauss s r)).
    + intros x _. unfold gauss. auto_derive; [auto|]. unfold Rdiv. generalize (exp (- (x * x) * / (2 * (s * s)))). intros e. field. auto.
    + intros x _. apply (ex_derive_continuous (V := R_NormedModule)). unfold gauss. auto_derive. auto.
  - unfold minus, plus, opp; cbn. unfold gauss at 2. replace (- (0 * 0) / (2 * (s * s))) with 0 by (field; auto). rewrite exp_0. ring.
Qed.

Lemma gauss_limit s : s <> 0 -> is_lim (gauss s) p_infty 0.
Proof.
  intros Hs. unfold gauss.
  eapply (is_lim_comp exp (fun r => - (r * r) / (2 * (s * s))) p_infty 0 m_infty).
  - apply is_lim_exp_m.
  - assert (P : 0 < / (2 * (s * s))) by (apply Rinv_0_lt_compat; apply Rmult_lt_0_compat; [lra|]; apply Rsqr_pos_lt in Hs; exact Hs).
    apply is_lim_ext with (fun r => (- / (2 * (s * s))) * (r * r)); [intros r; field; auto|].
    replace m_infty with (Rbar_mult (- / (2 * (s * s))) (Rbar_mult p_infty p_infty)).
    + apply is_lim_scal_l. apply is_lim_mult; [apply is_lim_id|apply is_lim_id|exact I].
    + change (Rbar_mult p_infty p_infty) with p_infty. rewrite Rbar_mult_comm. apply is_Rbar_mult_unique. apply is_Rbar_mult_p_infty_neg. cbn. lra.
  - exists 0. intros y _. discriminate.
Qed.

Lemma gauss_scaled_limit k s : s <> 0 -> is_lim (fun r => k * gauss s r) p_infty 0.
Proof. intros Hs. evar_last; [apply (is_lim_scal_l (gauss s) k p_infty 0); apply gauss_limit; auto|]. cbn. f_equal. ring. Qed.

Lemma core_radial s x y : core_model s x y = 1 / (2 * PI * (s * s)) * gauss s (sqrt (x * x + y * y)).
Proof.
  unfold core_model, gauss. do 2 f_equal. rewrite sqrt_sqrt; [reflexivity|]. apply Rplus_le_le_0_compat; apply Rle_0_sqr.
Qed.

Lemma annulus_radial s ratio x y :
  annulus_model s ratio x y = 1 / (2 * PI * (s * s) * (ratio * ratio - 1)) * (gauss (ratio * s) (sqrt (x * x + y * y)) - gauss s (sqrt (x * x + y * y))).
Proof.
  unfold annulus_model, annulus_evaluate, gauss. cbv zeta. rewrite sqrt_sqrt; [reflexivity|]. apply Rplus_le_le_0_compat; apply Rle_0_sqr.
Qed.

Lemma core_axis s r : core_model s r 0 = 1 / (2 * PI * (s * s)) * gauss s r.
Proof. unfold core_model, gauss. do 3 f_equal. ring. Qed.
Lemma annulus_axis s ratio r : annulus_model s ratio r 0 = 1 / (2 * PI * (s * s) * (ratio * ratio - 1)) * (gauss (ratio * s) r - gauss s r).
Proof. unfold annulus_model, annulus_evaluate, gauss. cbv zeta. replace (r * r + 0 * 0) with (r * r) by ring. reflexivity. Qed.

Lemma core_disc s R0 : s <> 0 -> is_RInt (fun r => 2 * PI * r * core_model s r 0) 0 R0 (1 - gauss s R0).
Proof.
  intros Hs. pose proof PI_RGT_0. evar_last.
  - apply is_RInt_ext with (f := fun r => scal (/ (s * s)) (r * gauss s r)).
    + intros r _. rewrite core_axis. unfold scal; cbn; unfold mult; cbn. field. split; [auto|lra].
    + apply (is_RInt_scal (fun r => r * gauss s r)). apply gauss_primitive. auto.
  - unfold scal; cbn; unfold mult; cbn. field. auto.
Qed.

Lemma annulus_disc s ratio R0 : s <> 0 -> 0 < ratio -> ratio <> 1 ->
  is_RInt (fun r => 2 * PI * r * annulus_model s ratio r 0) 0 R0 ((ratio * ratio * (1 - gauss (ratio * s) R0) - (1 - gauss s R0)) / (ratio * ratio - 1)).
Proof.
  intros Hs Hr Hr1. pose proof PI_RGT_0. assert (N : ratio * ratio - 1 <> 0).
  { replace (ratio * ratio - 1) with ((ratio - 1) * (ratio + 1)) by ring. apply Rmult_integral_contrapositive. split; lra. }
  assert (Hrs : ratio * s <> 0) by (apply Rmult_integral_contrapositive; split; [lra|auto]).
  evar_last.
  - apply is_RInt_ext with (f := fun r => scal (/ (s * s * (ratio * ratio - 1))) (minus (r * gauss (ratio * s) r) (r * gauss s r))).
    + intros r _. rewrite annulus_axis. unfold scal, minus, plus, opp; cbn; unfold mult; cbn. field. repeat split; auto; lra.
    + apply (is_RInt_scal (fun r => minus (r * gauss (ratio * s) r) (r * gauss s r))).
      apply (is_RInt_minus (fun r => r * gauss (ratio * s) r) (fun r => r * gauss s r)); apply gauss_primitive; auto.
  - unfold scal, minus, plus, opp; cbn; unfold mult; cbn. field. split; auto.
Qed.

Lemma disc_limit_core s : s <> 0 -> is_lim (fun R0 => RInt (fun r => 2 * PI * r * core_model s r 0) 0 R0) p_infty 1.
Proof.
  intros Hs. apply is_lim_ext with (fun R0 => 1 - gauss s R0).
  - intros R0. symmetry. apply is_RInt_unique. now apply core_disc.
  - evar_last; [apply (is_lim_minus' (fun _ => 1) (gauss s) p_infty 1 0); [apply is_lim_const|apply gauss_limit; auto]|]. cbn. f_equal. ring.
Qed.

Lemma disc_limit_annulus s ratio : s <> 0 -> 0 < ratio -> ratio <> 1 ->
  is_lim (fun R0 => RInt (fun r => 2 * PI * r * annulus_model s ratio r 0) 0 R0) p_infty 1.
Proof.
  intros Hs Hr Hr1. assert (N : ratio * ratio - 1 <> 0).
  { replace (ratio * ratio - 1) with ((ratio - 1) * (ratio + 1)) by ring. apply Rmult_integral_contrapositive. split; lra. }
  assert (Hrs : ratio * s <> 0) by (apply Rmult_integral_contrapositive; split; [lra|auto]).
  apply is_lim_ext with (fun R0 => 1 + ((/ (ratio * ratio - 1)) * gauss s R0 + (- (ratio * ratio) / (ratio * ratio - 1)) * gauss (ratio * s) R0)).
  - intros R0. symmetry. etransitivity; [apply is_RInt_unique; apply annulus_disc; auto|]. field. auto.
  - evar_last; [apply (is_lim_plus' (fun _ => 1) _ p_infty 1 0); [apply is_lim_const|]|cbn; f_equal; ring].
    evar_last; [apply (is_lim_plus' (fun r => / (ratio * ratio - 1) * gauss s r) (fun r => - (ratio * ratio) / (ratio * ratio - 1) * gauss (ratio * s) r) p_infty 0 0); apply gauss_scaled_limit; auto|cbn; f_equal; ring].
Qed.

Lemma gauss_le_outer s ratio r : s <> 0 -> 1 < ratio -> gauss s r <= gauss (ratio * s) r.
Proof.
  intros Hs Hr. unfold gauss. assert (P : 0 < s * s) by (apply Rsqr_pos_lt in Hs; exact Hs). assert (Q : 0 <= r * r) by apply Rle_0_sqr.
  assert (T : - (r * r) / (2 * (s * s)) <= - (r * r) / (2 * (ratio * s * (ratio * s)))).
  { unfold Rdiv. rewrite !Ropp_mult_distr_l_reverse. apply Ropp_le_contravar. apply Rmult_le_compat_l; auto.
    apply Rinv_le_contravar; [lra|]. apply Rmult_le_compat_l; [lra|]. replace (ratio * s * (ratio * s)) with ((ratio * ratio) * (s * s)) by ring.
    rewrite <- (Rmult_1_l (s * s)) at 1. apply Rmult_le_compat_r; [lra|]. rewrite <- (Rmult_1_l 1). apply Rmult_le_compat; lra. }
  destruct T as [T|T]; [left; now apply exp_increasing|right; now f_equal].
Qed.

Lemma annulus_nonneg s ratio x y : s <> 0 -> 0 < ratio -> ratio <> 1 -> 0 <= annulus_model s ratio x y.
Proof.
  intros Hs Hr Hr1. rewrite annulus_radial. set (r := sqrt _). pose proof PI_RGT_0. assert (P : 0 < s * s) by (apply Rsqr_pos_lt in Hs; exact Hs).
  assert (B : 0 < 2 * PI * (s * s)) by (apply Rmult_lt_0_compat; lra).
  destruct (Rlt_dec 1 ratio) as [C|C].
  - pose proof (gauss_le_outer s ratio r Hs C). apply Rmult_le_pos; [|lra]. left. apply Rdiv_lt_0_compat; [lra|]. apply Rmult_lt_0_compat; auto.
    assert (1 * 1 < ratio * ratio) by (apply Rmult_gt_0_lt_compat; lra). lra.
  - assert (C' : 1 < / ratio) by (rewrite <- Rinv_1; apply Rinv_lt_contravar; lra).
    assert (Hrs : ratio * s <> 0) by (apply Rmult_integral_contrapositive; split; [lra|auto]).
    pose proof (gauss_le_outer (ratio * s) (/ ratio) r Hrs C') as G. replace (/ ratio * (ratio * s)) with s in G by (field; lra).
    replace (1 / (2 * PI * (s * s) * (ratio * ratio - 1)) * (gauss (ratio * s) r - gauss s r))
      with (1 / (2 * PI * (s * s) * (1 - ratio * ratio)) * (gauss s r - gauss (ratio * s) r)).
    + apply Rmult_le_pos; [|lra]. left. apply Rdiv_lt_0_compat; [lra|]. apply Rmult_lt_0_compat; auto.
      assert (ratio * ratio < 1 * 1) by (apply Rmult_gt_0_lt_compat; lra). lra.
    + assert (ratio * ratio - 1 <> 0) by (assert (ratio * ratio < 1 * 1) by (apply Rmult_gt_0_lt_compat; lra); lra).
      assert (1 - ratio * ratio <> 0) by lra. field. repeat split; auto; lra.
Qed.

Lemma annulus_centre s ratio : annulus_model s ratio 0 0 = 0.
Proof.
  unfold annulus_model, annulus_evaluate. cbv zeta. replace (- (0 * 0 + 0 * 0)) with 0 by ring. unfold Rdiv. rewrite !Rmult_0_l. ring.
Qed.


Lemma core_isotropic s x y x' y' : x * x + y * y = x' * x' + y' * y' -> core_model s x y = core_model s x' y'.
Proof. intros E. rewrite !core_radial. now rewrite E. Qed.
Lemma annulus_isotropic s ratio x y x' y' : x * x + y * y = x' * x' + y' * y' -> annulus_model s ratio x y = annulus_model s ratio x' y'.
Proof. intros E. rewrite !annulus_radial. now rewrite E. Qed.
Lemma core_pos s x y : s <> 0 -> 0 < core_model s x y.
Proof.
  intros Hs. unfold core_model. pose proof PI_RGT_0. assert (P : 0 < s * s) by (apply Rsqr_pos_lt in Hs; exact Hs).
  apply Rmult_lt_0_compat; [apply Rdiv_lt_0_compat; [lra|apply Rmult_lt_0_compat; lra]|apply exp_pos].
Qed.

Lemma lag_stddev lag : 0 < lag -> lag / (2 * sqrt 2) <> 0.
Proof.
  intros H. apply Rgt_not_eq. apply Rdiv_lt_0_compat; auto. apply Rmult_lt_0_compat; [lra|apply sqrt_lt_R0; lra].
Qed.

(** ** The annulus' centre *)
Lemma annulus_mean_ignored x y amplitude xm ym s ratio :
  annulus_evaluate x y amplitude xm ym s ratio = annulus_evaluate x y amplitude 0 0 s ratio.
Proof. reflexivity. Qed.

Lemma annulus_centre_refuted : exists amplitude xm ym s ratio, 0 < s /\ 1 < ratio /\ annulus_evaluate xm ym amplitude xm ym s ratio <> 0.
Proof.
  exists 1, 1, 0, 1, 2. split; [lra|]. split; [lra|]. unfold annulus_evaluate. cbv zeta. rewrite Rmult_1_l.
  replace (- (1 * 1 + 0 * 0) / (2 * (1 * 1))) with (- (1 / 2)) by field. replace (- (1 * 1 + 0 * 0) / (2 * (2 * 1 * (2 * 1)))) with (- (1 / 8)) by field.
  assert (exp (- (1 / 2)) < exp (- (1 / 8))) by (apply exp_increasing; lra). lra.
Qed.

(** ** Positive weights on blanks *)
Definition ex_core (i j : nat) : R := if Nat.eqb i j then 1 else 0.
Definition ex_annulus (i j : nat) : R := / 3.
Definition ex_map : list fl := [NaN; Fin 0; Fin 1].
Definition ex_weights : list R := [1; 1; 1].

Lemma kern_area_1 : (1 <= kern_area 1 <= 2)%Z.
Proof.
  unfold kern_area, np_ceil. set (r := 1 / 2 * PI * ln 2 * (1 * 1)).
  assert (L : 0 < ln 2 < 1).
  { split; [rewrite <- ln_1; apply ln_increasing; lra|]. assert (E := exp_ineq1 1). rewrite <- (ln_exp 1). apply ln_increasing; lra. }
  assert (P := PI_RGT_0). assert (P4 := PI_4).
  assert (B : 0 < r <= 2).
  { unfold r. assert (0 < PI * ln 2) by (apply Rmult_lt_0_compat; lra). split; [lra|]. assert (PI * ln 2 <= 4 * 1) by (apply Rmult_le_compat; lra). lra. }
  destruct (base_Int_part (- r)) as [B1 B2].
  assert (A1 : IZR (- Int_part (- r)) < 3) by (rewrite opp_IZR; lra). assert (A2 : 0 < IZR (- Int_part (- r))) by (rewrite opp_IZR; lra).
  apply (lt_IZR _ 3) in A1. apply (lt_IZR 0) in A2. lia.
Qed.

Lemma mean3 a b c : rmean [a; b; c] = (a + b + c) / 3.
Proof. unfold rmean. cbn [length]. unfold lsum; cbn. field. Qed.

Lemma fin3 a b c a' b' c' : a = a' -> b = b' -> c = c' -> [Fin a; Fin b; Fin c] = [Fin a'; Fin b'; Fin c'].
Proof. intros -> -> ->. reflexivity. Qed.

Lemma ex_conv b : conv_arr ex_core ex_annulus (raised b ex_map) ex_weights (/ 100 * 1) false =
  [Fin (- ((2 * b + 1) / 3)); Fin (b - (2 * b + 1) / 3); Fin (1 + b - (2 * b + 1) / 3)].
Proof.
  rewrite conv_arr_tab by (try lra; reflexivity). unfold tab1. cbn [length seq map ex_weights].
  unfold ex_core, ex_annulus, raised, ex_map, ex_weights. cbn [rsum nth Nat.eqb map fadd fmul fill0].
  repeat match goal with |- context [Rleb ?a ?b] => destruct (Rleb_spec a b); [exfalso; lra|] end.
  apply fin3; field.
Qed.

Lemma ex_conv_weight : conv_weight ex_core ex_annulus ex_weights (/ 100 * 1) = [Fin 1; Fin 1; Fin 1].
Proof.
  rewrite conv_weight_tab. unfold tab1. cbn [length seq map ex_weights].
  unfold ex_core, ex_annulus, ex_weights. cbn [rsum nth Nat.eqb].
  repeat match goal with |- context [Rleb ?a ?b] => destruct (Rleb_spec a b); [exfalso; lra|] end.
  apply fin3; field.
Qed.

Lemma ex_value b : 0 <= b <= 1 ->
  fst (deltavar_lag ex_core ex_annulus (raised b ex_map) ex_weights 1 (/ 100) false 1) = Fin (2 * (b * b + b + 1) / 9).
Proof.
  intros Hb. unfold deltavar_lag. cbv zeta. rewrite ex_conv, ex_conv_weight.
  set (A := [Fin (- ((2 * b + 1) / 3)); Fin (b - (2 * b + 1) / 3); Fin (1 + b - (2 * b + 1) / 3)]). set (W := [Fin 1; Fin 1; Fin 1]).
  assert (HA : Forall blankable A) by (repeat constructor). assert (HW : Forall weight_value W) by (repeat constructor; cbn; lra).
  assert (FW : fins W = [1; 1; 1]) by reflexivity. assert (FA : fins A = [- ((2 * b + 1) / 3); b - (2 * b + 1) / 3; 1 + b - (2 * b + 1) / 3]) by reflexivity.
  assert (SW : lsum (fins W) = 3) by (rewrite FW; unfold lsum; cbn; ring).
  assert (M : rmean (fins A) = 0) by (rewrite FA, mean3; field).
  assert (VP : valid_pairs A W = [(- ((2 * b + 1) / 3), 1); (b - (2 * b + 1) / 3, 1); (1 + b - (2 * b + 1) / 3, 1)]) by reflexivity.
  assert (M2 : weighted_moment 2 A W = 2 * (b * b + b + 1) / 9).
  { unfold weighted_moment. rewrite SW, M, VP. unfold lsum; cbn. field. }
  assert (M4 : weighted_moment 4 A W = 2 * (b * b + b + 1) * (b * b + b + 1) / 27).
  { unfold weighted_moment. rewrite SW, M, VP. unfold lsum; cbn. field. }
  destruct (delvar_value A W 1 HA HW) as [E _]; [rewrite SW; lra|]. rewrite E, M2, M4.
  set (q := b * b + b + 1). assert (Q : 1 <= q) by (unfold q; assert (0 <= b * b) by apply Rle_0_sqr; lra).
  assert (NI : 0 < n_indep A 1).
  { unfold n_indep. apply sqrt_lt_R0. rewrite FA. cbn [length]. apply IZR_lt. pose proof kern_area_1 as K.
    assert (C : kern_area 1 = 1%Z \/ kern_area 1 = 2%Z) by lia. destruct C as [-> | ->]; reflexivity. }
  rewrite fdiv_fin by lra. unfold store_delvar.
  assert (R2 : 0 < 2 * q / 9) by lra.
  assert (S : 0 < sqrt (2 * q * q / 27 - (2 * q / 9) ^ 2)).
  { apply sqrt_lt_R0. replace (2 * q * q / 27 - (2 * q / 9) ^ 2) with (2 / 81 * (q * q)) by field. assert (0 < q * q) by (apply Rmult_lt_0_compat; lra). lra. }
  assert (S' : 0 < sqrt (2 * q * q / 27 - (2 * q / 9) ^ 2) / n_indep A 1) by (now apply Rdiv_lt_0_compat).
  cbn [fleb is_nan]. destruct (Rleb_spec (2 * q / 9) 0); [exfalso; lra|]. destruct (Rleb_spec (sqrt (2 * q * q / 27 - (2 * q / 9) ^ 2) / n_indep A 1) 0); [exfalso; lra|].
  reflexivity.
Qed.

Lemma blank_weights_refuted : exists core annulus data weights b,
  Forall blankable data /\ length data = length weights /\ Forall (fun w => 0 <= w) weights /\
  deltavar_lag core annulus (raised b data) weights 1 (/ 100) false 1 <> deltavar_lag core annulus (raised 0 data) weights 1 (/ 100) false 1.
Proof.
  exists ex_core, ex_annulus, ex_map, ex_weights, 1. split; [repeat constructor|]. split; [reflexivity|]. split; [repeat constructor; lra|].
  intros E. apply (f_equal fst) in E. rewrite !ex_value in E by lra. injection E. lra.
Qed.

(** ** Statements used in Properties *)
Lemma deltavar_lag_stored core annulus data weights wmax frac preserve lag :
  let r := deltavar_lag core annulus data weights wmax frac preserve lag in
  (fst r = NaN /\ snd r = NaN) \/ (positive (fst r) /\ positive (snd r)).
Proof.
  cbv zeta. unfold deltavar_lag. cbv zeta. destruct (store_positive (delvar (conv_arr core annulus data weights (frac * wmax) preserve) (conv_weight core annulus weights (frac * wmax)) lag)) as [->|[A [B _]]].
  - left. split; reflexivity.
  - right. split; assumption.
Qed.

Lemma delvar_expression array weight lag : Forall blankable array -> Forall weight_value weight -> 0 < lsum (fins weight) ->
  0 <= weighted_moment 2 array weight /\
  0 <= weighted_moment 4 array weight - weighted_moment 2 array weight ^ 2 /\
  fst (delvar array weight lag) = Fin (weighted_moment 2 array weight) /\
  (let n := IZR (Z.of_nat (length (fins array)) / kern_area lag) in
   0 < n -> snd (delvar array weight lag) = Fin (sqrt (weighted_moment 4 array weight - weighted_moment 2 array weight ^ 2) / sqrt n)).
Proof.
  intros Ha Hw HW. destruct (delvar_value array weight lag Ha Hw HW) as [E [N1 N2]]. rewrite E. split; [exact N1|]. split; [exact N2|].
  split; [reflexivity|]. cbv zeta. intros Hn. cbn [snd]. apply fdiv_fin. unfold n_indep. apply Rgt_not_eq. now apply sqrt_lt_R0.
Qed.

Lemma ex_deltavar_positive : exists r, fst (deltavar_lag ex_core ex_annulus ex_map ex_weights 1 (/ 100) false 1) = Fin r /\ 0 < r.
Proof.
  exists (2 * (0 * 0 + 0 + 1) / 9). split; [|lra]. rewrite <- (ex_value 0) by lra. unfold raised, ex_map. cbn [map fadd].
  rewrite !Rplus_0_r. reflexivity.
Qed.

Lemma ex_default_weights : default_weights ex_map = [0; 1; 1] /\ Forall blankable ex_map /\ 0 <= / 100 * 1.
Proof. split; [reflexivity|]. split; [repeat constructor|lra]. Qed.

Lemma kernels_unit lag ratio : 0 < lag -> 0 < ratio -> ratio <> 1 ->
  is_lim (fun R0 => RInt (fun r => 2 * PI * r * core_kernel lag r 0) 0 R0) p_infty 1 /\
  is_lim (fun R0 => RInt (fun r => 2 * PI * r * annulus_kernel lag ratio r 0) 0 R0) p_infty 1.
Proof.
  intros H1 H2 H3. split; [apply disc_limit_core|apply disc_limit_annulus]; auto using lag_stddev.
Qed.

Lemma kernels_shape lag ratio : 0 < lag -> 0 < ratio -> ratio <> 1 ->
  (forall x y, 0 < core_kernel lag x y /\ 0 <= annulus_kernel lag ratio x y) /\
  annulus_kernel lag ratio 0 0 = 0 /\
  (forall x y x' y', x * x + y * y = x' * x' + y' * y' ->
     core_kernel lag x y = core_kernel lag x' y' /\ annulus_kernel lag ratio x y = annulus_kernel lag ratio x' y').
Proof.
  intros H1 H2 H3. assert (N := lag_stddev lag H1). split; [|split].
  - intros x y. split; [now apply core_pos|now apply annulus_nonneg].
  - apply annulus_centre.
  - intros x y x' y' E. split; [now apply core_isotropic|now apply annulus_isotropic].
Qed.
