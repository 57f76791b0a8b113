(** Proofs about the wavelet transform: symmetries, uncertainties, scales, fits. *)
From Coq Require Import Reals List ZArith Arith Bool Lia Lra Permutation.
From Verif Require Import Lib.PyBase Lib.Arr Lib.RSum Lib.Fl Spec.Blank Spec.Units Spec.MexHat Model.Units Model.StatsUtils Model.Scf Model.Psds Model.DeltaVar Model.BaseStat Model.ThreeD Model.Wavelet
  Proofs.Psds_Proofs Proofs.StatsUtils2_Proofs Proofs.DeltaVar2_Proofs Proofs.BaseStat_Proofs Proofs.Wavelet_Proofs.
Import ListNotations.
Local Open Scope R_scope.

(** ** Symmetries *)
Lemma positives_perm l l' : Permutation l l' -> Permutation (positives l) (positives l').
Proof.
  intros H. induction H; unfold positives in *; cbn [filter].
  - constructor.
  - destruct (Rlt_dec 0 x); [constructor|]; assumption.
  - destruct (Rlt_dec 0 y), (Rlt_dec 0 x); try apply Permutation_refl. apply perm_swap.
  - eapply Permutation_trans; eassumption.
Qed.
Lemma rmean_perm l l' : Permutation l l' -> rmean l = rmean l'.
Proof. intros H. unfold rmean. rewrite (lsum_perm _ _ H), (Permutation_length H). reflexivity. Qed.
Lemma rvar_perm l l' : Permutation l l' -> rvar l = rvar l'.
Proof. intros H. unfold rvar. rewrite (rmean_perm _ _ H). apply rmean_perm, Permutation_map, H. Qed.
Lemma value_perm l l' a : Permutation l l' -> wavelet_value l a = wavelet_value l' a.
Proof.
  intros H. rewrite !wavelet_value_eq, (Permutation_length H). pose proof (positives_perm _ _ H) as P.
  destruct (list_eq_dec Req_EM_T (positives l) []) as [E|E].
  - rewrite E in P |- *. apply Permutation_nil in P. rewrite P. reflexivity.
  - assert (E' : positives l' <> []). { intros K. rewrite K in P. apply Permutation_sym, Permutation_nil in P. congruence. }
    rewrite !np_mean_rmean, !np_std_rvar by assumption. rewrite (rmean_perm _ _ P), (rvar_perm _ _ P). reflexivity.
Qed.

Lemma pixels_perm {A} (f g : nat * nat -> A) (s : nat * nat -> nat * nat) ny nx ny' nx' :
  (forall p, In p (pixels ny nx) -> In (s p) (pixels ny' nx') /\ f (s p) = g p) ->
  (forall p q, In p (pixels ny nx) -> In q (pixels ny nx) -> s p = s q -> p = q) -> (ny' * nx' = ny * nx)%nat ->
  Permutation (map f (pixels ny' nx')) (map g (pixels ny nx)).
Proof.
  intros H I L. transitivity (map f (map s (pixels ny nx))).
  - apply Permutation_map, Permutation_sym, NoDup_Permutation_bis.
    + clear L H. induction (NoDup_pixels ny nx) as [|p l Hn Hd IH]; [constructor|]. cbn [map]. constructor.
      * intros K. apply in_map_iff in K. destruct K as [q [E Q]]. apply Hn. rewrite <- (I q p); [assumption|right; assumption|left; reflexivity|assumption].
      * apply IH. intros u v U V. apply I; right; assumption.
    + rewrite map_length. unfold pixels. rewrite !prod_length, !seq_length. lia.
    + intros p K. apply in_map_iff in K. destruct K as [q [<- Q]]. apply H. assumption.
  - rewrite map_map. assert (E : map (fun x => f (s x)) (pixels ny nx) = map g (pixels ny nx)); [|rewrite E; apply Permutation_refl].
    apply map_ext_in. intros p K. apply H. assumption.
Qed.
Lemma coefficients_pixels half a norm ny nx img : coefficients half a norm ny nx img = map (fun p => coefficient half a norm ny nx img (fst p) (snd p)) (pixels ny nx).
Proof. symmetry. apply coefs_flat. Qed.

Lemma hat_swap half a v u : cut_hat half a u v = cut_hat half a v u.
Proof. unfold cut_hat, hat. rewrite andb_comm. rewrite (Rplus_comm (IZR u ^ 2)). reflexivity. Qed.
Lemma hat_neg_l half a v u : cut_hat half a (- v) u = cut_hat half a v u.
Proof. unfold cut_hat, hat. rewrite Z.abs_opp, opp_IZR. replace ((- IZR v) ^ 2) with (IZR v ^ 2) by ring. reflexivity. Qed.
Lemma hat_neg_r half a v u : cut_hat half a v (- u) = cut_hat half a v u.
Proof. rewrite hat_swap, hat_neg_l. apply hat_swap. Qed.

Lemma coefficient_transposed half a norm ny nx img y x :
  coefficient half a norm nx ny (fun y x => img x y) x y = coefficient half a norm ny nx img y x.
Proof.
  unfold coefficient. f_equal. rewrite (rsum_exchange nx ny). apply rsum_ext. intros y' _. apply rsum_ext. intros x' _. rewrite hat_swap. reflexivity.
Qed.
Lemma coefficient_mirrored half a norm ny nx img y x : (y < ny)%nat -> (x < nx)%nat ->
  coefficient half a norm ny nx (fun y x => img (ny - 1 - y)%nat x) (ny - 1 - y) x = coefficient half a norm ny nx img y x.
Proof.
  intros Y X. unfold coefficient. f_equal.
  rewrite <- (rsum_rev ny (fun y' => rsum nx (fun x' => cut_hat half a (Z.of_nat y - Z.of_nat y') (Z.of_nat x - Z.of_nat x') * brightness (img y' x')))).
  apply rsum_ext. intros y' Hy. apply rsum_ext. intros x' _. f_equal. rewrite <- hat_neg_l. f_equal. lia.
Qed.
Theorem transform_transposed half ny nx img norm scales : (forall a, In a scales -> 0 < a) ->
  compute_transform half nx ny (fun y x => img x y) norm scales = compute_transform half ny nx img norm scales.
Proof.
  intros H. unfold compute_transform. apply map_ext_in. intros a A. apply H in A. rewrite !coefs_value by lra. apply value_perm.
  rewrite !coefficients_pixels. apply (pixels_perm _ _ (fun p => (snd p, fst p))).
  - intros [y x] P. cbn [fst snd]. apply in_pixels in P. split; [apply in_pixels; lia|]. apply coefficient_transposed.
  - intros [y x] [y' x'] _ _ E. cbn in E. injection E as -> ->. reflexivity.
  - lia.
Qed.
Theorem transform_mirrored half ny nx img norm scales : (forall a, In a scales -> 0 < a) ->
  compute_transform half ny nx (fun y x => img (ny - 1 - y)%nat x) norm scales = compute_transform half ny nx img norm scales.
Proof.
  intros H. unfold compute_transform. apply map_ext_in. intros a A. apply H in A. rewrite !coefs_value by lra. apply value_perm.
  rewrite !coefficients_pixels. apply (pixels_perm _ _ (fun p => ((ny - 1 - fst p)%nat, snd p))).
  - intros [y x] P. cbn [fst snd]. apply in_pixels in P. split; [apply in_pixels; lia|]. apply coefficient_mirrored; lia.
  - intros [y x] [y' x'] P Q E. apply in_pixels in P. apply in_pixels in Q. cbn [fst snd] in E. injection E as E1 E2. f_equal; lia.
  - lia.
Qed.

(** ** Moving the emission *)
Lemma plane_outside ny nx img y x : plane ny nx (wavelet_data img) y x = outside_zero ny nx img y x.
Proof. unfold plane, outside_zero. rewrite data_brightness. reflexivity. Qed.
Lemma outside_cases ny nx img y x :
  ((0 <= y < Z.of_nat ny)%Z /\ (0 <= x < Z.of_nat nx)%Z /\ outside_zero ny nx img y x = brightness (img (Z.to_nat y) (Z.to_nat x))) \/
  (~ ((0 <= y < Z.of_nat ny)%Z /\ (0 <= x < Z.of_nat nx)%Z) /\ outside_zero ny nx img y x = 0).
Proof.
  unfold outside_zero. destruct ((0 <=? y) && (y <? Z.of_nat ny) && ((0 <=? x) && (x <? Z.of_nat nx)))%Z eqn:E.
  - left. rewrite !andb_true_iff, !Z.leb_le, !Z.ltb_lt in E. repeat split; try lia.
  - right. split; [|reflexivity]. intros K. rewrite <- not_true_iff_false in E. apply E. rewrite !andb_true_iff, !Z.leb_le, !Z.ltb_lt. lia.
Qed.
Theorem coefficient_moved half a norm ny nx img img' (dy dx : Z) y x y' x' : 0 < a ->
  (forall y x, (y < ny)%nat -> (x < nx)%nat -> brightness (img' y x) = outside_zero ny nx img (Z.of_nat y - dy) (Z.of_nat x - dx)) ->
  (forall y x, (y < ny)%nat -> (x < nx)%nat -> brightness (img y x) <> 0 -> (0 <= Z.of_nat y + dy < Z.of_nat ny)%Z /\ (0 <= Z.of_nat x + dx < Z.of_nat nx)%Z) ->
  Z.of_nat y' = (Z.of_nat y + dy)%Z -> Z.of_nat x' = (Z.of_nat x + dx)%Z ->
  wavelet_coef ny nx (wavelet_data img') half norm a y' x' = wavelet_coef ny nx (wavelet_data img) half norm a y x.
Proof.
  intros A H K EY EX. unfold wavelet_coef. f_equal. apply rsum_ext. intros i _. apply rsum_ext. intros j _. cbv zeta. f_equal. rewrite !plane_outside, EY, EX.
  set (v := (Z.of_nat i - Z.of_nat half)%Z). set (u := (Z.of_nat j - Z.of_nat half)%Z).
  destruct (outside_cases ny nx img' (Z.of_nat y + dy - v) (Z.of_nat x + dx - u)) as [(B&C&->)|(B&->)].
  - rewrite H by lia. f_equal; lia.
  - destruct (outside_cases ny nx img (Z.of_nat y - v) (Z.of_nat x - u)) as [(D&E&->)|(_&->)]; [|reflexivity].
    destruct (Req_EM_T (brightness (img (Z.to_nat (Z.of_nat y - v)) (Z.to_nat (Z.of_nat x - u)))) 0) as [->|N]; [reflexivity|].
    exfalso. apply B. apply K in N; lia.
Qed.

(** ** Uncertainties *)
Lemma ln2_upper : ln 2 <= 18 / 25.
Proof.
  rewrite <- (ln_exp (18 / 25)). left. apply ln_increasing; [lra|]. replace (18 / 25) with (INR 32 * (9 / 400)) by (cbn [INR]; lra).
  assert (E : exp (INR 32 * (9 / 400)) = exp (9 / 400) ^ 32).
  { generalize 32%nat. induction n as [|n IH]; [cbn; rewrite Rmult_0_l; apply exp_0|]. rewrite S_INR. cbn [pow]. rewrite <- IH, <- exp_plus. f_equal. ring. }
  rewrite E. apply Rlt_le_trans with ((1 + 9 / 400) ^ 32).
  - replace (1 + 9 / 400) with (409 / 400) by lra. unfold Rdiv. rewrite Rpow_mult_distr, pow_inv.
    apply Rmult_lt_reg_r with (400 ^ 32); [apply pow_lt; lra|]. rewrite Rmult_assoc, Rinv_l by (apply pow_nonzero; lra). rewrite Rmult_1_r.
    rewrite !pow_IZR, <- mult_IZR. apply IZR_lt. reflexivity.
  - apply pow_incr. split; [lra|]. left. apply exp_ineq1. lra.
Qed.
Lemma ln2_lower : 44 / 65 <= ln 2.
Proof.
  assert (L : / 65 < ln (65 / 64)).
  { rewrite <- (ln_exp (/ 65)). apply ln_increasing; [apply exp_pos|].
    assert (G : 64 / 65 < exp (- / 65)) by (apply Rle_lt_trans with (1 + - / 65); [lra|]; apply exp_ineq1; lra).
    rewrite exp_Ropp in G. pose proof (exp_pos (/ 65)) as Q. apply Rmult_lt_compat_r with (r := exp (/ 65)) in G; [|assumption]. rewrite Rinv_l in G by lra. lra. }
  assert (E : ln ((65 / 64) ^ 44) = INR 44 * ln (65 / 64)).
  { generalize 44%nat. induction n as [|n IH]; [cbn; rewrite Rmult_0_l; apply ln_1|]. rewrite S_INR. cbn [pow]. rewrite ln_mult, IH; [ring|lra|apply pow_lt; lra]. }
  apply Rle_trans with (ln ((65 / 64) ^ 44)).
  - rewrite E. replace (INR 44) with 44 by (cbn [INR]; lra). lra.
  - left. apply ln_increasing; [apply pow_lt; lra|]. unfold Rdiv. rewrite Rpow_mult_distr, pow_inv.
    apply Rmult_lt_reg_r with (64 ^ 44); [apply pow_lt; lra|]. rewrite Rmult_assoc, Rinv_l by (apply pow_nonzero; lra). rewrite Rmult_1_r.
    rewrite !pow_IZR, <- mult_IZR. apply IZR_lt. reflexivity.
Qed.
Lemma int_part_bounds r k : IZR k <= r < IZR k + 1 -> Int_part r = k.
Proof. intros H. pose proof (base_Int_part r). assert (Int_part r < k + 1)%Z by (apply lt_IZR; rewrite plus_IZR; lra). assert (k < Int_part r + 1)%Z by (apply lt_IZR; rewrite plus_IZR; lra). lia. Qed.

Lemma area_pos a : 0 < a -> (0 < kern_area a)%Z.
Proof.
  intros A. apply lt_IZR. eapply Rlt_le_trans; [|apply (proj1 (ceil_bounds _))]. pose proof PI_RGT_0. pose proof ln2_lower.
  apply Rmult_lt_0_compat; [|apply Rmult_lt_0_compat; lra]. apply Rmult_lt_0_compat; lra.
Qed.
Lemma area_fits n ny nx a : (3 <= n)%nat -> (n <= ny)%nat -> (n <= nx)%nat -> 1 <= a -> IZR (Int_part a) <= INR n / 2 -> (kern_area a <= Z.of_nat (ny * nx))%Z.
Proof.
  intros N Y X A B. assert (K : (kern_area a <= Z.of_nat (n * n))%Z); [|nia].
  assert (C : IZR (kern_area a) < 36 / 25 * (a * a) + 1).
  { unfold kern_area. eapply Rlt_le_trans; [apply (proj2 (ceil_bounds _))|]. apply Rplus_le_compat_r. apply Rmult_le_compat_r; [nra|].
    pose proof PI_4. pose proof ln2_upper. pose proof ln2_lower. pose proof PI_RGT_0. nra. }
  pose proof (base_Int_part a) as [_ D].
  destruct (Nat.eq_dec n 3) as [->|M].
  - assert (Int_part a <= 1)%Z. { assert (Int_part a < 2)%Z; [|lia]. apply lt_IZR. cbn [INR] in B. lra. }
    assert (IZR (Int_part a) <= 1) by (apply IZR_le; assumption). assert (a < 2) by lra.
    assert (kern_area a < 7)%Z by (apply lt_IZR; nra). cbn. lia.
  - assert (Q : 4 <= INR n) by (replace 4 with (INR 4) by (cbn; lra); apply le_INR; lia).
    assert (a < INR n / 2 + 1) by lra. assert (a * a <= (INR n / 2 + 1) * (INR n / 2 + 1)) by nra.
    assert (IZR (kern_area a) < IZR (Z.of_nat (n * n)) + 1); [|rewrite <- plus_IZR in *; apply lt_IZR in H1; lia].
    rewrite <- INR_IZR_INZ, mult_INR. nra.
Qed.
Theorem stddev_rule half ny nx img norm scales k a : (3 <= ny)%nat -> (3 <= nx)%nat -> nth_error scales k = Some a ->
  1 <= a -> IZR (Int_part a) <= INR (Nat.min ny nx) / 2 ->
  exists v e, nth_error (compute_transform half ny nx img norm scales) k = Some (v, e) /\
  let P := positives (coefficients (half a) a norm ny nx img) in
  (P = [] -> e = NaN) /\
  (P <> [] -> exists n area, (1 <= n)%Z /\ (area - 1 < PI * ln 2 * a ^ 2 / 2 <= area) /\ (exists z, area = IZR z) /\ IZR n * area <= INR (ny * nx) < (IZR n + 1) * area /\
     e = Fin (sqrt (rvar P) / sqrt (IZR n))).
Proof.
  intros Y X E A B. assert (N : a <> 0) by lra. eexists. eexists. split; [rewrite (transform_nth half ny nx img norm scales k a E N), wavelet_value_eq; reflexivity|]. cbv zeta.
  set (C := coefficients (half a) a norm ny nx img). split; [intros ->; reflexivity|]. intros P.
  assert (F : (kern_area a <= Z.of_nat (ny * nx))%Z) by (apply (area_fits (Nat.min ny nx)); lia || lra || assumption).
  pose proof (area_pos a ltac:(lra)) as G.
  assert (L : length C = (ny * nx)%nat).
  { unfold C. rewrite coefficients_pixels, map_length. unfold pixels. rewrite prod_length, !seq_length. reflexivity. }
  exists (Z.of_nat (ny * nx) / kern_area a)%Z, (IZR (kern_area a)). repeat split.
  - apply Z.div_le_lower_bound; lia.
  - pose proof (ceil_bounds (1 / 2 * PI * ln 2 * (a * a))). unfold kern_area. lra.
  - pose proof (ceil_bounds (1 / 2 * PI * ln 2 * (a * a))). unfold kern_area. lra.
  - eexists. reflexivity.
  - rewrite INR_IZR_INZ, <- mult_IZR. apply IZR_le. rewrite Z.mul_comm. apply Z.mul_div_le. assumption.
  - rewrite INR_IZR_INZ, <- plus_IZR, <- mult_IZR. apply IZR_lt. rewrite Z.mul_comm. apply Z.mul_succ_div_gt. assumption.
  - rewrite np_std_rvar, fsqrt_fin, L by (assumption || apply nindep_nonneg). unfold fdiv, Reqb.
    destruct (Req_EM_T _ 0) as [Q|Q]; [exfalso|reflexivity].
    assert (0 < sqrt (IZR (Z.of_nat (ny * nx) / kern_area a))); [|lra]. apply sqrt_lt_R0. apply IZR_lt.
    assert (1 <= Z.of_nat (ny * nx) / kern_area a)%Z by (apply Z.div_le_lower_bound; lia). lia.
Qed.

Theorem stddev_two half img norm a : 1999 / 1000 <= a < 2 ->
  (exists v e, compute_transform half 2 2 img norm [a] = [(v, e)] /\ forall r, e <> Fin r) /\
  lags_ok 2 [a] = true.
Proof.
  intros A. split.
  - exists (fst (wavelet_value (coefficients (half a) a norm 2 2 img) a)), (snd (wavelet_value (coefficients (half a) a norm 2 2 img) a)). split.
    + unfold compute_transform. cbn [map]. rewrite coefs_value by lra. rewrite <- surjective_pairing. reflexivity.
    + intros r. rewrite wavelet_value_eq. cbn [snd].
      assert (L : length (coefficients (half a) a norm 2 2 img) = 4%nat) by reflexivity. rewrite L.
      assert (K : (Z.of_nat 4 < kern_area a)%Z).
      { apply lt_IZR. eapply Rlt_le_trans; [|apply (proj1 (ceil_bounds _))]. cbn [Z.of_nat Pos.of_succ_nat Pos.succ].
        pose proof ln2_lower. assert (3 < PI) by (pose proof PI2_3_2; lra). assert (2003 / 1000 < PI * ln 2) by nra. assert (3996 / 1000 <= a * a) by nra. nra. }
      rewrite Z.div_small by lia. rewrite fsqrt_fin by lra. rewrite sqrt_0.
      destruct (np_std (positives (coefficients (half a) a norm 2 2 img))); cbn; unfold Reqb; destruct (Req_EM_T 0 0); try congruence; unfold sinf, Rltb;
        repeat match goal with |- context[Rlt_dec ?x ?y] => destruct (Rlt_dec x y) end; discriminate.
  - apply lags_ok_iff. intros l [<-|[]]. rewrite half_side. split; [lra|]. rewrite (int_part_bounds a 1) by lra. cbn [INR]. lra.
Qed.
