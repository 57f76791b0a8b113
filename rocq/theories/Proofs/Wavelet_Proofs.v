(** Proofs about the wavelet transform. *)
From Coq Require Import Reals List ZArith Arith Bool Lia Lra Permutation.
From Verif Require Import Lib.PyBase Lib.Arr Lib.RSum Lib.Fl Spec.Blank Spec.MexHat Model.Units Model.StatsUtils Model.Scf Model.Psds Model.DeltaVar Model.BaseStat Model.ThreeD Model.Wavelet
  Proofs.Psds_Proofs.
Import ListNotations.
Local Open Scope R_scope.

Lemma rsum_pick n z (f : nat -> R) :
  rsum n (fun i => if (Z.of_nat i =? z)%Z then f i else 0) = if ((0 <=? z) && (z <? Z.of_nat n))%Z then f (Z.to_nat z) else 0.
Proof.
  destruct ((0 <=? z) && (z <? Z.of_nat n))%Z eqn:E.
  - apply andb_prop in E. destruct E as [A B]. apply Z.leb_le in A. apply Z.ltb_lt in B.
    erewrite (rsum_single n _ (Z.to_nat z)); [|lia|].
    + rewrite Z2Nat.id by lia. rewrite Z.eqb_refl. reflexivity.
    + intros i Hi Hn. replace (Z.of_nat i =? z)%Z with false; [reflexivity|]. symmetry. apply Z.eqb_neq. lia.
  - apply rsum_zero. intros i Hi. replace (Z.of_nat i =? z)%Z with false; [reflexivity|]. symmetry. apply Z.eqb_neq.
    apply andb_false_iff in E. destruct E as [E|E]; [apply Z.leb_gt in E|apply Z.ltb_ge in E]; lia.
Qed.

Lemma conv_swap n h (y : Z) (G : Z -> nat -> R) :
  rsum (2 * h + 1) (fun a => let v := (Z.of_nat a - Z.of_nat h)%Z in
     if ((0 <=? y - v) && (y - v <? Z.of_nat n))%Z then G v (Z.to_nat (y - v)) else 0) =
  rsum n (fun y' => if (Z.abs (y - Z.of_nat y') <=? Z.of_nat h)%Z then G (y - Z.of_nat y')%Z y' else 0).
Proof.
  transitivity (rsum (2 * h + 1) (fun a => rsum n (fun i => if (Z.of_nat i =? y - (Z.of_nat a - Z.of_nat h))%Z then G (Z.of_nat a - Z.of_nat h)%Z i else 0))).
  { apply rsum_ext. intros a _. cbv zeta. symmetry. apply (rsum_pick n (y - (Z.of_nat a - Z.of_nat h)) (G (Z.of_nat a - Z.of_nat h)%Z)). }
  rewrite (rsum_exchange (2 * h + 1) n). apply rsum_ext. intros i Hi.
  transitivity (rsum (2 * h + 1) (fun a => if (Z.of_nat a =? y - Z.of_nat i + Z.of_nat h)%Z then G (y - Z.of_nat i)%Z i else 0)).
  { apply rsum_ext. intros a _. destruct (Z.of_nat a =? y - Z.of_nat i + Z.of_nat h)%Z eqn:E.
    - apply Z.eqb_eq in E. replace (Z.of_nat i =? y - (Z.of_nat a - Z.of_nat h))%Z with true by (symmetry; apply Z.eqb_eq; lia).
      f_equal. lia.
    - apply Z.eqb_neq in E. replace (Z.of_nat i =? y - (Z.of_nat a - Z.of_nat h))%Z with false by (symmetry; apply Z.eqb_neq; lia). reflexivity. }
  rewrite (rsum_pick (2 * h + 1) (y - Z.of_nat i + Z.of_nat h) (fun _ => G (y - Z.of_nat i)%Z i)).
  replace ((0 <=? y - Z.of_nat i + Z.of_nat h) && (y - Z.of_nat i + Z.of_nat h <? Z.of_nat (2 * h + 1)))%Z with (Z.abs (y - Z.of_nat i) <=? Z.of_nat h)%Z; [reflexivity|].
  apply eq_true_iff_eq. rewrite andb_true_iff, !Z.leb_le, Z.ltb_lt. lia.
Qed.

Lemma conv2_swap ny nx h (y x : Z) (k : Z -> Z -> R) d :
  rsum (2 * h + 1) (fun a => rsum (2 * h + 1) (fun b =>
    let v := (Z.of_nat a - Z.of_nat h)%Z in let u := (Z.of_nat b - Z.of_nat h)%Z in k v u * plane ny nx d (y - v) (x - u))) =
  rsum ny (fun y' => rsum nx (fun x' => (if ((Z.abs (y - Z.of_nat y') <=? Z.of_nat h) && (Z.abs (x - Z.of_nat x') <=? Z.of_nat h))%Z then k (y - Z.of_nat y')%Z (x - Z.of_nat x')%Z else 0) * d y' x')).
Proof.
  set (G := fun v y' => rsum nx (fun x' => if (Z.abs (x - Z.of_nat x') <=? Z.of_nat h)%Z then k v (x - Z.of_nat x')%Z * d y' x' else 0)).
  transitivity (rsum (2 * h + 1) (fun a => let v := (Z.of_nat a - Z.of_nat h)%Z in
     if ((0 <=? y - v) && (y - v <? Z.of_nat ny))%Z then G v (Z.to_nat (y - v)) else 0)).
  { apply rsum_ext. intros a _. cbv zeta. set (v := (Z.of_nat a - Z.of_nat h)%Z). unfold plane.
    destruct ((0 <=? y - v) && (y - v <? Z.of_nat ny))%Z; cbn [andb].
    - unfold G. rewrite <- (conv_swap nx h x (fun u x' => k v u * d (Z.to_nat (y - v)) x')). apply rsum_ext. intros b _. cbv zeta beta.
      destruct ((0 <=? x - (Z.of_nat b - Z.of_nat h)) && (x - (Z.of_nat b - Z.of_nat h) <? Z.of_nat nx))%Z; [reflexivity|ring].
    - apply rsum_zero. intros b _. ring. }
  rewrite conv_swap. apply rsum_ext. intros y' _. unfold G.
  destruct (Z.abs (y - Z.of_nat y') <=? Z.of_nat h)%Z; cbn [andb].
  - apply rsum_ext. intros x' _. destruct (Z.abs (x - Z.of_nat x') <=? Z.of_nat h)%Z; [reflexivity|ring].
  - symmetry. apply rsum_zero. intros x' _. ring.
Qed.

Lemma ricker_hat a v u : a <> 0 -> ricker a v u = hat a v u.
Proof.
  intros A. unfold ricker, hat. replace (IZR v * IZR v + IZR u * IZR u) with (IZR v ^ 2 + IZR u ^ 2) by ring.
  set (q := (IZR v ^ 2 + IZR u ^ 2) / (2 * a ^ 2)). field. split; [assumption|]. apply PI_neq0.
Qed.

Lemma data_brightness img y x : wavelet_data img y x = brightness (img y x).
Proof. unfold wavelet_data. destruct (img y x); reflexivity. Qed.

Theorem coef_value half a norm ny nx img y x : a <> 0 ->
  wavelet_coef ny nx (wavelet_data img) half norm a y x = coefficient half a norm ny nx img y x.
Proof.
  intros A. unfold wavelet_coef, coefficient. pose proof (conv2_swap ny nx half (Z.of_nat y) (Z.of_nat x) (ricker a) (wavelet_data img)) as E. cbv zeta in E |- *. rewrite E.
  rewrite Rmult_comm. f_equal; [destruct norm; reflexivity|].
  apply rsum_ext. intros y' _. apply rsum_ext. intros x' _. rewrite data_brightness. unfold cut_hat. rewrite ricker_hat by assumption. reflexivity.
Qed.

Lemma coefs_flat (f : nat -> nat -> R) ny nx : map (fun p => f (fst p) (snd p)) (pixels ny nx) = flat_map (fun y => map (fun x => f y x) (seq 0 nx)) (seq 0 ny).
Proof.
  unfold pixels. induction (seq 0 ny) as [|y l IH]; [reflexivity|]. cbn [list_prod flat_map]. rewrite map_app, map_map, IH. reflexivity.
Qed.
Lemma coefs_value half a norm ny nx img : a <> 0 ->
  map (fun p => wavelet_coef ny nx (wavelet_data img) half norm a (fst p) (snd p)) (pixels ny nx) = coefficients half a norm ny nx img.
Proof.
  intros A. rewrite (coefs_flat (fun y x => wavelet_coef ny nx (wavelet_data img) half norm a y x)). unfold coefficients.
  apply flat_map_ext. intros y. apply map_ext. intros x. apply coef_value. assumption.
Qed.

Lemma wavelet_value_eq l a : wavelet_value l a =
  (ThreeD.np_mean (positives l), fdiv (np_std (positives l)) (fsqrt (Fin (IZR (Z.of_nat (length l) / kern_area a))))).
Proof. reflexivity. Qed.

Lemma ceil_bounds r : r <= IZR (np_ceil r) < r + 1.
Proof. unfold np_ceil. rewrite opp_IZR. destruct (base_Int_part (- r)). lra. Qed.

(** ** The values *)
Lemma np_mean_rmean l : l <> [] -> ThreeD.np_mean l = Fin (rmean l).
Proof. destruct l; [congruence|reflexivity]. Qed.
Lemma np_std_rvar l : l <> [] -> np_std l = Fin (sqrt (rvar l)).
Proof.
  destruct l as [|a l]; [congruence|]. intros _. unfold np_std, rvar, rmean. cbv zeta. rewrite map_length. do 3 f_equal.
  apply (f_equal lsum). apply map_ext. intros v. ring.
Qed.
Lemma length_pos {A} (l : list A) : l <> [] -> 0 < INR (length l).
Proof. destruct l; [congruence|]. intros _. apply lt_0_INR. cbn. lia. Qed.

Lemma positives_pos l c : In c (positives l) -> 0 < c.
Proof. unfold positives. rewrite filter_In. intros [_ H]. destruct (Rlt_dec 0 c); [assumption|discriminate]. Qed.
Lemma in_positives l c : In c (positives l) <-> In c l /\ 0 < c.
Proof. unfold positives. rewrite filter_In. destruct (Rlt_dec 0 c); intuition discriminate. Qed.

Lemma lsum_pos l : l <> [] -> (forall c, In c l -> 0 < c) -> 0 < lsum l.
Proof.
  intros N H. destruct l as [|a l]; [congruence|]. rewrite lsum_cons.
  assert (0 < a) by (apply H; left; reflexivity).
  assert (0 <= lsum l). { apply lsum_nonneg. intros v V. left. apply H. right. assumption. }
  lra.
Qed.
Lemma lsum_bound l m : (forall c, In c l -> c <= m) -> lsum l <= INR (length l) * m.
Proof.
  induction l as [|a l IH]; intros H; [cbn; lra|]. rewrite lsum_cons. cbn [length]. rewrite S_INR.
  assert (a <= m) by (apply H; left; reflexivity). assert (lsum l <= INR (length l) * m) by (apply IH; intros; apply H; right; assumption). lra.
Qed.
Lemma rmean_pos l : l <> [] -> (forall c, In c l -> 0 < c) -> 0 < rmean l.
Proof. intros N H. apply Rdiv_lt_0_compat; [apply lsum_pos; assumption|apply length_pos; assumption]. Qed.
Lemma rmean_bound l m : l <> [] -> (forall c, In c l -> c <= m) -> rmean l <= m.
Proof.
  intros N H. unfold rmean. pose proof (length_pos l N). apply Rmult_le_reg_r with (INR (length l)); [assumption|].
  unfold Rdiv. rewrite Rmult_assoc, Rinv_l by lra. rewrite Rmult_1_r. rewrite Rmult_comm. apply lsum_bound. assumption.
Qed.

Lemma transform_nth half ny nx img norm scales k a : nth_error scales k = Some a -> a <> 0 ->
  nth_error (compute_transform half ny nx img norm scales) k = Some (wavelet_value (coefficients (half a) a norm ny nx img) a).
Proof.
  intros E A. unfold compute_transform. erewrite map_nth_error by eassumption. rewrite coefs_value by assumption. reflexivity.
Qed.

Theorem value_rule half ny nx img norm scales k a : nth_error scales k = Some a -> 0 < a ->
  exists v e, nth_error (compute_transform half ny nx img norm scales) k = Some (v, e) /\
  let P := positives (coefficients (half a) a norm ny nx img) in
  (P = [] -> v = NaN) /\
  (P <> [] -> v = Fin (rmean P) /\ 0 < rmean P /\ forall m, is_max m (coefficients (half a) a norm ny nx img) -> rmean P <= m).
Proof.
  intros E A. assert (N : a <> 0) by lra. eexists. eexists. split; [rewrite (transform_nth half ny nx img norm scales k a E N), wavelet_value_eq; reflexivity|]. cbv zeta.
  set (C := coefficients (half a) a norm ny nx img). split.
  - intros ->. reflexivity.
  - intros P. split; [apply np_mean_rmean; assumption|]. split.
    + apply rmean_pos; [assumption|]. intros c. apply positives_pos.
    + intros m [_ M]. apply rmean_bound; [assumption|]. intros c H. apply in_positives in H. apply M, H.
Qed.

(** ** Scaling *)
Lemma map_flat_map {A B C} (f : B -> C) (g : A -> list B) l : map f (flat_map g l) = flat_map (fun a => map f (g a)) l.
Proof. induction l as [|a l IH]; [reflexivity|]. cbn [flat_map]. rewrite map_app, IH. reflexivity. Qed.
Lemma positives_scal s l : 0 < s -> positives (map (Rmult s) l) = map (Rmult s) (positives l).
Proof.
  intros S. induction l as [|a l IH]; [reflexivity|]. cbn [map]. unfold positives in *. cbn [filter].
  destruct (Rlt_dec 0 (s * a)) as [H|H], (Rlt_dec 0 a) as [K|K].
  - cbn [map]. rewrite IH. reflexivity.
  - exfalso. apply K. apply Rmult_lt_reg_l with s; [assumption|lra].
  - exfalso. apply H. apply Rmult_lt_0_compat; assumption.
  - apply IH.
Qed.
Lemma rmean_scal s l : rmean (map (Rmult s) l) = s * rmean l.
Proof. unfold rmean. rewrite map_length. replace (lsum (map (Rmult s) l)) with (s * lsum l); [unfold Rdiv; ring|].
  induction l as [|a l IH]; [cbn; ring|]. cbn [map]. rewrite !lsum_cons, <- IH. ring. Qed.
Lemma rvar_scal s l : rvar (map (Rmult s) l) = s ^ 2 * rvar l.
Proof.
  unfold rvar. rewrite rmean_scal, map_map.
  rewrite (map_ext _ (fun r => s ^ 2 * ((r - rmean l) * (r - rmean l)))) by (intros; ring).
  rewrite <- (map_map (fun r => (r - rmean l) * (r - rmean l)) (Rmult (s ^ 2))). apply rmean_scal.
Qed.
Lemma fsqrt_fin r : 0 <= r -> fsqrt (Fin r) = Fin (sqrt r).
Proof. intros H. cbn. unfold Rltb. destruct (Rlt_dec r 0); [lra|reflexivity]. Qed.
Lemma fmul_fdiv s x n : 0 < s -> 0 <= n -> 0 <= x -> fdiv (Fin (s * x)) (Fin n) = fmul (Fin s) (fdiv (Fin x) (Fin n)).
Proof.
  intros S N X. cbn. unfold Reqb. destruct (Req_EM_T n 0) as [E|E].
  - destruct (Rle_lt_or_eq_dec _ _ X) as [K|<-].
    + assert (0 < s * x) by (apply Rmult_lt_0_compat; lra). unfold sinf, Rltb, Reqb.
      destruct (Rlt_dec 0 (s * x)); [|lra]. destruct (Rlt_dec 0 x); [|lra]. unfold sinf, Rltb, Reqb. destruct (Rlt_dec 0 s); [reflexivity|lra].
    + rewrite Rmult_0_r. unfold sinf, Rltb. destruct (Rlt_dec 0 0); [lra|reflexivity].
  - cbn. f_equal. unfold Rdiv. ring.
Qed.
Lemma wavelet_value_nil l a : positives l = [] -> fst (wavelet_value l a) = NaN /\ snd (wavelet_value l a) = NaN.
Proof. intros H. rewrite wavelet_value_eq, H. cbn [fst snd]. split; [reflexivity|]. reflexivity. Qed.
Lemma kern_area_nonneg a : (0 <= kern_area a)%Z.
Proof.
  unfold kern_area. apply le_IZR. eapply Rle_trans; [|apply (proj1 (ceil_bounds _))].
  apply Rmult_le_pos; [|apply Rle_0_sqr]. pose proof PI_RGT_0. assert (0 < ln 2) by (rewrite <- ln_1; apply ln_increasing; lra).
  apply Rmult_le_pos; lra.
Qed.
Lemma nindep_nonneg n a : 0 <= IZR (Z.of_nat n / kern_area a).
Proof.
  apply IZR_le. pose proof (kern_area_nonneg a). destruct (Z.eq_dec (kern_area a) 0) as [->|N]; [rewrite Zdiv_0_r; lia|]. apply Z.div_pos; lia.
Qed.
Lemma rvar_nonneg l : 0 <= rvar l.
Proof.
  unfold rvar, rmean. unfold Rdiv. destruct l as [|b l]; [cbn; lra|]. apply Rmult_le_pos.
  - apply lsum_nonneg. intros v V. apply in_map_iff in V. destruct V as [r [<- _]]. apply Rle_0_sqr.
  - left. apply Rinv_0_lt_compat. rewrite map_length. apply length_pos. discriminate.
Qed.
Lemma value_scal s l a : 0 < s ->
  wavelet_value (map (Rmult s) l) a = (fmul (Fin s) (fst (wavelet_value l a)), fmul (Fin s) (snd (wavelet_value l a))).
Proof.
  intros S. destruct (list_eq_dec Req_EM_T (positives l) []) as [E|E].
  - destruct (wavelet_value_nil l a E) as [-> ->]. assert (E' : positives (map (Rmult s) l) = []) by (rewrite positives_scal, E by assumption; reflexivity).
    destruct (wavelet_value_nil (map (Rmult s) l) a E') as [A B]. rewrite (surjective_pairing (wavelet_value (map (Rmult s) l) a)), A, B. reflexivity.
  - rewrite !wavelet_value_eq, positives_scal, map_length by assumption. cbn [fst snd].
    assert (E' : map (Rmult s) (positives l) <> []) by (destruct (positives l); [congruence|discriminate]).
    rewrite !np_mean_rmean, !np_std_rvar, rmean_scal, rvar_scal, fsqrt_fin by (assumption || apply nindep_nonneg).
    apply f_equal2; [reflexivity|]. rewrite sqrt_mult by (apply pow2_ge_0 || apply rvar_nonneg). rewrite sqrt_pow2 by lra.
    apply fmul_fdiv; [assumption| |]; apply sqrt_pos.
Qed.
Theorem transform_scaled half ny nx img norm scales s : 0 < s -> (forall a, In a scales -> 0 < a) ->
  compute_transform half ny nx (fun y x => fmul (Fin s) (img y x)) norm scales =
  map (fun ve => (fmul (Fin s) (fst ve), fmul (Fin s) (snd ve))) (compute_transform half ny nx img norm scales).
Proof.
  intros S H. unfold compute_transform. rewrite map_map. apply map_ext_in. intros a A. apply H in A. rewrite !coefs_value by lra. rewrite <- value_scal by assumption.
  f_equal. unfold coefficients. rewrite map_flat_map. apply flat_map_ext. intros y. rewrite map_map. apply map_ext. intros x.
  unfold coefficient. rewrite <- Rmult_assoc, (Rmult_comm s), Rmult_assoc. f_equal. rewrite <- rsum_scal. apply rsum_ext. intros y' _. rewrite <- rsum_scal. apply rsum_ext. intros x' _.
  replace (brightness (fmul (Fin s) (img y' x'))) with (s * brightness (img y' x')); [ring|].
  destruct (img y' x'); cbn; try ring; unfold sinf, Rltb, Reqb; destruct (Rlt_dec 0 s); try lra; cbn; ring.
Qed.
Theorem coefficient_sum half a norm ny nx (f g : nat -> nat -> R) y x :
  coefficient half a norm ny nx (fun y x => Fin (f y x + g y x)) y x =
  coefficient half a norm ny nx (fun y x => Fin (f y x)) y x + coefficient half a norm ny nx (fun y x => Fin (g y x)) y x.
Proof.
  unfold coefficient. rewrite <- Rmult_plus_distr_l. f_equal. rewrite <- rsum_plus. apply rsum_ext. intros y' _. rewrite <- rsum_plus. apply rsum_ext. intros x' _. cbn [brightness]. ring.
Qed.

(** ** Normalization *)
Theorem transform_raw half ny nx img scales : (forall a, In a scales -> 0 < a) ->
  compute_transform half ny nx img false scales =
  map (fun p => (fmul (Fin (fst p ^ 2)) (fst (snd p)), fmul (Fin (fst p ^ 2)) (snd (snd p)))) (combine scales (compute_transform half ny nx img true scales)).
Proof.
  unfold compute_transform. induction scales as [|a l IH]; intros H; [reflexivity|]. cbn [map combine]. apply f_equal2; [|apply IH; intros; apply H; right; assumption].
  assert (A : 0 < a) by (apply H; left; reflexivity). cbn [fst snd]. rewrite !coefs_value by lra. rewrite <- value_scal by (apply pow_lt; assumption).
  f_equal. unfold coefficients. rewrite map_flat_map. apply flat_map_ext. intros y. rewrite map_map. apply map_ext. intros x.
  unfold coefficient. ring.
Qed.
