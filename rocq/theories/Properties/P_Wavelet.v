(** Properties C68 and C179-C187: the wavelet transform. *)
From Coq Require Import Reals List ZArith Arith Bool Lia Lra.
From Verif Require Import Lib.PyBase Lib.Fl Lib.RSum Spec.Blank Spec.Bins Spec.MexHat Model.Units Model.DeltaVar Model.BaseStat Model.Wavelet
  Proofs.Wavelet_Proofs Proofs.Wavelet2_Proofs Proofs.Wavelet3_Proofs.
Import ListNotations.
Local Open Scope R_scope.

(** C68.  The value at a scale is the mean of the positive coefficients. *)
Theorem C68_wavelet_value : forall half ny nx img norm scales k a, nth_error scales k = Some a -> 0 < a ->
  exists v e, nth_error (compute_transform half ny nx img norm scales) k = Some (v, e) /\
  let P := positives (coefficients (half a) a norm ny nx img) in
  (P = [] -> v = NaN) /\
  (P <> [] -> v = Fin (rmean P) /\ 0 < rmean P /\ forall m, is_max m (coefficients (half a) a norm ny nx img) -> rmean P <= m).
Proof. exact value_rule. Qed.
Print Assumptions C68_wavelet_value.

(** A bright pixel has a positive coefficient, a blank image has none. *)
Example C68_example : positives (coefficients 0 1 true 1 1 (fun _ _ => Fin PI)) = [1] /\ positives (coefficients 0 1 true 1 1 (fun _ _ => NaN)) = [].
Proof.
  unfold coefficients, positives, coefficient, cut_hat, hat. cbn.
  replace ((0 * (0 * 1) + 0 * (0 * 1)) / (2 * (1 * (1 * 1)))) with 0 by field. rewrite Ropp_0, exp_0. pose proof PI_RGT_0. split.
  - match goal with |- context[Rlt_dec 0 ?c] => replace c with 1 by (field; lra) end. destruct (Rlt_dec 0 1); [reflexivity|lra].
  - match goal with |- context[Rlt_dec 0 ?c] => replace c with 0 by (field; lra) end. destruct (Rlt_dec 0 0); [lra|reflexivity].
Qed.

(** C179.  Multiplying the image by a positive number multiplies the values and their
    uncertainties; the coefficients of a sum of images add up. *)
Theorem C179_intensity_unit : forall half ny nx img norm scales s, 0 < s -> (forall a, In a scales -> 0 < a) ->
  compute_transform half ny nx (fun y x => fmul (Fin s) (img y x)) norm scales =
  map (fun ve => (fmul (Fin s) (fst ve), fmul (Fin s) (snd ve))) (compute_transform half ny nx img norm scales).
Proof. exact transform_scaled. Qed.
Print Assumptions C179_intensity_unit.
Theorem C179_superposition : forall half a norm ny nx (f g : nat -> nat -> R) y x, a <> 0 ->
  wavelet_coef ny nx (wavelet_data (fun y x => Fin (f y x + g y x))) half norm a y x =
  wavelet_coef ny nx (wavelet_data (fun y x => Fin (f y x))) half norm a y x + wavelet_coef ny nx (wavelet_data (fun y x => Fin (g y x))) half norm a y x.
Proof. intros. rewrite !coef_value by assumption. apply coefficient_sum. Qed.
Print Assumptions C179_superposition.

(** C180.  Without the scale normalization every value is multiplied by the square of
    its scale (the slope grows by 2). *)
Theorem C180_scale_normalization : forall half ny nx img scales, (forall a, In a scales -> 0 < a) ->
  compute_transform half ny nx img false scales =
  map (fun p => (fmul (Fin (fst p ^ 2)) (fst (snd p)), fmul (Fin (fst p ^ 2)) (snd (snd p)))) (combine scales (compute_transform half ny nx img true scales)).
Proof. exact transform_raw. Qed.
Print Assumptions C180_scale_normalization.

Example C180_example : forall a, In a [1; 2] -> 0 < a.
Proof. intros a [<-|[<-|[]]]; lra. Qed.

(** C181.  The uncertainty is the standard deviation of the positive coefficients over
    the square root of the number of whole kernel areas in the image, for every scale the
    setter accepts. *)
Theorem C181_stddev_partial : forall half ny nx img norm scales k a, (3 <= ny)%nat -> (3 <= nx)%nat -> nth_error scales k = Some a ->
  1 <= a -> IZR (Int_part a) <= INR (Nat.min ny nx) / 2 ->
  exists v e, nth_error (compute_transform half ny nx img norm scales) k = Some (v, e) /\
  let P := positives (coefficients (half a) a norm ny nx img) in
  (P = [] -> e = NaN) /\
  (P <> [] -> exists n area, (1 <= n)%Z /\ (area - 1 < PI * ln 2 * a ^ 2 / 2 <= area) /\ (exists z, area = IZR z) /\ IZR n * area <= INR (ny * nx) < (IZR n + 1) * area /\
     e = Fin (sqrt (rvar P) / sqrt (IZR n))).
Proof. exact stddev_rule. Qed.
Print Assumptions C181_stddev_partial.

(** C181 fails for 2 x 2 pixels: scales accepted there have a kernel area above the
    number of pixels and the uncertainty is never a number. *)
Theorem C181_small_image_refuted : forall half img norm a, 1999 / 1000 <= a < 2 ->
  (exists v e, compute_transform half 2 2 img norm [a] = [(v, e)] /\ forall r, e <> Fin r) /\ lags_ok 2 [a] = true.
Proof. exact stddev_two. Qed.
Print Assumptions C181_small_image_refuted.

Example C181_example : 1 <= 5 / 2 /\ IZR (Int_part (5 / 2)) <= INR (Nat.min 4 6) / 2.
Proof. split; [lra|]. rewrite (int_part_bounds (5 / 2) 2) by lra. cbn. lra. Qed.

(** C182.  Transposing or mirroring the image changes no value. *)
Theorem C182_transposed : forall half ny nx img norm scales, (forall a, In a scales -> 0 < a) ->
  compute_transform half nx ny (fun y x => img x y) norm scales = compute_transform half ny nx img norm scales.
Proof. exact transform_transposed. Qed.
Print Assumptions C182_transposed.
Theorem C182_mirrored : forall half ny nx img norm scales, (forall a, In a scales -> 0 < a) ->
  compute_transform half ny nx (fun y x => img (ny - 1 - y)%nat x) norm scales = compute_transform half ny nx img norm scales.
Proof. exact transform_mirrored. Qed.
Print Assumptions C182_mirrored.

(** C183.  Moving the emission within the field moves the coefficients; blank pixels
    and the outside of the field count as zero. *)
Theorem C183_moved : forall half a norm ny nx img img' (dy dx : Z) y x y' x', 0 < a ->
  (forall y x, (y < ny)%nat -> (x < nx)%nat -> brightness (img' y x) = outside_zero ny nx img (Z.of_nat y - dy) (Z.of_nat x - dx)) ->
  (forall y x, (y < ny)%nat -> (x < nx)%nat -> brightness (img y x) <> 0 -> (0 <= Z.of_nat y + dy < Z.of_nat ny)%Z /\ (0 <= Z.of_nat x + dx < Z.of_nat nx)%Z) ->
  Z.of_nat y' = (Z.of_nat y + dy)%Z -> Z.of_nat x' = (Z.of_nat x + dx)%Z ->
  wavelet_coef ny nx (wavelet_data img') half norm a y' x' = wavelet_coef ny nx (wavelet_data img) half norm a y x.
Proof. exact coefficient_moved. Qed.
Print Assumptions C183_moved.

(** A pixel moved by one to the right in a 1 x 3 field, with blanks. *)
Example C183_example :
  let img := fun y x : nat => match x with 0%nat => Fin 5 | _ => NaN end in
  let img' := fun y x : nat => match x with 1%nat => Fin 5 | _ => NaN end in
  (forall y x, (y < 1)%nat -> (x < 3)%nat -> brightness (img' y x) = outside_zero 1 3 img (Z.of_nat y - 0) (Z.of_nat x - 1)) /\
  (forall y x, (y < 1)%nat -> (x < 3)%nat -> brightness (img y x) <> 0 -> (0 <= Z.of_nat y + 0 < Z.of_nat 1)%Z /\ (0 <= Z.of_nat x + 1 < Z.of_nat 3)%Z).
Proof.
  cbv zeta. split.
  - intros y x Y X. destruct y; [|lia]. destruct x as [|[|[|x]]]; try lia; reflexivity.
  - intros y x Y X H. destruct y; [|lia]. destruct x as [|x]; [lia|]. destruct (H eq_refl).
Qed.

(** C184.  The default scales are accepted from 2 pixels on: [num] scales from 1.667
    pixels to half of the smaller side, increasing from 4 pixels on. *)
Theorem C184_default_scales_partial : forall s side num, (2 <= side)%nat -> (2 <= num)%nat ->
  exists l, wavelet_scales s side num None = (Some (mk_q l pix), None) /\ length l = num /\
  nth 0 l 0 = 1667 / 1000 /\ nth (num - 1) l 0 = INR side / 2 /\ (forall r, In r l -> 1 <= r) /\ ((4 <= side)%nat -> increasing l).
Proof. exact default_scales. Qed.
Print Assumptions C184_default_scales_partial.

(** C184 fails for a single row or column of pixels. *)
Theorem C184_single_row_refuted : forall s num, (2 <= num)%nat -> wavelet_scales s 1 num None = (None, Some ValueError).
Proof. exact default_scales_row. Qed.
Print Assumptions C184_single_row_refuted.

(** C185.  The fit uses exactly the scales within the limits given, both included; a
    break between scales and limits is accepted, one outside the limits raises. *)
Theorem C185_fit_limits : forall scales lo hi, scales <> [] -> (forall s, In s scales -> 0 < s) -> (forall l, lo = Some l -> 0 < l) -> (forall h, hi = Some h -> 0 < h) ->
  (exists l, fitted_scales scales lo hi None = Ok l /\ only (fun s => above lo s /\ below hi s) scales l) /\
  (forall b, (exists s, In s scales /\ s <= b) -> (exists s, In s scales /\ b <= s) -> above lo b -> below hi b ->
     fitted_scales scales lo hi (Some b) = fitted_scales scales lo hi None) /\
  (forall b l, lo = Some l -> b < l -> fitted_scales scales lo hi (Some b) = Err ValueError) /\
  (forall b h, hi = Some h -> h < b -> fitted_scales scales lo hi (Some b) = Err ValueError).
Proof. exact fitted_rule. Qed.
Print Assumptions C185_fit_limits.

Example C185_example : only (fun s => above (Some 2) s /\ below None s) [1; 2; 3] [2; 3].
Proof. unfold above, below. apply only_drop; [lra|]. apply only_keep; [lra|]. apply only_keep; [lra|]. constructor. Qed.

(** C186.  A break is kept exactly if enough points are below it. *)
Theorem C186_points_below_partial : forall x b n l, only (fun v => v < b) x l -> (break_kept x b n = true <-> (n <= length l)%nat).
Proof. exact kept_below. Qed.
Print Assumptions C186_points_below_partial.

(** C186 fails: the points above it are not counted. *)
Theorem C186_points_above_refuted : forall n, (2 <= n)%nat ->
  exists x b l, increasing x /\ (exists lo hi, In lo x /\ In hi x /\ lo < b < hi) /\ break_kept x b n = true /\
  only (fun v => b < v) x l /\ (length l < n)%nat.
Proof. exact kept_above. Qed.
Print Assumptions C186_points_above_refuted.

(** C187 fails: whatever [num] is given, Wavelet_Distance compares 50 scales. *)
Theorem C187_num_refuted : forall s1 s2 side1 side2 num, (2 <= side1)%nat -> (2 <= side2)%nat ->
  exists q1 q2, distance_scales s1 s2 side1 side2 None num = Ok (q1, q2) /\ length (q_vals q1) = 50%nat /\ length (q_vals q2) = 50%nat.
Proof. exact num_ignored. Qed.
Print Assumptions C187_num_refuted.
