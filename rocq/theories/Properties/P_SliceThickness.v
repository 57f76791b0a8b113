(** Properties C65 and C188-C193: changing the slice thickness of a cube. *)
From Coq Require Import Reals List ZArith Arith Bool String Lia Lra.
From Coq Require Import List.
From Verif Require Import Lib.PyBase Lib.Fl Lib.RSum Spec.Blank Spec.Spectral Model.Psds Model.SliceThickness Proofs.Psds2_Proofs Proofs.SliceThickness_Proofs.
Import ListNotations.
Local Open Scope R_scope.

(** C65, regridding: below the width of the channels the call raises, at that width it
    returns the cube, above it the number of channels is divided and rounded down.  [C188] the
    smoothing kernel and the old channels add up in quadrature to the new width. *)
Theorem C65_regrid : forall c a b l w ratio f h, spectral_axis c = a :: b :: l -> a <> b -> 0 < axis_unit c -> (forall v s, w = WSpec v s -> 0 < s) ->
  ratio_is c (b - a) w ratio ->
  let r := snd (spectral_regrid_cube (Some c) w "regrid" f h) in
  (ratio < 1 -> r = Err ValueError) /\ (ratio = 1 -> r = Ok SameCube) /\
  (1 < ratio -> exists g x, r = Ok (Regridded g x) /\ rounded_down (INR (List.length (spectral_axis c)) / ratio) (Z.of_nat (List.length x))).
Proof.
  intros c a b l w ratio f h E D U W R r. destruct (regrid_rule (mk_cube (spectral_axis c) (axis_unit c) h) a b l w ratio E D U W R) as (A&B&C).
  split; [exact A|]. split; [exact B|]. intros H. destruct (C H) as (g&x&X&Y&_). exists g, x. split; [exact X|exact Y].
Qed.
Print Assumptions C65_regrid.

(** C65: unknown methods raise ValueError, other objects than cubes TypeError. *)
Theorem C65_bad_calls : forall c w f h m, m <> "regrid"%string -> m <> "downsample"%string ->
  spectral_regrid_cube (Some c) w m f h = (Some c, Err ValueError) /\ spectral_regrid_cube None w m f h = (None, Err TypeError).
Proof. exact bad_calls. Qed.
Print Assumptions C65_bad_calls.

(** C65, downsampling: the number of channels averaged is the width rounded up. *)
Theorem C65_downsample_partial : forall c a b l f h, spectral_axis c = a :: b :: l -> a <> b ->
  let r w := snd (spectral_regrid_cube (Some c) w "downsample" f h) in
  (forall n, r (WInt n) = Ok (Downsampled n NanMean)) /\
  (forall v k, rounded_up v k -> r (WPix v) = Ok (Downsampled k NanMean)) /\
  (forall v k, rounded_up (v / Rabs (b - a)) k -> r (WSpec v (axis_unit c)) = Ok (Downsampled k NanMean)).
Proof. intros c a b l f h E D. exact (downsample_rule (mk_cube (spectral_axis c) (axis_unit c) h) a b l f E D). Qed.
Print Assumptions C65_downsample_partial.

(** C65 fails: a width below that of the channels does not raise when downsampling,
    the cube comes back as it is. *)
Theorem C65_small_width_refuted : forall c a b l f h v, spectral_axis c = a :: b :: l -> 0 < v < Rabs (b - a) ->
  let r w := snd (spectral_regrid_cube (Some c) w "downsample" f h) in
  r (WSpec v (axis_unit c)) = Ok (Downsampled 1 NanMean) /\ (forall p, 0 < p < 1 -> r (WPix p) = Ok (Downsampled 1 NanMean)) /\
  forall spectrum, (forall s, In s spectrum -> blankable s) -> downsample_axis 1 NanMean spectrum = spectrum.
Proof.
  intros c a b l f h v E V r. destruct (small_width (mk_cube (spectral_axis c) (axis_unit c) h) a b l f v E V) as [A B].
  split; [exact A|]. split; [exact B|exact downsample_same].
Qed.
Print Assumptions C65_small_width_refuted.

(** C65 fails: the requested function is not used (here the sum of two channels). *)
Theorem C65_function_refuted : exists f spectrum, forall c h,
  snd (spectral_regrid_cube (Some c) (WInt 2) "downsample" f h) = Ok (Downsampled 2 NanMean) /\
  downsample_axis 2 f spectrum = [Fin 3] /\ downsample_axis 2 NanMean spectrum = [Fin (3 / 2)].
Proof.
  exists (Custom fsum), [Fin 1; Fin 2]. intros c h. split; [reflexivity|]. split.
  - unfold downsample_axis, fsum. cbn. do 2 f_equal. ring.
  - unfold downsample_axis. cbn [map List.length blocks firstn skipn]. change [Fin 1; Fin 2] with (map Fin [1; 2]). rewrite nanmean_Fin by discriminate.
    do 2 f_equal. unfold rmean. cbn. field.
Qed.
Print Assumptions C65_function_refuted.

(** A cube of five channels of 100 m/s, three times that width in km/s. *)
Example C65_example : ratio_is (mk_cube (channels 0 100 5) 1 false) (0 + 100 - 0) (WSpec (3 / 10) 1000) 3 /\ rounded_down (INR 5 / 3) 1 /\ rounded_up (5 / 2) 3.
Proof. cbn. rewrite !Rabs_pos_eq by lra. repeat split; try field; unfold rounded_down, rounded_up; lra. Qed.

(** C188.  Smoothing: kernel and channel width add up in quadrature to the new width. *)
Theorem C188_smoothing_width : forall c a b l w ratio, spectral_axis c = a :: b :: l -> a <> b -> 0 < axis_unit c -> (forall v s, w = WSpec v s -> 0 < s) ->
  ratio_is c (b - a) w ratio -> 1 < ratio ->
  exists g x, regrid c w = Ok (Regridded g x) /\ fwhm (g * Rabs (b - a)) ^ 2 + (b - a) ^ 2 = (ratio * (b - a)) ^ 2.
Proof. intros c a b l w ratio E D U W R H. destruct (regrid_rule c a b l w ratio E D U W R) as (_&_&C). destruct (C H) as (g&x&X&_&Y). eauto. Qed.
Print Assumptions C188_smoothing_width.

(** C189.  The new spectral axis: same ends, same direction, uniform, wider than
    requested; if at least two channels remain. *)
Theorem C189_new_axis_partial : forall first step n unit_ h w ratio k, (2 <= n)%nat -> step <> 0 -> 0 < unit_ -> (forall v s, w = WSpec v s -> 0 < s) ->
  let c := mk_cube (channels first step n) unit_ h in
  ratio_is c step w ratio -> 1 < ratio -> (2 <= k)%nat -> rounded_down (INR n / ratio) (Z.of_nat k) ->
  exists g step', regrid c w = Ok (Regridded g (channels first step' k)) /\ first + INR (k - 1) * step' = first + INR (n - 1) * step /\
    0 < step' * step /\ ratio * Rabs step < Rabs step'.
Proof. exact new_axis. Qed.
Print Assumptions C189_new_axis_partial.

(** C189 fails for widths above half of the cube: one channel at the low end, or none. *)
Theorem C189_wide_channels_refuted : forall first step n unit_ h w ratio, (2 <= n)%nat -> step <> 0 -> 0 < unit_ -> (forall v s, w = WSpec v s -> 0 < s) ->
  let c := mk_cube (channels first step n) unit_ h in
  ratio_is c step w ratio -> 1 < ratio ->
  (INR n / 2 < ratio <= INR n -> exists g, regrid c w = Ok (Regridded g [Rmin first (first + INR (n - 1) * step)])) /\
  (INR n < ratio -> exists g, regrid c w = Ok (Regridded g [])).
Proof. exact few_channels. Qed.
Print Assumptions C189_wide_channels_refuted.

Example C189_example : ratio_is (mk_cube (channels 50 (-2) 10) 1 false) (-2) (WPix 3) 3 /\ rounded_down (INR 10 / 3) (Z.of_nat 3).
Proof. cbn. rewrite Rabs_pos_eq by lra. split; [reflexivity|]. unfold rounded_down. lra. Qed.

(** C190, regridding: only the size of the width matters, not its unit. *)
Theorem C190_regrid_units_partial : forall c v s v' s', v * s = v' * s' -> regrid c (WSpec v s) = regrid c (WSpec v' s').
Proof. exact regrid_units. Qed.
Print Assumptions C190_regrid_units_partial.

(** C190 fails when downsampling: for channels of 100 m/s, 300 m/s averages three channels,
    0.3 km/s leaves the cube as it is. *)
Theorem C190_downsample_units_refuted : forall f, let c := mk_cube (channels 0 100 5) 1 false in
  300 * 1 = 3 / 10 * 1000 /\ downsample c (WSpec 300 1) f = Ok (Downsampled 3 NanMean) /\ downsample c (WSpec (3 / 10) 1000) f = Ok (Downsampled 1 NanMean).
Proof. exact downsample_units. Qed.
Print Assumptions C190_downsample_units_refuted.

(** C191 fails: the flag of the caller's cube is overwritten, also if the call raises. *)
Theorem C191_flag_refuted : exists c c' w f, huge c = true /\ huge c' = false /\ spectral_regrid_cube (Some c) w "regrid" f false = (Some c', Err TypeError).
Proof. exists (mk_cube [0; 1] 1 true), (mk_cube [0; 1] 1 false), (WInt 2), NanMean. repeat split. Qed.
Print Assumptions C191_flag_refuted.
(** C191: nothing else of it changes. *)
Theorem C191_rest_partial : forall c w m f h, m = "regrid"%string \/ m = "downsample"%string ->
  fst (spectral_regrid_cube (Some c) w m f h) = Some (mk_cube (spectral_axis c) (axis_unit c) h).
Proof. exact flag_after. Qed.
Print Assumptions C191_rest_partial.

(** C192.  Downsampling a spectrum without blanks by a factor dividing its length: block
    means, and the integrated intensity is kept. *)
Theorem C192_flux_partial : forall factor m, (1 <= factor)%nat -> forall l : list R, List.length l = (m * factor)%nat ->
  exists l', downsample_axis factor NanMean (map Fin l) = map Fin l' /\ List.length l' = m /\ INR factor * lsum l' = lsum l /\
  forall k, (k < m)%nat -> nth k l' 0 = rmean (firstn factor (skipn (k * factor) l)).
Proof. exact downsample_flux. Qed.
Print Assumptions C192_flux_partial.

(** C192 fails if the factor does not divide the number of channels. *)
Theorem C192_flux_refuted : downsample_axis 2 NanMean (map Fin [1; 1; 1]) = map Fin [1; 1] /\ INR 2 * lsum [1; 1] <> lsum [1; 1; 1].
Proof. exact partial_block. Qed.
Print Assumptions C192_flux_refuted.

(** C193.  VCA with one slice over the whole cube is the power spectrum of the mean image. *)
Theorem C193_thick_slice : forall nz ny nx (cube : nat -> nat -> nat -> R) i j, (1 <= nz)%nat -> (i < ny)%nat -> (j < nx)%nat ->
  let image y x := rsum nz (fun z => cube z y x) / INR nz in
  (forall y x, downsample_axis nz NanMean (map (fun z => Fin (cube z y x)) (seq 0 nz)) = [Fin (image y x)]) /\
  at2 0 (vca_ps2D 1 ny nx (fun _ => image)) i j = at2 0 (power_ps2D ny nx image) i j.
Proof. exact thick_slice. Qed.
Print Assumptions C193_thick_slice.
