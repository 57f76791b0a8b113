(** Properties C29, C30, C32, C75 and C86-C89: delta variance. *)
From Coquelicot Require Import Coquelicot.
From Coq Require Import Reals List ZArith Arith.
From Verif Require Import Lib.PyBase Lib.RSum Lib.Fl Spec.Blank Spec.DeltaVar Spec.Components
  Model.DeltaVar Model.ScfDistance Proofs.DeltaVar_Proofs Proofs.DeltaVar2_Proofs Proofs.DeltaVar3_Proofs Proofs.DeltaVar4_Proofs Proofs.ScfDistance_Proofs.
Import ListNotations.
Local Open Scope R_scope.

(** C29.  Whatever the image, the weights and the kernels: value and error are blank
    together or both positive. *)
Theorem C29_stored : forall core annulus data weights wmax frac preserve lag,
  let r := deltavar_lag core annulus data weights wmax frac preserve lag in
  (fst r = NaN /\ snd r = NaN) \/ (positive (fst r) /\ positive (snd r)).
Proof. exact deltavar_lag_stored. Qed.
Print Assumptions C29_stored.

(** C29.  Value and error of a convolved image with non-negative weights, blanks
    anywhere: the weighted second moment about the mean, and the root of the
    (non-negative) variance of the squares over the number of independent kernels. *)
Theorem C29_expression : forall array weight lag, Forall blankable array -> Forall weight_value weight -> 0 < lsum (fins weight) ->
  0 <= weighted_moment 2 array weight /\
  0 <= weighted_moment 4 array weight - weighted_moment 2 array weight ^ 2 /\
  fst (delvar array weight lag) = Fin (weighted_moment 2 array weight) /\
  (let n := IZR (Z.of_nat (length (fins array)) / kern_area lag) in
   0 < n -> snd (delvar array weight lag) = Fin (sqrt (weighted_moment 4 array weight - weighted_moment 2 array weight ^ 2) / sqrt n)).
Proof. exact delvar_expression. Qed.
Print Assumptions C29_expression.

(** C29.  The images and weights that reach the expression are of this kind, and blank in
    the same pixels. *)
Theorem C29_inputs : forall core annulus data weights cutoff, 0 <= cutoff -> length data = length weights ->
  let array := conv_arr core annulus data weights cutoff false in
  let weight := conv_weight core annulus weights cutoff in
  Forall blankable array /\ Forall weight_value weight /\ same_blanks array weight.
Proof. exact conv_inputs. Qed.
Print Assumptions C29_inputs.

(** C29.  Adding a constant to the image changes nothing (default weights). *)
Theorem C29_background : forall core annulus data wmax frac preserve lag b,
  Forall blankable data -> 0 <= frac * wmax ->
  deltavar_lag core annulus (raised b data) (default_weights (raised b data)) wmax frac preserve lag =
  deltavar_lag core annulus data (default_weights data) wmax frac preserve lag.
Proof. exact deltavar_background_default. Qed.
Print Assumptions C29_background.

(** C29.  Scaling the image by c scales value and error by c^2. *)
Theorem C29_scaling : forall core annulus data weights wmax frac preserve lag c,
  length data = length weights -> Forall blankable data -> 0 <= frac * wmax -> c <> 0 ->
  let r := deltavar_lag core annulus data weights wmax frac preserve lag in
  deltavar_lag core annulus (scaled c data) weights wmax frac preserve lag = (fmul (Fin (c ^ 2)) (fst r), fmul (Fin (c ^ 2)) (snd r)).
Proof. exact deltavar_scaled. Qed.
Print Assumptions C29_scaling.

Example C29_nonvacuous : exists r, fst (deltavar_lag ex_core ex_annulus ex_map ex_weights 1 (/ 100) false 1) = Fin r /\ 0 < r.
Proof. exact ex_deltavar_positive. Qed.
Example C29_nonvacuous_default : default_weights ex_map = [0; 1; 1] /\ Forall blankable ex_map /\ 0 <= / 100 * 1.
Proof. exact ex_default_weights. Qed.

(** C86.  Blank pixels given a positive weight by the user: the result should still not
    depend on a constant background; it does. *)
Theorem C86_refuted : exists core annulus data weights b,
  Forall blankable data /\ length data = length weights /\ Forall (fun w => 0 <= w) weights /\
  deltavar_lag core annulus (raised b data) weights 1 (/ 100) false 1 <> deltavar_lag core annulus (raised 0 data) weights 1 (/ 100) false 1.
Proof. exact blank_weights_refuted. Qed.
Print Assumptions C86_refuted.

(** C86.  It holds for weights that are zero on the blanks. *)
Theorem C86_partial : forall core annulus data weights wmax frac preserve lag b,
  length data = length weights -> Forall blankable data -> 0 <= frac * wmax ->
  (forall j, (j < length weights)%nat -> nth j data NaN = NaN -> nth j weights 0 = 0) ->
  deltavar_lag core annulus (raised b data) weights wmax frac preserve lag = deltavar_lag core annulus data weights wmax frac preserve lag.
Proof. exact deltavar_background. Qed.
Print Assumptions C86_partial.
Example C86_nonvacuous : forall j, (j < 3)%nat -> nth j ex_map NaN = NaN -> nth j [0; 2; 1] 0 = 0.
Proof. exact ex_zero_weights. Qed.

(** C30.  The curve distance is the Euclidean distance of the logarithms of the two
    curves, each divided by its sum, over the lags valid in both. *)
Theorem C30_formula : forall lags a b lo hi, curve a -> curve b ->
  curve_distance true a lags (lo, hi) b lags (lo, hi) =
  Ok (Fin (l2_distance (log_share (map fst (common_values lo hi lags a b))) (log_share (map snd (common_values lo hi lags a b))))).
Proof. exact curve_distance_value. Qed.
Print Assumptions C30_formula.

Theorem C30_symmetric : forall lags a b lo hi, curve a -> curve b ->
  curve_distance true a lags (lo, hi) b lags (lo, hi) = curve_distance true b lags (lo, hi) a lags (lo, hi).
Proof. exact curve_distance_sym. Qed.
Print Assumptions C30_symmetric.

Theorem C30_zero : forall lags a b lo hi, curve a -> curve b ->
  (curve_distance true a lags (lo, hi) b lags (lo, hi) = Ok (Fin 0) <->
   exists c, 0 < c /\ map snd (common_values lo hi lags a b) = map (Rmult c) (map fst (common_values lo hi lags a b))).
Proof. exact curve_distance_zero. Qed.
Print Assumptions C30_zero.

Theorem C30_amplitude : forall lags a b lo hi c, 0 < c -> curve a -> curve b ->
  curve_distance true (scaled c a) lags (lo, hi) b lags (lo, hi) = curve_distance true a lags (lo, hi) b lags (lo, hi).
Proof. exact curve_distance_amplitude. Qed.
Print Assumptions C30_amplitude.

Theorem C30_triangle : forall lags a b c lo hi, curve a -> curve b -> curve c -> same_blanks a b -> same_blanks b c ->
  exists dab dbc dac,
  curve_distance true a lags (lo, hi) b lags (lo, hi) = Ok (Fin dab) /\ curve_distance true b lags (lo, hi) c lags (lo, hi) = Ok (Fin dbc) /\
  curve_distance true a lags (lo, hi) c lags (lo, hi) = Ok (Fin dac) /\ dac <= dab + dbc.
Proof. exact curve_triangle. Qed.
Print Assumptions C30_triangle.

(** C30.  Never negative; blank when the fit ranges differ. *)
Theorem C30_nonneg : forall lags a b lo hi, curve a -> curve b ->
  exists d, curve_distance true a lags (lo, hi) b lags (lo, hi) = Ok (Fin d) /\ 0 <= d.
Proof. exact curve_distance_nonneg. Qed.
Print Assumptions C30_nonneg.
Theorem C30_ranges : forall lags1 lags2 a b r1 r2, r1 <> r2 -> curve_distance true a lags1 r1 b lags2 r2 = Ok NaN.
Proof. exact curve_distance_ranges. Qed.
Print Assumptions C30_ranges.

Example C30_nonvacuous :
  curve [Fin 1; NaN; Fin 1] /\ curve [Fin 1; Fin 5; Fin 3] /\
  common_values 1 3 [1; 2; 3] [Fin 1; NaN; Fin 1] [Fin 1; Fin 5; Fin 3] = [(1, 1); (1, 3)] /\
  exists d, curve_distance true [Fin 1; NaN; Fin 1] [1; 2; 3] (1, 3) [Fin 1; Fin 5; Fin 3] [1; 2; 3] (1, 3) = Ok (Fin d) /\ 0 < d.
Proof. exact ex_curves. Qed.

(** C32.  Both kernels integrate to one over the plane (in polar coordinates: discs of
    growing radius). *)
Theorem C32_unit : forall lag ratio, 0 < lag -> 0 < ratio -> ratio <> 1 ->
  is_lim (fun radius => RInt (fun r => 2 * PI * r * core_kernel lag r 0) 0 radius) p_infty 1 /\
  is_lim (fun radius => RInt (fun r => 2 * PI * r * annulus_kernel lag ratio r 0) 0 radius) p_infty 1.
Proof. exact kernels_unit. Qed.
Print Assumptions C32_unit.

Theorem C32_shape : forall lag ratio, 0 < lag -> 0 < ratio -> ratio <> 1 ->
  (forall x y, 0 < core_kernel lag x y /\ 0 <= annulus_kernel lag ratio x y) /\
  annulus_kernel lag ratio 0 0 = 0 /\
  (forall x y x' y', x * x + y * y = x' * x' + y' * y' ->
     core_kernel lag x y = core_kernel lag x' y' /\ annulus_kernel lag ratio x y = annulus_kernel lag ratio x' y').
Proof. exact kernels_shape. Qed.
Print Assumptions C32_shape.
Example C32_nonvacuous : 0 < 10 /\ 0 < 3 / 2 /\ 3 / 2 <> 1.
Proof. exact ex_ratio. Qed.

(** C89.  The annulus model should vanish at its own centre; it does not, the centre
    parameters are ignored. *)
Theorem C89_refuted : exists amplitude xm ym s ratio, 0 < s /\ 1 < ratio /\ annulus_evaluate xm ym amplitude xm ym s ratio <> 0.
Proof. exact annulus_centre_refuted. Qed.
Print Assumptions C89_refuted.
Theorem C89_ignored_partial : forall x y amplitude xm ym s ratio,
  annulus_evaluate x y amplitude xm ym s ratio = annulus_evaluate x y amplitude 0 0 s ratio.
Proof. exact annulus_mean_ignored. Qed.
Print Assumptions C89_ignored_partial.

(** C87.  Maps on the same grid: the default common lags are accepted for both. *)
Theorem C87_same_grid_partial : forall side1 side2, (6 <= side1)%nat -> (6 <= side2)%nat ->
  let l := common_lags side1 side2 1 in fst l = snd l /\ lags_ok side1 (fst l) = true /\ lags_ok side2 (snd l) = true.
Proof. exact common_lags_same_grid. Qed.
Print Assumptions C87_same_grid_partial.
(** C87.  On different grids they can be rejected, and if they are not the curve
    distance with default limits is always blank. *)
Theorem C87_refuted : exists side scale, 0 < scale /\ lags_ok side (fst (common_lags side side scale)) = false.
Proof. exact common_lags_other_grid. Qed.
Print Assumptions C87_refuted.
Theorem C87_blank_refuted : forall side1 side2 scale a b, 0 < scale -> scale <> 1 ->
  let l := common_lags side1 side2 scale in
  curve_distance true a (fst l) (default_range (fst l)) b (snd l) (default_range (snd l)) = Ok NaN.
Proof. exact other_grid_blank. Qed.
Print Assumptions C87_blank_refuted.
Example C87_nonvacuous : (6 <= 64)%nat /\ 0 < 2 /\ 2 <> 1.
Proof. exact ex_grid. Qed.

(** C88.  A computed object should end up with the common lags; it keeps its own. *)
Theorem C88_refuted : forall stored has_slope lags, stored <> lags -> reuse_lags stored has_slope lags = stored.
Proof. exact reuse_lags_kept. Qed.
Print Assumptions C88_refuted.
Theorem C88_partial : forall has_slope lags, reuse_lags lags has_slope lags = lags.
Proof. exact reuse_lags_same. Qed.
Print Assumptions C88_partial.
Example C88_nonvacuous : [3; 4] <> [3; 5].
Proof. exact ex_lags_differ. Qed.

(** C75.  Delta variance: only equal kinds of input work. *)
Theorem C75_deltavar_refuted : forall d1 d2 : dv_input, d1 <> d2 -> is_ok (distance_inputs d1 d2 true) = false.
Proof. exact distance_inputs_mixed. Qed.
Print Assumptions C75_deltavar_refuted.
Theorem C75_deltavar_partial : forall d : dv_input, distance_inputs d d true = Ok tt.
Proof. exact distance_inputs_same. Qed.
Print Assumptions C75_deltavar_partial.
(** C75.  Without common lags nothing works. *)
Theorem C75_no_common_lags_refuted : forall d1 d2 : dv_input, is_ok (distance_inputs d1 d2 false) = false.
Proof. exact distance_inputs_no_common. Qed.
Print Assumptions C75_no_common_lags_refuted.

(** C75.  SCF: an object followed by a cube always fails; a cube followed by an object
    with another number of lags compares surfaces with different lags. *)
Theorem C75_scf_refuted : forall default l, scf_distance_lags default (ScfObject l) Cube = Err AttributeError.
Proof. exact scf_object_cube. Qed.
Print Assumptions C75_scf_refuted.
Theorem C75_scf_lags_refuted : forall default l, length l <> length default -> scf_distance_lags default Cube (ScfObject l) = Ok (default, l).
Proof. exact scf_cube_object_other. Qed.
Print Assumptions C75_scf_lags_refuted.
Theorem C75_scf_cubes_partial : forall default, scf_distance_lags default Cube Cube = Ok (default, default).
Proof. exact scf_cubes. Qed.
Print Assumptions C75_scf_cubes_partial.
Theorem C75_scf_cube_object_partial : forall default l, length l = length default -> scf_distance_lags default Cube (ScfObject l) = Ok (default, default).
Proof. exact scf_cube_object. Qed.
Print Assumptions C75_scf_cube_object_partial.
Theorem C75_scf_objects_partial : forall default l1 l2,
  (l1 = l2 -> scf_distance_lags default (ScfObject l1) (ScfObject l2) = Ok (l1, l1)) /\
  (l1 <> l2 -> is_ok (scf_distance_lags default (ScfObject l1) (ScfObject l2)) = false).
Proof. exact scf_objects. Qed.
Print Assumptions C75_scf_objects_partial.
Example C75_nonvacuous : RawData <> Computed /\ length [1; 2] <> length [1; 2; 3].
Proof. exact ex_kinds. Qed.
