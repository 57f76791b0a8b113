(** Properties of segmented fits, fit helpers and fit-based distances. *)
From Coq Require Import Reals List Arith Permutation.
From Verif Require Import Lib.PyBase Lib.RSum Lib.Fl Spec.Blank Spec.Covariance Spec.Segmented
  Model.Psds Model.Pca Model.Formats Model.Units Model.Distances Model.FitUtils Model.LmSeg Model.FitState
  Proofs.Cov_Proofs Proofs.LmSeg_Proofs Proofs.Distances_Proofs Proofs.FitUtils_Proofs Proofs.LmSeg2_Proofs Proofs.Tighten_Proofs.
Import ListNotations.
Local Open Scope R_scope.

(** C47.  Whatever the least-squares solver returns, the search is over after
    iter_max + 1 turns. *)
Theorem C47_stops : forall s solver constant iter_max tol h_step epsil_0,
  fit_model s solver constant iter_max tol h_step epsil_0 (S iter_max) <> None /\
  forall fuel, (S iter_max <= fuel)%nat ->
    fit_model s solver constant iter_max tol h_step epsil_0 fuel = fit_model s solver constant iter_max tol h_step epsil_0 (S iter_max).
Proof. exact fit_model_stops. Qed.
Print Assumptions C47_stops.
(** C47.  Each turn halves the step at most five times and leaves a break with points on
    both sides, or stops the search. *)
Theorem C47_halvings : forall s solver constant iter_max c c' stop halvings,
  search_step s solver constant iter_max c = Ok (c', stop, halvings) ->
  (halvings <= 5)%nat /\ (splits (c_brk c') (seg_x s) \/ (stop = true /\ c_fail c' = true)).
Proof. exact (fun s solver constant n c c' stop h H => match step_spec s solver constant n c c' stop h H with
  | conj A (conj _ (conj _ (or_introl (conj _ (conj _ B))))) => conj A (or_introl B)
  | conj A (conj _ (conj _ (or_intror (conj B (conj C _))))) => conj A (or_intror (conj B C)) end). Qed.
Print Assumptions C47_halvings.
(** C47.  The outcome: a break between points with two slopes, or no break (the break is
    put at the last point), one slope. *)
Theorem C47_outcome : forall s solver constant iter_max tol h_step epsil_0 fuel g, well_formed solver -> spread (seg_x s) ->
  fit_model s solver constant iter_max tol h_step epsil_0 fuel = Some (Ok g) ->
  (g_fail g = true /\ is_max (g_brk g) (seg_x s) /\ length (params g) = 3%nat /\ exists s1 e1, get_slopes g = Ok ([s1], [e1])) \/
  (g_fail g = false /\ splits (g_brk g) (seg_x s) /\
   (~ lowest (g_brk g) (seg_x s) -> length (params g) = 5%nat /\
     exists p1 p2 e1 e2, nth_error (params g) 1 = Some p1 /\ nth_error (params g) 2 = Some p2 /\ nth_error (param_errs g) 1 = Some e1 /\ nth_error (param_errs g) 2 = Some e2 /\
     get_slopes g = Ok ([p1; fadd p2 p1], [e1; fsqrt (fadd (fsqr e2) (fsqr e1))]))).
Proof. exact fit_model_outcome. Qed.
Print Assumptions C47_outcome.
Example C47_nonvacuous : well_formed ex_solver2 /\ spread (seg_x ex_seg) /\ exists g, fit_model ex_seg ex_solver2 true 100 (1 / 1000) 2 10 101 = Some (Ok g) /\ g_fail g = false /\ g_brk g = 2 /\
  get_slopes g = Ok ([Fin 1; Fin (1 + 1)], [Fin 1; Fin (sqrt (1 * 1 + 1 * 1))]).
Proof. exact (conj ex_well_formed2 (conj (proj1 ex_spread) ex_fit)). Qed.

(** C48.  Left of the break the model has slope p1, from the break on p1 + p2 (the slopes
    reported, C47_outcome); the right line passes through the left one at t, the given
    point nearest to the break. *)
Theorem C48_slopes : forall p0 p1 p2 brk xs, xs <> [] -> exists t, In t xs /\ (forall w, In w xs -> Rabs (t - brk) <= Rabs (w - brk)) /\
  model p0 p1 p2 brk xs = Ok (map (fun k => if Rltb k brk then p0 + p1 * k else p0 + (p1 + p2) * k - p2 * t) xs).
Proof. exact model_value. Qed.
Print Assumptions C48_slopes.
(** C48.  The lines meet at the break if the break is one of the points. *)
Theorem C48_continuous_partial : forall p0 p1 p2 brk xs, In brk xs -> model p0 p1 p2 brk xs = Ok (map (broken_line p0 p1 (p1 + p2) brk) xs).
Proof. exact model_meets. Qed.
Print Assumptions C48_continuous_partial.
(** C48 fails in general: the lines do not meet at the break. *)
Theorem C48_continuous_refuted : exists p0 p1 p2 brk xs v, model p0 p1 p2 brk xs = Ok v /\ v <> map (broken_line p0 p1 (p1 + p2) brk) xs /\ exists k, In k xs /\ brk <= k.
Proof. exact model_gap. Qed.
Print Assumptions C48_continuous_refuted.
Example C48_nonvacuous : In 2 [1; 2; 3].
Proof. exact (or_intror (or_introl eq_refl)). Qed.

(** C49.  clip_func keeps exactly the values in (low, high]. *)
Theorem C49_clip : forall arr low high, length (clip_func arr low high) = length arr /\
  forall i, (i < length arr)%nat -> (nth i (clip_func arr low high) false = true <-> within low high (nth i arr NaN)).
Proof. exact (fun arr low high => conj (clip_length arr low high) (clip_within arr low high)). Qed.
Print Assumptions C49_clip.
(** C49.  No limits give no limits, one Quantity is used for both data sets, two values one
    for each, another number of values raises ValueError. *)
Theorem C49_limits_partial : forall xlow xhigh, check_fit_limits LNone LNone = Ok ([None; None], [None; None]) /\
  (forall l, length l <> 2%nat -> check_limit (LArrayQ l) = Err ValueError /\ check_limit (LSeq l) = Err ValueError) /\
  (forall a b, check_limit (LArrayQ [a; b]) = Ok [Some a; Some b] /\ check_limit (LSeq [a; b]) = Ok [Some a; Some b]) /\
  (forall a, check_limit (LScalarQ a) = Ok [Some a; Some a]) /\
  (forall lo hi, check_fit_limits xlow xhigh = Ok (lo, hi) -> length lo = 2%nat /\ length hi = 2%nat).
Proof. exact limits_spec. Qed.
Print Assumptions C49_limits_partial.
(** C49 fails for a plain number, which is neither used nor rejected with ValueError. *)
Theorem C49_number_refuted : exists v, check_limit (LNumber v) <> Ok [Some v; Some v] /\ check_limit (LNumber v) <> Err ValueError.
Proof. exact number_limit. Qed.
Print Assumptions C49_number_refuted.
Example C49_nonvacuous : within (Fin 0) PInf (Fin 1) /\ ~ within (Fin 0) PInf NaN.
Proof. exact (conj Rlt_0_1 (fun H => H)). Qed.

(** C50.  Only residuals of the fit are drawn, and any of them but the last. *)
Theorem C50_draws_partial : forall y res, length y = length res ->
  (forall draw r, resample y res draw = Ok r -> length r = length y /\ forall k, (k < length y)%nat -> exists i, (i < length res - 1)%nat /\ nth k r 0 = nth k y 0 + nth i res 0) /\
  (forall k i, (k < length y)%nat -> (i < length res - 1)%nat -> exists draw r, resample y res draw = Ok r /\ nth k r 0 = nth k y 0 + nth i res 0).
Proof. exact (fun y res L => conj (fun draw r E => resample_values y res draw r E L) (fun k i Hk Hi => others_drawn y res k i Hk L Hi)). Qed.
Print Assumptions C50_draws_partial.
(** C50 fails: the last residual is never drawn, whatever the random numbers, so the errors
    do not depend on it. *)
Theorem C50_last_refuted : forall refit y res a b draw nboot npar, length y = S (length res) ->
  residual_bootstrap refit y (res ++ [a]) draw nboot npar = residual_bootstrap refit y (res ++ [b]) draw nboot npar.
Proof. exact bootstrap_last. Qed.
Print Assumptions C50_last_refuted.
(** C50.  One error per parameter, none negative. *)
Theorem C50_errors : forall refit y res draw nboot npar r, residual_bootstrap refit y res draw nboot npar = Ok r -> length r = npar /\ forall v, In v r -> 0 <= v.
Proof. exact bootstrap_nonneg. Qed.
Print Assumptions C50_errors.
(** C50.  Each error is the standard deviation of the refitted parameter over the resampled
    data sets. *)
Theorem C50_spread : forall refit y res draw nboot npar r, residual_bootstrap refit y res draw nboot npar = Ok r ->
  length r = npar /\ exists ys, length ys = nboot /\ (forall k, (k < nboot)%nat -> resample y res (draw k) = Ok (nth k ys [])) /\
  forall p, (p < npar)%nat -> nth p r 0 = sqrt (rvar (map (fun v => nth p (refit v) 0) ys)).
Proof. exact bootstrap_spread. Qed.
Print Assumptions C50_spread.
Example C50_nonvacuous : resample [1; 2; 3] [4; 5; 6] (fun k => k) = Ok [1 + 4; 2 + 5; 3 + 4].
Proof. reflexivity. Qed.

(** C69.  The rows hold the brightest values above the limit, descending, padded with
    zeros to the common length, over the cube's maximum. *)
Theorem C69_rows_partial : forall cube L lim, Forall (Forall blankable) cube ->
  forall m, is_max m (fins (concat cube)) -> m <> 0 ->
  let r := intensity_data cube L lim true in
  length r = length cube /\
  forall dv, (dv < length cube)%nat -> exists s,
    Permutation s (above lim (fins (nth dv cube []))) /\ descending s /\
    nth dv r [] = map (fun v => Fin (v / m)) (firstn L s ++ repeat 0 (L - length s)).
Proof. exact intensity_data_spec. Qed.
Print Assumptions C69_rows_partial.
(** C69 fails: a channel without signal is kept. *)
Theorem C69_dropped_refuted : exists cube dv, Forall (Forall blankable) cube /\ above (Some 1) (fins (nth dv cube [])) = [] /\ (dv < length cube)%nat /\
  length (intensity_data cube 2 (Some 1) true) = length cube.
Proof. exact intensity_keeps. Qed.
Print Assumptions C69_dropped_refuted.
Example C69_nonvacuous : Forall (Forall blankable) [[Fin 1; NaN; Fin 2]] /\ is_max 2 (fins (concat [[Fin 1; NaN; Fin 2]])) /\
  nth 0 (intensity_data [[Fin 1; NaN; Fin 2]] 3 None true) [] = [Fin (2 / 2); Fin (1 / 2); Fin (0 / 2)].
Proof. exact ex_intensity. Qed.

(** C70.  Symmetric, positive semi-definite, and with mean_sub unchanged by constants added
    to the channels. *)
Theorem C70_symmetric : forall eps big cube ms i j, (i < length cube)%nat -> (j < length cube)%nat ->
  at2 0 (var_cov_cube eps big cube ms) i j = at2 0 (var_cov_cube eps big cube ms) j i.
Proof. exact cov_symmetric. Qed.
Print Assumptions C70_symmetric.
Theorem C70_psd : forall eps big cube ms n, channels_of n cube -> enough ms n ->
  forall w, 0 <= rsum (length cube) (fun i => rsum (length cube) (fun j => w i * w j * at2 0 (var_cov_cube eps big (map (map Fin) cube) ms) i j)).
Proof. exact cov_psd. Qed.
Print Assumptions C70_psd.
Theorem C70_constants : forall eps big cube n cs i j, channels_of n cube -> (2 <= n)%nat -> (i < length cube)%nat -> (j < length cube)%nat -> length cs = length cube ->
  at2 0 (var_cov_cube eps big (map (map Fin) (map2 (fun c ch => map (Rplus c) ch) cs cube)) true) i j =
  at2 0 (var_cov_cube eps big (map (map Fin) cube) true) i j.
Proof. exact cov_shift. Qed.
Print Assumptions C70_constants.
Example C70_nonvacuous : channels_of 2 [[1; 2]; [3; 5]] /\ enough true 2 /\ at2 0 (var_cov_cube (1 / 4) 9 (map (map Fin) [[1; 2]; [3; 5]]) true) 0 1 = 1.
Proof. exact ex_cov. Qed.

(** C71.  Slope distances: symmetric and indifferent to swapped errors for any values. *)
Theorem C71_symmetric : forall s1 e1 s2 e2, slope_distance s1 e1 s2 e2 = slope_distance s2 e2 s1 e1 /\ slope_distance s1 e1 s2 e2 = slope_distance s1 e2 s2 e1.
Proof. exact (fun s1 e1 s2 e2 => conj (slope_distance_sym s1 e1 s2 e2) (slope_distance_errs s1 e1 s2 e2)). Qed.
Print Assumptions C71_symmetric.
(** C71.  With an error that is not zero: the difference in units of the combined error,
    non-negative, zero iff the slopes agree. *)
Theorem C71_value_partial : forall s1 e1 s2 e2, e1 <> 0 \/ e2 <> 0 ->
  slope_distance (Fin s1) (Fin e1) (Fin s2) (Fin e2) = Fin (Rabs (s1 - s2) / sqrt (e1 ^ 2 + e2 ^ 2)) /\
  (slope_distance (Fin s1) (Fin e1) (Fin s2) (Fin e2) = Fin 0 <-> s1 = s2).
Proof. exact (fun s1 e1 s2 e2 H => conj (slope_distance_value s1 e1 s2 e2 H) (slope_distance_zero s1 e1 s2 e2 H)). Qed.
Print Assumptions C71_value_partial.
Theorem C71_nonnegative_partial : forall s1 e1 s2 e2, slope_distance s1 e1 s2 e2 = NaN \/ fleb (Fin 0) (slope_distance s1 e1 s2 e2) = true.
Proof. exact slope_distance_nonneg. Qed.
Print Assumptions C71_nonnegative_partial.
(** C71 fails for slopes without errors: the distance of a slope from itself is NaN. *)
Theorem C71_refuted : forall s, slope_distance (Fin s) (Fin 0) (Fin s) (Fin 0) = NaN.
Proof. exact slope_distance_no_errors. Qed.
Print Assumptions C71_refuted.
(** C71.  The same for fits with a break (arrays of slopes), and for the distance of the
    tails of dendrograms and of log-normal widths. *)
Theorem C71_broken : forall f1 f2, slope_distances f1 f2 = slope_distances f2 f1.
Proof. exact slope_distances_sym. Qed.
Print Assumptions C71_broken.
Theorem C71_broken_zero : forall f, (forall p, In p f -> exists s e, p = (Fin s, Fin e) /\ e <> 0) -> slope_distances f f = Ok (map (fun _ => Fin 0) f).
Proof. exact slope_distances_zero. Qed.
Print Assumptions C71_broken_zero.
Theorem C71_tail : forall s1 e1 s2 e2, tail_distance s1 e1 s2 e2 = tail_distance s2 e2 s1 e1 /\ tail_distance s1 e1 s2 e2 = tail_distance s1 e2 s2 e1.
Proof. exact (fun s1 e1 s2 e2 => conj (tail_distance_sym s1 e1 s2 e2) (tail_distance_errs s1 e1 s2 e2)). Qed.
Print Assumptions C71_tail.
Theorem C71_tail_value : forall s1 e1 s2 e2, e1 <> 0 \/ e2 <> 0 -> tail_distance (Fin s1) (Fin e1) (Fin s2) (Fin e2) = Fin (Rabs (s1 - s2) / sqrt (e1 ^ 2 + e2 ^ 2)).
Proof. exact tail_distance_value. Qed.
Print Assumptions C71_tail_value.
Example C71_nonvacuous : slope_distance (Fin 3) (Fin 1) (Fin 3) (Fin 0) = Fin 0.
Proof. exact (proj2 (slope_distance_zero 3 1 3 0 (or_introl R1_neq_R0)) eq_refl). Qed.

(** C91 fails: the value of the segmented model at a point depends on the other points. *)
Theorem C91_refuted : exists p0 p1 p2 brk k xs ys v w, In k xs /\ In k ys /\
  model p0 p1 p2 brk (k :: xs) = Ok v /\ model p0 p1 p2 brk (k :: ys) = Ok w /\ nth 0 v 0 <> nth 0 w 0.
Proof. exact model_not_pointwise. Qed.
Print Assumptions C91_refuted.
(** C91, what holds: it does not if the break is among the points. *)
Theorem C91_break_partial : forall p0 p1 p2 brk xs, In brk xs -> model p0 p1 p2 brk xs = Ok (map (broken_line p0 p1 (p1 + p2) brk) xs).
Proof. exact model_meets. Qed.
Print Assumptions C91_break_partial.

(** C92 fails: without a break the third parameter is the break itself (the highest point),
    and the model bends there. *)
Theorem C92_refuted : exists p0 p1 brk xs v, model p0 p1 brk brk xs = Ok v /\ v <> map (fun k => p0 + p1 * k) xs.
Proof. exact failed_model_outside. Qed.
Print Assumptions C92_refuted.
Theorem C92_inside_partial : forall p0 p1 brk xs, xs <> [] -> (forall k, In k xs -> k <= brk) -> model p0 p1 brk brk xs = Ok (map (fun k => p0 + p1 * k) xs).
Proof. exact failed_model_inside. Qed.
Print Assumptions C92_inside_partial.
Example C92_nonvacuous : [1; 2] <> [] /\ forall k, In k [1; 2] -> k <= 2.
Proof. exact ex_inside. Qed.

(** C93 fails: rescaling y rescales the error of the break. *)
Theorem C93_refuted : exists a b beta gamma brk v22 v32 v33 c e e', psd2 v22 v32 v33 /\ 0 < c /\
  brk_errs [Fin a; Fin b; Fin beta; Fin gamma; Fin brk] (cov4 v22 v32 v33) = Ok (Fin e) /\
  brk_errs [Fin (c * a); Fin (c * b); Fin (c * beta); Fin (c * gamma); Fin brk] (cov4 (c ^ 2 * v22) (c ^ 2 * v32) (c ^ 2 * v33)) = Ok (Fin e') /\ e' <> e.
Proof. exact brk_err_rescale. Qed.
Print Assumptions C93_refuted.
(** C93, what holds: the error is a number for every covariance matrix; for uncorrelated
    parameters it is |beta| times the error of gamma / beta. *)
Theorem C93_number_partial : forall a b beta gamma brk v22 v32 v33, beta <> 0 -> psd2 v22 v32 v33 ->
  brk_errs [Fin a; Fin b; Fin beta; Fin gamma; Fin brk] (cov4 v22 v32 v33) = Ok (Fin (sqrt (v33 + v22 * (gamma / beta * (gamma / beta)) + 2 * v32 * (gamma / beta)))).
Proof. exact brk_err_value. Qed.
Print Assumptions C93_number_partial.
Theorem C93_uncorrelated_partial : forall a b beta gamma brk v22 v33, beta <> 0 -> 0 <= v22 -> 0 <= v33 ->
  brk_errs [Fin a; Fin b; Fin beta; Fin gamma; Fin brk] (cov4 v22 0 v33) = Ok (Fin (Rabs beta * ratio_error beta gamma v22 v33 0)).
Proof. exact brk_err_uncorrelated. Qed.
Print Assumptions C93_uncorrelated_partial.

(** C94.  A start of the break outside the data is rejected, if x has no blanks. *)
Theorem C94_range_partial : forall x y b w s, lm_seg_init (map Fin x) y (Fin b) w = Ok s -> exists u v, In u x /\ In v x /\ u <= b <= v.
Proof. exact init_range. Qed.
Print Assumptions C94_range_partial.
(** C94 fails if x has a blank. *)
Theorem C94_refuted : exists x y brk s, lm_seg_init x y (Fin brk) None = Ok s /\ forall v, In v (fins x) -> v < brk.
Proof. exact init_nan_range. Qed.
Print Assumptions C94_refuted.

(** C95 fails: the weights of blank points are not dropped with the points, so every fit
    with weights and a blank point raises ValueError. *)
Theorem C95_refuted : forall x y b w s solver constant n tol h e0 fuel, lm_seg_init x y (Fin b) (Some w) = Ok s -> length y = length x ->
  (exists i, (i < length x)%nat /\ (is_fin (nth i x NaN) = false \/ is_fin (nth i y NaN) = false)) ->
  fit_model s solver constant n tol h e0 fuel = Some (Err ValueError).
Proof. exact init_weights_blank. Qed.
Print Assumptions C95_refuted.
Example C95_nonvacuous : exists s, lm_seg_init (map Fin [1; 2; 3; 4; 5]) [Fin 1; Fin 2; NaN; Fin 3; Fin 4] (Fin 2) (Some (map Fin [1; 1; 1; 1; 1])) = Ok s.
Proof. exact ex_weights. Qed.

(** C96 fails: a start at the lowest point is accepted by the constructor but always
    raises IndexError (no intercept column is added next to the column of -1). *)
Theorem C96_refuted : forall s solver n tol h e0 fuel, well_formed solver -> seg_x s <> [] -> (match seg_weights s with None => True | Some w => length w = length (seg_y s) end) ->
  0 <= tol < e0 -> lowest (seg_brk s) (seg_x s) -> fit_model s solver true n tol h e0 (S fuel) = Some (Err IndexError).
Proof. exact fit_model_lowest. Qed.
Print Assumptions C96_refuted.
(** C96.  Nothing else goes wrong: an error is IndexError, and the search met the lowest
    point as a break. *)
Theorem C96_only_partial : forall s solver n tol h e0 fuel e, well_formed solver -> spread (seg_x s) ->
  (match seg_weights s with None => True | Some w => length w = length (seg_y s) end) -> 0 <= tol < e0 ->
  fit_model s solver true n tol h e0 fuel = Some (Err e) ->
  e = IndexError /\ exists b, (b = seg_brk s \/ splits b (seg_x s)) /\ lowest b (seg_x s).
Proof. exact fit_model_error. Qed.
Print Assumptions C96_only_partial.
Example C96_nonvacuous : well_formed ex_solver /\ spread [1; 2; 3; 4].
Proof. exact (conj ex_well_formed (proj1 ex_spread)). Qed.

(** C97 fails: the resampled data are data plus residuals, not fit plus residuals. *)
Theorem C97_refuted : exists fit res, length fit = length res /\ (2 <= length res)%nat /\
  forall draw r, resample (map2 Rplus fit res) res draw = Ok r -> exists k, (k < length fit)%nat /\ ~ exists i, (i < length res)%nat /\ nth k r 0 = nth k fit 0 + nth i res 0.
Proof. exact bootstrap_refuted. Qed.
Print Assumptions C97_refuted.
Theorem C97_about_partial : forall fit res draw r, length fit = length res -> resample (map2 Rplus fit res) res draw = Ok r ->
  forall k, (k < length fit)%nat -> exists i, (i < length res - 1)%nat /\ nth k r 0 = nth k fit 0 + nth k res 0 + nth i res 0.
Proof. exact bootstrap_about. Qed.
Print Assumptions C97_about_partial.

(** C98.  After any history of fits: no break and one slope, or a break with its error and
    two slopes. *)
Theorem C98_slopes_partial : forall resets m l, consistent (fit_history resets m unfitted l).
Proof. exact (fun resets m l => history_consistent resets m l unfitted eq_refl). Qed.
Print Assumptions C98_slopes_partial.
(** C98 fails for the error of the break: without a break it is that of an earlier fit, or
    raises AttributeError. *)
Theorem C98_stale_refuted : (exists l, let st := fit_history false 3 unfitted l in t_brk st = Some None /\ exists e, read_brk_err st = Ok (Some e)) /\
  (exists l, let st := fit_history true 3 unfitted l in t_brk st = Some None /\ exists e, read_brk_err st = Ok (Some e)).
Proof. exact (conj stale_error stale_error_pspec). Qed.
Print Assumptions C98_stale_refuted.
Theorem C98_missing_refuted : forall resets m lin boot, read_brk_err (fit_step resets m boot lin unfitted (Some Unbroken)) = Err AttributeError.
Proof. exact missing_error. Qed.
Print Assumptions C98_missing_refuted.
(** C98, what holds of the power spectra: the error is right unless a requested break was
    dropped. *)
Theorem C98_pspec_partial : forall m boot lin st b, match b with None => True | Some (Broken _ _ _ _ _ below) => (m <= below)%nat | _ => False end ->
  exists e, read_brk_err (fit_step true m boot lin st b) = Ok e /\ (e = None <-> t_brk (fit_step true m boot lin st b) = Some None).
Proof. exact pspec_error. Qed.
Print Assumptions C98_pspec_partial.

(** C99 fails: the bootstrap error reported for the second slope is that of the change of
    slope, that for the break is that of the offset term; the analytic error of the second
    slope leaves out a covariance. *)
Theorem C99_slope_refuted : exists fits : list (list R),
  let err p := Fin (rstd (map (fun f => nth p f 0) fits)) in
  forall resets m lin st brk be sl er below, (m <= below)%nat ->
  exists e, t_slope_err (fit_step resets m true lin st (Some (Broken brk be sl er [err 0%nat; err 1%nat; err 2%nat; err 3%nat] below))) = Some [err 1%nat; e] /\
    e <> Fin (rstd (map (fun f => nth 1 f 0 + nth 2 f 0) fits)).
Proof. exact boot_slope_refuted. Qed.
Print Assumptions C99_slope_refuted.
Theorem C99_break_refuted : exists fits : list (list R), let err p := Fin (rstd (map (fun f => nth p f 0) fits)) in
  forall resets m lin st brk be sl er below, (m <= below)%nat ->
  t_brk_err (fit_step resets m true lin st (Some (Broken brk be sl er [err 0%nat; err 1%nat; err 2%nat; err 3%nat] below))) = Some (Some (Fin (ln 10 * exp (brk * ln 10) * 0))) /\
  rstd (map (fun f => brk + nth 3 f 0 / nth 2 f 0) fits) <> 0.
Proof. exact boot_brk_refuted. Qed.
Print Assumptions C99_break_refuted.
Theorem C99_analytic_refuted : exists g v1 v2 c12, 0 <= v1 /\ 0 <= v2 /\ c12 ^ 2 <= v1 * v2 /\
  nth_error (param_errs g) 1 = Some (Fin (sqrt v1)) /\ nth_error (param_errs g) 2 = Some (Fin (sqrt v2)) /\
  exists s e1 e2, get_slopes g = Ok (s, [e1; Fin e2]) /\ e2 <> sqrt (v1 + v2 + 2 * c12).
Proof. exact slope_err_refuted. Qed.
Print Assumptions C99_analytic_refuted.

(** C100 fails: the break of the wavelet transform has unit 1/pix and cannot be given back
    as a break; that of the delta variance can. *)
Theorem C100_refuted : forall s b, to_pixel s (wavelet_brk b) = Err UnitConversionError.
Proof. exact wavelet_unit. Qed.
Print Assumptions C100_refuted.
Theorem C100_deltavar_partial : forall s b, to_pixel s (deltavar_brk b) = Ok (mk_q [b] pix).
Proof. exact deltavar_unit. Qed.
Print Assumptions C100_deltavar_partial.

(** C101.  If the break search of VCS ends, its start is one of the breaks of the spline
    (the default if there is none) and works, or is the only one. *)
Theorem C101_found_partial : forall try knots default b, vcs_breaks try knots default true = Ok b ->
  (In b knots \/ (knots = [] /\ b = default)) /\ (try b = true \/ knots = [b] \/ knots = []).
Proof. exact vcs_found. Qed.
Print Assumptions C101_found_partial.
(** C101 fails: two or more breaks of which none works raise ValueError instead of giving
    a fit without a break; with log_break=False so does any break below 1 (the spline's
    breaks are logarithms already). *)
Theorem C101_refuted : (forall try knots default lb, (2 <= length knots)%nat -> (forall b, In b knots -> try b = false) -> vcs_breaks try knots default lb = Err ValueError) /\
  (forall try knots default, (forall b, In b knots -> b < 0) -> knots <> [] -> vcs_breaks try knots default false = Err ValueError).
Proof. exact (conj vcs_none_fails vcs_log_fails). Qed.
Print Assumptions C101_refuted.
(** C101.  With log_break=False the start is log10 of such a break. *)
Theorem C101_log_partial : forall try knots default b, vcs_breaks try knots default false = Ok b ->
  exists k, 0 < k /\ Rpower 10 b = k /\ (In k knots \/ (knots = [] /\ k = default)) /\ (try k = true \/ knots = [k] \/ knots = []).
Proof. exact vcs_found_log. Qed.
Print Assumptions C101_log_partial.
Example C101_nonvacuous : vcs_breaks (fun b => Rltb b 0) [-1] 9 true = Ok (-1).
Proof. exact (match Rltb (-1) 0 as b return (b0 <- match (if b then Some (-1) else None) with Some b => Ok b | None => Ok (-1) end ;; Ok b0) = Ok (-1) with true => eq_refl | false => eq_refl end). Qed.

(** C102.  The VCS distance is symmetric; with one unbroken fit only the large-scale slopes
    count. *)
Theorem C102_symmetric : forall f1 f2, vcs_distance f1 f2 = vcs_distance f2 f1.
Proof. exact vcs_distance_sym. Qed.
Print Assumptions C102_symmetric.
Theorem C102_single_partial : forall p t1 q t2, t1 = [] \/ t2 = [] -> slope_distance (fst p) (snd p) (fst q) (snd q) <> NaN ->
  vcs_distance (p :: t1) (q :: t2) = Ok (slope_distance (fst p) (snd p) (fst q) (snd q)).
Proof. exact vcs_single. Qed.
Print Assumptions C102_single_partial.
(** C102 fails: it is zero for different slopes when an error is NaN. *)
Theorem C102_refuted : exists f1 f2, vcs_distance f1 f2 = Ok (Fin 0) /\ (exists s1 s2, f1 = [s1] /\ f2 = [s2] /\ fst s1 <> fst s2).
Proof. exact vcs_zero_refuted. Qed.
Print Assumptions C102_refuted.

(** C103.  On a common grid the genus distance is symmetric and zero for equal curves. *)
Theorem C103_common_partial : forall interp t1 g1 n1 t2 g2 n2, genus_distance interp 1 t1 g1 n1 t2 g2 n2 = genus_distance interp 1 t2 g2 n2 t1 g1 n1 /\
  genus_distance interp 1 t1 g1 n1 t1 g1 n1 = 0.
Proof. exact (fun interp t1 g1 n1 t2 g2 n2 => conj (genus_sym interp t1 g1 n1 t2 g2 n2) (genus_same interp t1 g1 n1)). Qed.
Print Assumptions C103_common_partial.
(** C103.  The two curves per area are compared at equally spaced points of the range of
    thresholds they share, twice as many as the mean number of thresholds. *)
Theorem C103_value_partial : forall interp scale t1 g1 n1 t2 g2 n2 a1 b1 a2 b2, is_min a1 t1 -> is_max b1 t1 -> is_min a2 t2 -> is_max b2 t2 ->
  let n := (2 * ((length t1 + length t2) / 2))%nat in let lo := Rmax a1 a2 in let hi := Rmin b1 b2 in
  (genus_distance interp scale t1 g1 n1 t2 g2 n2) ^ 2 =
  rsum n (fun k => let p := lo + INR k * ((hi - lo) / INR (n - 1)) in
    (interp t1 (map (fun g => g / (INR n1 / scale)) g1) p - interp t2 (map (fun g => g / INR n2) g2) p) ^ 2).
Proof. exact genus_value. Qed.
Print Assumptions C103_value_partial.
(** C103 fails for pixels of different size: not symmetric, and not zero for the same curve
    of the same sky area. *)
Theorem C103_symmetric_refuted : exists interp scale t1 g1 n1 t2 g2 n2, 0 < scale /\
  genus_distance interp scale t1 g1 n1 t2 g2 n2 <> genus_distance interp (/ scale) t2 g2 n2 t1 g1 n1.
Proof. exact genus_asym. Qed.
Print Assumptions C103_symmetric_refuted.
Theorem C103_area_refuted : exists interp scale t g n1 n2, 0 < scale /\ INR n1 = INR n2 * scale ^ 2 /\ genus_distance interp scale t g n1 t g n2 <> 0.
Proof. exact genus_sky. Qed.
Print Assumptions C103_area_refuted.

(** C104.  The bispectrum distances are symmetric, zero iff the bicoherences agree, and the
    surface distance is NaN for different shapes. *)
Theorem C104_symmetric : forall sh1 sh2 b1 b2, bispec_distance sh1 sh2 b1 b2 = bispec_distance sh2 sh1 b2 b1.
Proof. exact bispec_sym. Qed.
Print Assumptions C104_symmetric.
Theorem C104_value : forall sh b1 b2, b1 <> [] -> b2 <> [] -> length b1 = length b2 ->
  bispec_distance sh sh (map Fin b1) (map Fin b2) =
  (Fin (sqrt (lsum (map2 (fun a b => (a - b) ^ 2) b1 b2))), Fin (Rabs (lsum b1 / INR (length b1) - lsum b2 / INR (length b2)))).
Proof. exact bispec_value. Qed.
Print Assumptions C104_value.
Theorem C104_zero : forall sh b1 b2, b1 <> [] -> length b1 = length b2 -> (bispec_distance sh sh (map Fin b1) (map Fin b2) = (Fin 0, Fin 0) <-> b1 = b2).
Proof. exact bispec_zero. Qed.
Print Assumptions C104_zero.
Theorem C104_shape : forall sh1 sh2 b1 b2, sh1 <> sh2 -> fst (bispec_distance sh1 sh2 b1 b2) = NaN.
Proof. exact bispec_shape. Qed.
Print Assumptions C104_shape.
Example C104_nonvacuous : [1; 2] <> [] /\ length [1; 2] = length [3; 4].
Proof. exact (conj (proj1 ex_inside) eq_refl). Qed.

(** C105.  The log-likelihood of bayes_linear is that of the line y = tan(theta) x + b with
    errors in both variables, for angles in [0, pi/2); outside [0, pi/2] it is -inf. *)
Theorem C105_likelihood : forall theta b pts, 0 <= theta < PI / 2 -> (forall x y ex ey, In (x, y, (ex, ey)) pts -> 0 < ex /\ 0 < ey) ->
  logprob theta b pts = Some (- (1 / 2) * line_chi2 theta b pts - 1 / 2 * lsum (map (fun p => ln ((cos theta) ^ 2 * (snd (snd p) ^ 2 + (tan theta) ^ 2 * fst (snd p) ^ 2))) pts)).
Proof. exact logprob_value. Qed.
Print Assumptions C105_likelihood.
Theorem C105_prior : forall theta b pts, theta < 0 \/ PI / 2 < theta -> logprob theta b pts = None.
Proof. exact logprob_outside. Qed.
Print Assumptions C105_prior.

(** C233.  A turn of the search moves the break by step * gamma / beta, with the step halved
    only as often as it takes to have points on both sides of the new break; after five
    halvings without success the break stays and the search has failed.  The halved step is
    kept for the next turn. *)
Theorem C233_step : forall s solver constant n c c' stop h st beta gamma,
  search_step s solver constant n c = Ok (c', stop, h) -> c_step c = Fin st ->
  (forall f, c_fit c' = Some f -> nth_error (f_params f) 2 = Some (Fin beta) /\ nth_error (f_params f) 3 = Some (Fin gamma)) -> beta <> 0 ->
  let to := moved_break (c_brk c) st beta gamma in
  c_step c' = Fin (st / 2 ^ h) /\ (forall j, (j < h)%nat -> ~ splits (to j) (seg_x s)) /\
  (splits (to h) (seg_x s) /\ c_brk c' = to h /\ c_fail c' = c_fail c \/
   h = 5%nat /\ ~ splits (to h) (seg_x s) /\ c_brk c' = c_brk c /\ c_fail c' = true).
Proof. exact step_moves. Qed.
Print Assumptions C233_step.
Example C233_nonvacuous : exists c' stop, search_step ex_seg ex_solver4 true 100 (mk_search 2 (Fin 2) (Fin 10) (Fin 1) false 0 None) = Ok (c', stop, 4%nat) /\
  c_fit c' = Some (ex_solver4 []) /\ c_brk c' = 3.
Proof. exact ex_halved. Qed.

(** C234.  A break is kept only if the last broken fit has a smaller residual sum of squares
    than the straight line; it is dropped only if it has not, or if no move of it (by the
    step, halved up to five times) left points on both sides. *)
Theorem C234_kept : forall s solver n tol h e0 fuel g, 0 <= tol < e0 -> fit_model s solver true n tol h e0 fuel = Some (Ok g) ->
  exists b, (b = seg_brk s \/ splits b (seg_x s)) /\
  let line := solver (add_constant [seg_x s]) in let broken := solver (add_constant (columns (seg_x s) b)) in
  (g_fail g = false -> forall v w, rss line = Fin v -> rss broken = Fin w -> w < v) /\
  (g_fail g = true -> forall v w, rss line = Fin v -> rss broken = Fin w ->
     v <= w \/ exists k, forall beta gamma, nth_error (f_params broken) 2 = Some (Fin beta) -> nth_error (f_params broken) 3 = Some (Fin gamma) -> beta <> 0 ->
       forall j, (j <= 5)%nat -> ~ splits (moved_break b (h / 2 ^ k) beta gamma j) (seg_x s)).
Proof. exact kept_iff. Qed.
Print Assumptions C234_kept.
Example C234_nonvacuous : exists g, fit_model ex_seg ex_solver2 true 100 (1 / 1000) 2 10 101 = Some (Ok g) /\ g_fail g = false.
Proof. destruct ex_fit as (g&E&F&_). exists g. split; [exact E|exact F]. Qed.
