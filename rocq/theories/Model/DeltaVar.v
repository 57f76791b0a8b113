(** Model of turbustat/statistics/delta_variance/delta_variance.py and kernels.py. *)
From Coq Require Import Reals List ZArith Arith Bool.
From Verif Require Import Lib.PyBase Lib.RSum Lib.Fl Lib.Arr Model.StatsUtils Model.Scf.
Import ListNotations.
Local Open Scope R_scope.

(** ** Delta variance of one convolved array *)

(** delta_variance.py:970: np.ceil(0.5 * np.pi * np.log(2) * lag**2) *)
Definition kern_area (lag : R) : Z := np_ceil (1 / 2 * PI * ln 2 * (lag * lag)).

(** delta_variance.py:956-975 [_delvar]: array and weight flattened *)
Definition delvar (array weight : list fl) (lag : R) : fl * fl :=
  let m := nanmean array in
  let arr_cent := map (fun v => fsub v m) array in
  let val := fdiv (nansum (map2 (fun a w => fmul (fsqr a) w) arr_cent weight)) (nansum weight) in
  let nindep := sqrt (IZR (Z.of_nat (length (filter is_fin arr_cent)) / kern_area lag)) in
  let val_err := fdiv (fsqrt (fsub (fdiv (nansum (map2 (fun a w => fmul (fsqr (fsqr a)) w) arr_cent weight)) (nansum weight)) (fsqr val)))
                      (Fin nindep) in
  (val, val_err).

(** delta_variance.py:252-258: what is stored for a lag *)
Definition store_delvar (ve : fl * fl) : fl * fl :=
  let '(val, err) := ve in
  if fleb val (Fin 0) || fleb err (Fin 0) || is_nan val || is_nan err then (NaN, NaN) else (val, err).

(** delta_variance.py:66-68: default weights *)
Definition default_weights (data : list fl) : list R := map (fun v => if is_fin v then 1 else 0) data.

(** astropy's convolve_fft with nan_treatment='fill', fill_value=0: blanks count as
    zero, and every output pixel is a weighted sum of the input pixels.  [kernel i j]
    is the weight of input pixel j in output pixel i (periodic or zero-padded
    alike); the kernel array itself is not computed here. *)
Definition fill0 (v : fl) : R := match v with Fin r => r | _ => 0 end.
Definition convolve (kernel : nat -> nat -> R) (arr : list fl) : list R :=
  tab1 (length arr) (fun i => rsum (length arr) (fun j => kernel i j * fill0 (nth j arr NaN))).

(** delta_variance.py:236-237 *)
Definition mask_low (cutoff : R) (w : R) : fl := if Rleb w cutoff then NaN else Fin w.

(** delta_variance.py:189-258, one lag: [data] and [weights] are the (padded) image
    and weights, flattened; [wmax] is weights.max(). *)
Definition conv_arr (core annulus : nat -> nat -> R) (data : list fl) (weights : list R) (cutoff_val : R)
    (preserve_nan : bool) : list fl :=
  let pad_img := map2 (fun d w => fmul d (Fin w)) data weights in
  let weights_core := map (mask_low cutoff_val) (convolve core (map Fin weights)) in
  let weights_annulus := map (mask_low cutoff_val) (convolve annulus (map Fin weights)) in
  let c := map2 (fun v w => fdiv (Fin v) w) (convolve core pad_img) weights_core in
  let a := map2 (fun v w => fdiv (Fin v) w) (convolve annulus pad_img) weights_annulus in
  let conv := map2 fsub c a in
  if preserve_nan then map2 (fun p v => if is_nan p then NaN else v) pad_img conv else conv.
Definition conv_weight (core annulus : nat -> nat -> R) (weights : list R) (cutoff_val : R) : list fl :=
  let weights_core := map (mask_low cutoff_val) (convolve core (map Fin weights)) in
  let weights_annulus := map (mask_low cutoff_val) (convolve annulus (map Fin weights)) in
  map2 fmul weights_core weights_annulus.
Definition deltavar_lag (core annulus : nat -> nat -> R) (data : list fl) (weights : list R) (wmax min_weight_frac : R)
    (preserve_nan : bool) (lag : R) : fl * fl :=
  let cutoff_val := min_weight_frac * wmax in
  store_delvar (delvar (conv_arr core annulus data weights cutoff_val preserve_nan)
                       (conv_weight core annulus weights cutoff_val) lag).

(** ** Distance *)

(** delta_variance.py:867-912: the two curves with their lags and fit ranges (pixels).
    numpy raises IndexError/ValueError when the masks do not fit (here ValueError). *)
Definition blank_or_neg (v : fl) : bool := is_nan v || fleb v (Fin 0).
Fixpoint select {A} (l : list A) (mask : list bool) : list A :=
  match l, mask with x :: r, b :: m => if b then x :: select r m else select r m | _, _ => [] end.
Definition flog10 (v : fl) : fl :=
  match v with
  | Fin r => if Rltb 0 r then Fin (ln r / ln 10) else if Rltb r 0 then NaN else NInf
  | PInf => PInf | NInf => NaN | NaN => NaN
  end.
Definition normed_curve (delta_var : list fl) (valids : list bool) : list fl :=
  let v := select delta_var valids in
  map (fun x => flog10 (fdiv x (fsum v))) v.
Definition curve_distance (common_lags : bool) (dv1 : list fl) (lags1 : list R) (range1 : R * R)
    (dv2 : list fl) (lags2 : list R) (range2 : R * R) : result fl :=
  if common_lags then
    if Reqb (fst range1) (fst range2) && Reqb (snd range1) (snd range2) then
      let all_nans := map2 orb (map blank_or_neg dv1) (map blank_or_neg dv2) in
      let cuts (lags : list R) (range : R * R) := map (fun l => Rleb (fst range) l && Rleb l (snd range)) lags in
      let valids lags range := map2 (fun c n => c && negb n) (cuts lags range) all_nans in
      let n1 := normed_curve dv1 (valids lags1 range1) in
      let n2 := normed_curve dv2 (valids lags2 range2) in
      if Nat.eqb (length n1) (length n2)
      then Ok (fsqrt (fsum (map2 (fun a b => fsqr (fsub a b)) n1 n2)))
      else Err ValueError
    else Ok NaN
  else Ok NaN.

(** ** Lags *)

(** delta_variance.py:99-119 [lags] setter: values in pixels, [side] the smaller side *)
Definition lags_ok (side : nat) (pix_lags : list R) : bool :=
  negb (existsb (fun l => Rltb l 1) pix_lags) &&
  negb (existsb (fun l => Rltb (/ 10 ^ 10) (IZR (Int_part l) - INR side / 2)) pix_lags).

(** np.logspace(np.log10(a), np.log10(b), n) *)
Definition logspace (a b : R) (n : nat) : list R :=
  tab1 n (fun k => exp (ln a + INR k * ((ln b - ln a) / INR (n - 1)))).

(** delta_variance.py:731-779: the common lags of the two data sets; [scale] is the
    ratio of the pixel sizes (second over first) *)
Definition common_lags (side1 side2 : nat) (scale : R) : list R * list R :=
  let lags := logspace 3 (INR (if Nat.ltb side2 side1 then side2 else side1) / 2) 25 in
  if Reqb scale 1 then (lags, lags)
  else if Rltb 1 scale then (map (fun l => scale * l) lags, lags)
  else (lags, map (fun l => l / scale) lags).

(** ** Kernels *)

(** kernels.py:145-152 [GaussianAnnulus2D.evaluate] *)
Definition annulus_evaluate (x y amplitude x_mean y_mean stddev ratio : R) : R :=
  let inner := exp (- (x * x + y * y) / (2 * (stddev * stddev))) in
  let outer := exp (- (x * x + y * y) / (2 * ((ratio * stddev) * (ratio * stddev)))) in
  amplitude * (outer - inner).
(** kernels.py:69-74 [AnnulusKernel], before discretisation *)
Definition annulus_model (stddev ratio x y : R) : R :=
  annulus_evaluate x y (1 / (2 * PI * (stddev * stddev) * (ratio * ratio - 1))) 0 0 stddev ratio.
(** kernels.py:34 and astropy's Gaussian2DKernel, before discretisation *)
Definition core_model (stddev x y : R) : R :=
  1 / (2 * PI * (stddev * stddev)) * exp (- (x * x + y * y) / (2 * (stddev * stddev))).
(** kernels.py:34, 54-56 *)
Definition core_kernel (lag x y : R) : R := core_model (lag / (2 * sqrt 2)) x y.
Definition annulus_kernel (lag diam_ratio x y : R) : R := annulus_model (lag / (2 * sqrt 2)) diam_ratio x y.

(** ** Which data set is what *)

(** delta_variance.py:716-770, 778-780: kinds of arguments.  A statistic object passed
    to input_data raises TypeError; the second isinstance test is on dataset1 again,
    so raw data after a statistic object are taken as one (AttributeError when their
    shape or WCS is asked for); without common lags the local name lags2 is read
    before it is assigned. *)
Inductive dv_input := RawData | Computed.
Definition distance_inputs (dataset1 dataset2 : dv_input) (use_common_lags : bool) : result unit :=
  match dataset1, dataset2 with
  | RawData, Computed => Err TypeError
  | Computed, RawData => if use_common_lags then Err AttributeError else Err UnboundLocalError
  | _, _ => if use_common_lags then Ok tt else Err UnboundLocalError
  end.

(** delta_variance.py:794-806 for a statistic object: [run] recomputes with the lags the
    object has and fits a slope.  The lags of the object afterwards. *)
Fixpoint lags_eqb (a b : list R) : bool :=
  match a, b with [], [] => true | x :: r, y :: s => Reqb x y && lags_eqb r s | _, _ => false end.
Definition reuse_lags (stored : list R) (has_slope : bool) (lags1 : list R) : list R :=
  let has_slope := if lags_eqb stored lags1 then has_slope else true in
  if has_slope then stored else lags1.

(** delta_variance.py:327, 336-338 [fit_plaw]: with no limits
    given, the fit range is [0.99 * lags.min(), 1.01 * lags.max()] *)
Definition rmin_list (l : list R) : R := match l with [] => 0 | x :: r => fold_right Rmin x r end.
Definition rmax_list (l : list R) : R := match l with [] => 0 | x :: r => fold_right Rmax x r end.
Definition default_range (lags : list R) : R * R := (99 / 100 * rmin_list lags, 101 / 100 * rmax_list lags).
