(** Model of turbustat/statistics/elliptical_powerlaw.py and of the 2D fit of
    base_pspec2.py [fit_2Dpspec].  The Levenberg-Marquardt solver and the
    random permutations are arguments. *)
From Coq Require Import Reals List Bool ZArith Arith.
From Verif Require Import Lib.PyBase Lib.RSum Lib.Fl.
Import ListNotations.
Local Open Scope R_scope.

Definition log10 (x : R) : R := ln x / ln 10.

(** np.log10: -inf at 0, NaN below *)
Definition flog10 (x : fl) : fl :=
  match x with
  | Fin a => if Rltb 0 a then Fin (log10 a) else if Rltb a 0 then NaN else NInf
  | PInf => PInf
  | NInf => NaN
  | NaN => NaN
  end.

(** np.exp *)
Definition fexp (x : fl) : fl :=
  match x with Fin a => Fin (exp a) | PInf => PInf | NInf => Fin 0 | NaN => NaN end.

(** elliptical_powerlaw.py:241 *)
Definition ellip_of (ellip_transf : fl) : fl := fdiv (Fin 1) (fadd (Fin 1) (fexp (fneg ellip_transf))).

(** elliptical_powerlaw.py:238-259 [LogEllipticalPowerLaw2D.evaluate] at one
    point; the last assignment sets every non-finite entry to 0. *)
Definition evaluate (x y logamplitude : R) (ellip_transf : fl) (theta gamma : R) : fl :=
  let q := ellip_of ellip_transf in
  let costhet := Fin (cos theta) in
  let sinthet := Fin (sin theta) in
  let term1 := fadd (fsqr (fmul q costhet)) (fsqr sinthet) in
  let term2 := fmul (fmul (fmul (Fin 2) (fsub (Fin 1) (fsqr q))) sinthet) costhet in
  let term3 := fadd (fsqr (fmul q sinthet)) (fsqr costhet) in
  let model := fadd (Fin logamplitude) (fmul (fmul (Fin (1 / 2)) (Fin gamma))
    (flog10 (fadd (fadd (fmul (fsqr (Fin x)) term1) (fmul (fmul (Fin x) (Fin y)) term2)) (fmul (fsqr (Fin y)) term3)))) in
  if is_fin model then model else Fin 0.

(** elliptical_powerlaw.py:302-304, for x strictly between a and b *)
Definition interval_transform (x a b : R) : R := ln (x - a) - ln (b - x).
(** elliptical_powerlaw.py:307-309 *)
Definition inverse_interval_transform (x_trans a b : R) : R := (b - a) / (1 + exp (- x_trans)) + a.
(** elliptical_powerlaw.py:312-317 *)
Definition interval_transform_stderr (dx x a b : R) : R := Rabs (1 / (x - a) + 1 / (b - x)) * dx.
(** elliptical_powerlaw.py:320-327 *)
Definition inverse_interval_transform_stderr (dx_trans x_trans a b : R) : R :=
  let deriv := (b - a) * exp (- x_trans) / (1 + exp (- x_trans)) ^ 2 in
  Rabs deriv * dx_trans.

(** ** The fit *)

(** (logamplitude, ellip_transf, theta, gamma) *)
Record params := mkParams { p_amp : R; p_ell : fl; p_theta : R; p_gamma : R }.

(** The model at the fitted points *)
Definition eval_at (p : params) (xs ys : list R) : list fl :=
  map2 (fun x y => evaluate x y (p_amp p) (p_ell p) (p_theta p) (p_gamma p)) xs ys.

(** What one call of the fitter produces: the fitted parameters, and the
    covariance of the free parameters (None when the solver failed to get it).
    [fixed] tells whether the ellipticity and angle are fixed. *)
Definition solver := forall (p0 : params) (fixed : bool) (values : list R) (weights : option (list R)),
  params * option (list (list R)).

(** elliptical_powerlaw.py:107, 120: np.sum(np.abs(values - fit_model(x, y))) *)
Definition resids (p : params) (xs ys values : list R) : fl :=
  fsum (map2 (fun v m => fabs (fsub (Fin v) m)) values (eval_at p xs ys)).

(** numpy's [%] on reals *)
Definition rmod (a b : R) : R := a - b * IZR (Int_part (a / b)).

(** np.sqrt(np.abs(np.diag(cov_matrix))) *)
Definition diag_errs (cov : list (list R)) : list fl :=
  map (fun i => Fin (sqrt (Rabs (nth i (nth i cov []) 0)))) (seq 0 (length cov)).

(** 100 q percentile of a sample: numpy's linear interpolation between the
    sorted values; [sorted] is the sample in increasing order. *)
Definition percentile (sorted : list R) (q : R) : R :=
  let pos := q / 100 * (INR (length sorted) - 1) in
  let i := Z.to_nat (Int_part pos) in
  let g := pos - INR i in
  let a := nth i sorted 0 in
  let b := nth (Nat.min (S i) (length sorted - 1)) sorted 0 in
  a + g * (b - a).

Fixpoint insert_r (x : R) (l : list R) : list R :=
  match l with [] => [x] | y :: r => if Rleb x y then x :: l else y :: insert_r x r end.
Definition sort_r (l : list R) : list R := fold_right insert_r [] l.

(** [a[perm]] *)
Definition permute (l : list R) (perm : list nat) : list R := map (fun i => nth i l 0) perm.

(** elliptical_powerlaw.py:139: one resampled data set; [perm] is the random
    permutation, [model] the fitted model at the points *)
Definition resample (values model : list R) (perm : list nat) : list R :=
  let resid := map2 Rminus values model in
  map2 Rplus values (permute resid perm).

(** The finite model values; the model of [evaluate] is always finite. *)
Definition real_of (x : fl) : R := match x with Fin r => r | _ => 0 end.

(** elliptical_powerlaw.py:11-192 [fit_elliptical_powerlaw] (warnings and the
    debug plots left out).  [values] may contain non-finite entries, which are
    refused.  A fitter is represented by the covariance in its [fit_info]:
    None before it has been called.  Both fits are made by the first fitter
    (103, 117), and [fitter_f] (116) is never called. *)
Record fit_result := mkFit { r_params : params; r_stderrs : list fl; r_fitter_cov : option (list (list R)) }.

Definition fit_elliptical_powerlaw (solve : solver) (perms : list (list nat)) (fvalues : list fl) (xs ys : list R)
  (p0 : params) (levmarq bootstrap : bool) (alpha : R) (radial_weighting fix_ellip_params : bool) : result fit_result :=
  if negb (forallb is_fin fvalues) then Err ValueError
  else if negb levmarq then Err ValueError
  else
    let values := fins fvalues in
    let weights := if radial_weighting then Some (map2 (fun x y => 1 / sqrt (x ^ 2 + y ^ 2)) xs ys) else None in
    let p0 := if fix_ellip_params then mkParams (p_amp p0) PInf (p_theta p0) (p_gamma p0) else p0 in
    let '(fit_model, cov1) := solve p0 fix_ellip_params values weights in
    let fitter := cov1 in
    let r1 := resids fit_model xs ys values in
    let '(fit_model, fitter) :=
      if negb fix_ellip_params then
        let p0_f := mkParams (p_amp p0) (p_ell p0) (rmod (p_theta p0 + PI / 2) PI) (p_gamma p0) in
        let fitter_f := None in
        let '(fit_model_f, cov2) := solve p0_f false values weights in
        let fitter := cov2 in
        let r2 := resids fit_model_f xs ys values in
        if fltb r2 r1 then (fit_model_f, fitter_f) else (fit_model, fitter)
      else (fit_model, fitter) in
    let stderrs :=
      if bootstrap then
        let model := map real_of (eval_at fit_model xs ys) in
        let boots := map (fun perm => fst (solve fit_model fix_ellip_params (resample values model perm) None)) perms in
        let err (get : params -> R) :=
          let s := sort_r (map get boots) in
          Fin (1 / 2 * (percentile s (100 * (1 / 2 + alpha / 2)) - percentile s (100 * (1 / 2 - alpha / 2)))) in
        (* np.percentile of values with an infinity interpolates inf - inf *)
        let err_ell := if forallb (fun p => is_fin (p_ell p)) boots then err (fun p => real_of (p_ell p)) else NaN in
        [err p_amp; err_ell; err p_theta; err p_gamma]
      else match fitter with
           | None => [NaN; NaN; NaN; NaN]
           | Some cov => diag_errs cov
           end in
    Ok (mkFit fit_model stderrs fitter).

(** base_pspec2.py:469-478: what [fit_2Dpspec] stores from the fit: the slope,
    theta, ellipticity and their errors.  [stderrs[k]] of a shorter array is an
    IndexError. *)
Record fit2D := mkFit2D { slope2D : R; slope2D_err : fl; theta2D : R; theta2D_err : fl; ellip2D : fl; ellip2D_err : fl }.

(** elliptical_powerlaw.py:320-327 with a = 0, b = 1 on floats *)
Definition inv_stderr_fl (dx xt : fl) : fl :=
  let e := fexp (fneg xt) in
  fmul (fabs (fdiv (fmul (Fin 1) e) (fsqr (fadd (Fin 1) e)))) dx.

Definition store_2D (r : fit_result) : result fit2D :=
  match nth_error (r_stderrs r) 3, nth_error (r_stderrs r) 2, nth_error (r_stderrs r) 1 with
  | Some e3, Some e2, Some e1 =>
      Ok (mkFit2D (p_gamma (r_params r)) e3 (rmod (p_theta (r_params r)) PI) e2
                  (ellip_of (p_ell (r_params r))) (inv_stderr_fl e1 (p_ell (r_params r))))
  | _, _, _ => Err IndexError
  end.
