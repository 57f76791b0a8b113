(** Model of the ellipse fit: turbustat/statistics/stats_utils.py [EllipseModel] and its use
    in pca/width_estimate.py. *)
From Coq Require Import Reals List Bool Arith.
From Verif Require Import Lib.PyBase Lib.RSum Lib.Fl Lib.Mat3 Model.EllipPlaw Model.Pca Model.PcaFit.
Import ListNotations.
Local Open Scope R_scope.

Definition point := (R * R)%type.

(** stats_utils.py:252-255, rows of the design matrix *)
Definition quad_row (p : point) : v3 := let (x, y) := p in V (x ^ 2) (x * y) (y ^ 2).
Definition lin_row (p : point) : v3 := let (x, y) := p in V x y 1.
(** np.dot(A.T, B) for design matrices with these rows *)
Definition gram (f g : point -> v3) (data : list point) : m3 :=
  let s (h k : v3 -> R) := lsum (map (fun p => h (f p) * k (g p)) data) in
  M (V (s e1 e1) (s e1 e2) (s e1 e3)) (V (s e2 e1) (s e2 e2) (s e2 e3)) (V (s e3 e1) (s e3 e2) (s e3 e3)).

(** stats_utils.py:257-263 *)
Definition S1 (data : list point) : m3 := gram quad_row quad_row data.
Definition S2 (data : list point) : m3 := gram quad_row lin_row data.
Definition S3 (data : list point) : m3 := gram lin_row lin_row data.
Definition C1 : m3 := M (V 0 0 2) (V 0 (-1) 0) (V 2 0 0).

(** stats_utils.py:265-270; None: a singular matrix *)
Definition reduced (data : list point) : option m3 :=
  if Reqb (det (S3 data)) 0 then None
  else Some (mm (inv3 C1) (msub (S1 data) (mm (mm (S2 data) (inv3 (S3 data))) (tr (S2 data))))).

(** xc, yc, a, b, theta *)
Record ellipse := mk_ell { l_x : R; l_y : R; l_a : R; l_b : R; l_theta : R }.

(** stats_utils.py:276-277 *)
Definition cond (v : v3) : R := 4 * (e1 v * e3 v) - e2 v ^ 2.

(** stats_utils.py:291-314, for b^2 <> 4ac.  np.arctan of the quotient of a and c equal is
    that of an infinity (NaN for 0/0). *)
Definition farctan (x : fl) : fl := match x with Fin r => Fin (atan r) | PInf => Fin (PI / 2) | NInf => Fin (- (PI / 2)) | NaN => NaN end.
Definition conic_params (a b c d f g : R) : ellipse :=
  let b := b / 2 in
  let d := d / 2 in
  let f := f / 2 in
  let x0 := (c * d - b * f) / (b ^ 2 - a * c) in
  let y0 := (a * f - b * d) / (b ^ 2 - a * c) in
  let numerator := a * f ^ 2 + c * d ^ 2 + g * b ^ 2 - 2 * b * d * f - a * c * g in
  let term := sqrt ((a - c) ^ 2 + 4 * b ^ 2) in
  let denominator1 := (b ^ 2 - a * c) * (term - (a + c)) in
  let denominator2 := (b ^ 2 - a * c) * (- term - (a + c)) in
  let width := fsqrt (Fin (2 * numerator / denominator1)) in
  let height := fsqrt (Fin (2 * numerator / denominator2)) in
  let phi := fmul (Fin (1 / 2)) (farctan (fdiv (Fin (2 * b)) (Fin (a - c)))) in
  let phi := if Rltb c a then fadd phi (Fin (1 / 2 * PI)) else phi in
  mk_ell x0 y0 (nan_to_num width) (nan_to_num height) (nan_to_num phi).

(** stats_utils.py:228-316 [estimate]; [eig m] are the columns of the eigenvectors returned
    by np.linalg.eig, all real.  None: False is returned and params is left unset. *)
Definition estimate (eig : m3 -> list v3) (data : list point) : option ellipse :=
  match reduced data with
  | None => None
  | Some m =>
      match filter (fun v => Rltb 0 (cond v)) (eig m) with
      | [a1] =>
          let a2 := mv (mm (mscale (-1) (inv3 (S3 data))) (tr (S2 data))) a1 in
          Some (conic_params (e1 a1) (e2 a1) (e3 a1) (e1 a2) (e2 a2) (e3 a2))
      | _ => None
      end
  end.

(** stats_utils.py:378-406 [predict_xy] at one angle *)
Definition predict (l : ellipse) (t : R) : point :=
  (l_x l + l_a l * cos (l_theta l) * cos t - l_b l * sin (l_theta l) * sin t,
   l_y l + l_a l * sin (l_theta l) * cos t + l_b l * cos (l_theta l) * sin t).

(** stats_utils.py:345-350, 374; [t] is what scipy's leastsq returns for this point *)
Definition resid_fun (l : ellipse) (t : R) (p : point) : R :=
  let q := predict l t in (fst p - fst q) ^ 2 + (snd p - snd q) ^ 2.
Definition residual (l : ellipse) (t : R) (p : point) : R := sqrt (resid_fun l t p).

(** ** Bootstrap *)

(** Random draws of one iteration: the permutation, the weights and the signs of each point *)
Record draw := mk_draw { d_perm : list nat; d_weights : list (R * R); d_signs : list (R * R) }.

(** stats_utils.py:444-460: the resampled points *)
Definition resample (resid : list R) (data : list point) (d : draw) : list point :=
  map2 (fun p (s : point) => (fst p + fst s, snd p + snd s)) data
    (map2 (fun r ws => (r * fst (fst ws) * fst (snd ws), r * snd (fst ws) * snd (snd ws)))
       (map (fun i => nth i resid 0) (d_perm d)) (map2 pair (d_weights d) (d_signs d))).

(** stats_utils.py:408-487 [estimate_stderrs]: the errors of the five parameters.  [leastsq]
    gives the angle for a point.  For niters >= 1.  A column of a fit that failed is None, which numpy stores
    as NaN, and percentiles of NaN are NaN. *)
Definition estimate_stderrs (eig : m3 -> list v3) (leastsq : ellipse -> point -> R) (params : option ellipse) (data : list point)
    (alpha : R) (draws : list draw) : result (list fl) :=
  match params with
  | None => Err ValueError
  | Some l =>
      if Rltb alpha 0 || Rleb 1 alpha then Err ValueError
      else
        let resid := map (fun p => residual l (leastsq l p) p) data in
        let fits := map (fun d => estimate eig (resample resid data d)) draws in
        let err (get : ellipse -> R) :=
          if forallb (fun o => match o with Some _ => true | None => false end) fits then
            let v := sort_r (map (fun o => match o with Some l => get l | None => 0 end) fits) in
            Fin (1 / 2 * (percentile v (100 * (1 / 2 + alpha / 2)) - percentile v (100 * (1 / 2 - alpha / 2))))
          else NaN in
        Ok [err l_x; err l_y; err l_a; err l_b; err l_theta]
  end.

(** width_estimate.py:380-399 [fit_2D_ellipse]: ywidth, xwidth and their errors *)
Definition fit_2D_ellipse (eig : m3 -> list v3) leastsq (pts : list point) (alpha : R) (draws : list draw) : fl * fl * fl * fl :=
  let ellip := estimate eig pts in
  match estimate_stderrs eig leastsq ellip pts alpha draws, ellip with
  | Ok errs, Some l =>
      let rt2 := Fin (sqrt 2) in
      (fdiv (Fin (l_b l)) rt2, fdiv (Fin (l_a l)) rt2, fdiv (nth 3 errs NaN) rt2, fdiv (nth 2 errs NaN) rt2)
  | _, _ => (NaN, NaN, NaN, NaN)
  end.

(** width_estimate.py:163-193, 209-271: width and error of one image with method='contour'
    and the beam's contribution [term2] (0: no correction).  [paths]: the 1/e contours, with
    whether they contain the origin. *)
Definition contour_width (eig : m3 -> list v3) leastsq (paths : list (bool * list point)) (alpha : R) (draws : list draw) (term2 : R) : fl * fl :=
  match filter fst paths with
  | [] => combine_widths (Fin term2) NaN NaN NaN NaN
  | good :: _ =>
      let '(y, x, y_err, x_err) := fit_2D_ellipse eig leastsq (snd good) alpha draws in
      combine_widths (Fin term2) y x y_err x_err
  end.
