(** Model of WidthEstimate2D of turbustat/statistics/pca/width_estimate.py with its four methods.
    The images are finite, all of one shape, with a maximum that is not 0 after the noise
    has been taken away.  No plots. *)
From Coq Require Import String Reals List Bool Arith.
From Verif Require Import Lib.PyBase Lib.Fl Model.StatsUtils Model.Pca Model.PcaFit Model.Ellipse Model.Psds Model.WidthMethods.
Import ListNotations.
Local Open Scope string_scope.
Local Open Scope R_scope.

(** An image and its shape; a pixel with its position on the grid and its value *)
Record image := mk_img { i_n0 : nat; i_n1 : nat; i_val : nat -> nat -> R }.
Definition pixel := (R * R * R)%type.

(** width_estimate.py:79-85: fftfreq(n) * n after fftshift along its axis *)
Definition grid (n : nat) : list R := fftshift (map (lag n) (seq 0 n)).
(** xmat, ymat and an image, ravelled *)
Definition pixels (im : image) : list pixel :=
  flat_map (fun i => map (fun j => (nth i (grid (i_n0 im)) 0, nth j (grid (i_n1 im)) 0, i_val im i j)) (seq 0 (i_n1 im))) (seq 0 (i_n0 im)).
(** np.max *)
Definition amax (l : list R) : R := match l with [] => 0 | h :: t => fold_left Rmax t h end.

(** What LevMarLSQFitter fits: the two standard deviations, the angle and the constant *)
Record gauss2 := mk_g { g_x : R; g_y : R; g_theta : R; g_const : R }.

Section Fit.
(** LevMarLSQFitter for a Gaussian of the given amplitude, centred at 0, plus a constant: the
    parameters, and the variances of the first two, None when there is no covariance matrix *)
Variable fit2 : R -> list pixel -> gauss2 * option (R * R).
(** scipy.interpolate.LSQUnivariateSpline(x, y, t), of degree 3 *)
Variable spline : list R -> list R -> list R -> result (R -> R).
(** get_contour_path: the 1/e contours of the normalised image, with whether they contain the origin *)
Variable contours : list pixel -> list (bool * list point).
(** np.linalg.eig and scipy's leastsq; alpha and the random draws of the bootstrap *)
Variable eig : Mat3.m3 -> list Mat3.v3.
Variable leastsq : ellipse -> point -> R.
Variable alpha : R.
Variable draws : list draw.

(** width_estimate.py:401-422 [fit_2D_gaussian].  The starting values are left to the fitter. *)
Definition fit_2D_gaussian (px : list pixel) : gauss2 * option (R * R) := fit2 (amax (map snd px)) px.

(** width_estimate.py:113-119: radii and values sorted by value (ties in no particular order), the
    knots, and the spline at 1/e *)
Definition knots (zvec : list R) : result (list R) :=
  let n := length zvec in
  let dz := (n / 100)%nat in
  if Nat.eqb dz 0 then Err ValueError
  else Ok (map (fun i => nth i zvec 0) (filter (fun i => Nat.leb dz i && Nat.ltb i (n - dz) && Nat.eqb (i mod dz) 0) (seq 0 n))).
Definition spline_width (radius : R -> R -> R) (px : list pixel) : result R :=
  let top := amax (map snd px) in
  let pts := sorted_knots (map (fun p : pixel => (snd p / top, radius (fst (fst p)) (snd (fst p)))) px) in
  t <- knots (map fst pts) ;;
  spl <- spline (map fst pts) (map snd pts) t ;;
  Ok (spl (exp (-1))).

(** width_estimate.py:86 *)
Definition rmat (x y : R) : R := sqrt (x ^ 2 + y ^ 2).
(** width_estimate.py:137-146 *)
Definition rmat_fit (g : gauss2) (x y : R) : R :=
  let aspect := g_y g / g_x g in
  sqrt ((x * cos (g_theta g) + y * sin (g_theta g)) ^ 2 + (- x * sin (g_theta g) + y * cos (g_theta g)) ^ 2 * aspect ^ 2).

(** width_estimate.py:89-207: the two widths and their errors for one image, noise taken away *)
Definition axis_widths (method : string) (px : list pixel) : result (fl * fl * fl * fl) :=
  let rt2 := sqrt 2 in
  if String.eqb method "fit" then
    let (g, cov) := fit_2D_gaussian px in
    Ok (match cov with
        | Some (vx, vy) => (Fin (g_y g), Fin (g_x g), Fin (sqrt (Rabs vy)), Fin (sqrt (Rabs vx)))
        | None => (Fin (g_y g), Fin (g_x g), NaN, NaN)
        end)
  else if String.eqb method "interpolate" then
    r <- spline_width rmat px ;; Ok (Fin (r / rt2), Fin (r / rt2), Fin 0, Fin 0)
  else if String.eqb method "xinterpolate" then
    r <- spline_width (rmat_fit (fst (fit_2D_gaussian px))) px ;; Ok (Fin (r / rt2), Fin (r / rt2), Fin 0, Fin 0)
  else
    let top := amax (map snd px) in
    match filter fst (contours (map (fun p : pixel => (fst p, snd p / top)) px)) with
    | [] => Ok (NaN, NaN, NaN, NaN)
    | good :: _ => Ok (fit_2D_ellipse eig leastsq (snd good) alpha draws)
    end.

(** width_estimate.py:88-89: z = zraw - noise_ACF *)
Definition minus_noise (noise : nat -> nat -> R) (im : image) : image := mk_img (i_n0 im) (i_n1 im) (fun i j => i_val im i j - noise i j).

(** width_estimate.py:209-271: the beam's contribution (None: no correction) *)
Definition scale_of (term2 : option R) (w : fl * fl * fl * fl) : fl * fl :=
  let '(y, x, y_err, x_err) := w in
  match term2 with
  | Some t => combine_widths (Fin t) y x y_err x_err
  | None =>
      let scale := fsqrt (fadd (fsqr y) (fsqr x)) in
      (scale, fdiv (fsqrt (fadd (fsqr (fmul x x_err)) (fsqr (fmul y y_err)))) scale)
  end.

(** width_estimate.py:209-230: what beam and pixel size, both in degrees, are given *)
Definition beam_term (brunt_beamcorrect : bool) (beam_fwhm spatial_cdelt : option R) : result (option R) :=
  if brunt_beamcorrect then
    match beam_fwhm, spatial_cdelt with Some b, Some c => Ok (Some (brunt_term2 b c)) | _, _ => Err ValueError end
  else Ok None.

Fixpoint all_axis_widths (method : string) (l : list (list pixel)) : result (list (fl * fl * fl * fl)) :=
  match l with [] => Ok [] | px :: l => w <- axis_widths method px ;; ws <- all_axis_widths method l ;; Ok (w :: ws) end.

(** width_estimate.py:69-271 *)
Definition width_2D (method : string) (noise : nat -> nat -> R) (brunt_beamcorrect : bool) (beam_fwhm spatial_cdelt : option R) (images : list image) : result (list (fl * fl)) :=
  if negb (existsb (String.eqb method) ["fit"; "interpolate"; "xinterpolate"; "contour"]) then Err ValueError
  else match images with
       | [] => Err IndexError
       | _ :: _ =>
           ws <- all_axis_widths method (map (fun im => pixels (minus_noise noise im)) images) ;;
           t <- beam_term brunt_beamcorrect beam_fwhm spatial_cdelt ;;
           Ok (map (scale_of t) ws)
       end.
End Fit.
