(** Specification vocabulary: the spectrum of the SCF surface. *)
From Coq Require Import Reals List Arith Bool.
From Verif Require Import Lib.PyBase Lib.Arr Lib.Fl Spec.Bins Model.Psds Model.ScfSpectrum.
Import ListNotations.
Local Open Scope R_scope.

(** Lags in steps of [d] around zero. *)
Definition uniform_lags (d : R) (n : nat) : list R := tab1 n (fun i => d * (INR i - INR (n / 2))).

(** The length of the lag that entry [j, i] of the surface belongs to. *)
Definition lag_length (lags : list R) (j i : nat) : R := sqrt (nth i lags 0 ^ 2 + nth j lags 0 ^ 2).

(** A square array. *)
Definition square_array {A} (n : nat) (s : list (list A)) : Prop := length s = n /\ forall r, In r s -> length r = n.

(** A line through points with weights: the weighted sum of squared residuals. *)
Definition wsse (rows : list (R * R * R)) (a b : R) : R :=
  fold_right Rplus 0 (map (fun r => let '(x, y, w) := r in w * (y - a - b * x) ^ 2) rows).
Definition best_line (rows : list (R * R * R)) (a b : R) : Prop := forall a' b', wsse rows a b <= wsse rows a' b'.
Definition as_row (r : R * R * R) : fl * fl * fl := let '(x, y, w) := r in (Fin x, Fin y, Fin w).
(** A least-squares solver: for numbers with positive weights it returns the best line. *)
Definition least_squares (wls : list (fl * fl * fl) -> fl * fl) : Prop :=
  forall rows a b, (forall x y w, In (x, y, w) rows -> 0 < w) -> wls (map as_row rows) = (Fin a, Fin b) -> best_line rows a b.
Definition answers (wls : list (fl * fl * fl) -> fl * fl) : Prop :=
  forall rows, exists a b, wls (map as_row rows) = (Fin a, Fin b).

(** Bins of a spectrum, as (lag, value, uncertainty). *)
Definition spectrum_bins (lags : list R) (spec sd : list fl) : list (R * fl * fl) := combine (combine lags spec) sd.
(** The bins hold a power law [A l^s] wherever they hold anything. *)
Definition on_power_law (A s : R) (b : R * fl * fl) : Prop :=
  let '(l, v, e) := b in v = NaN \/ e = NaN \/ (v = Fin (A * Rpower l s) /\ exists g, e = Fin g /\ g <> 0).
Definition measured (b : R * fl * fl) : Prop := let '(l, v, e) := b in is_fin v = true /\ is_fin e = true.

(** The elliptical model in polar coordinates about its major axis: the squared radius of
    the contour through the point at radius [r] and angle [phi] from the axis. *)
Definition ellipse_radius2 (q r phi : R) : R := r ^ 2 * (q ^ 2 * cos phi ^ 2 + sin phi ^ 2).

(** Limits of the fit: absent or positive; the lags they admit. *)
Definition above (xlow : limit) (l : R) : Prop := match xlow with Limit r => r <= l | _ => True end.
Definition below (xhigh : limit) (l : R) : Prop := match xhigh with Limit r => l <= r | _ => True end.
Definition good_limit (x : limit) : Prop := match x with NoLimit => True | Limit r => 0 < r | NotQuantity => False end.

(** Two objects made from the same cube and lags; the results of the 1D analysis; outcomes agree up to [R]. *)
Definition same_data (o1 o2 : scf_obj) : Prop :=
  s_nz o1 = s_nz o2 /\ s_ny o1 = s_ny o2 /\ s_nx o1 = s_nx o2 /\ s_cube o1 = s_cube o2 /\ s_roll_lags o1 = s_roll_lags o2.
Definition same_1D (o1 o2 : scf_obj) : Prop :=
  s_surface o1 = s_surface o2 /\ s_lags o1 = s_lags o2 /\ s_spectrum o1 = s_spectrum o2 /\ s_stddev o1 = s_stddev o2 /\ s_fit o1 = s_fit o2.
Definition same_outcome (R : scf_obj -> scf_obj -> Prop) (r1 r2 : result scf_obj) : Prop :=
  match r1, r2 with Ok a, Ok b => R a b | Err e1, Err e2 => e1 = e2 | _, _ => False end.
