(** Specification vocabulary for segmented fits. *)
From Coq Require Import Reals List.
From Verif Require Import Lib.RSum Lib.Fl Model.LmSeg Model.FitState.
Import ListNotations.
Local Open Scope R_scope.

(** A least-squares solver: whatever it finds, it returns as many parameters and errors as
    there are columns, and a square matrix of covariances. *)
Definition well_formed (solver : list (list R) -> fit_result) : Prop := forall cols,
  length (f_params (solver cols)) = length cols /\ length (f_bse (solver cols)) = length cols /\
  length (f_cov (solver cols)) = length cols /\ forall r, In r (f_cov (solver cols)) -> length r = length cols.

(** Not all points are the same. *)
Definition spread (x : list R) : Prop := exists u v, In u x /\ In v x /\ u < v.
(** The break has points on both sides (points on it count as left). *)
Definition splits (b : R) (x : list R) : Prop := (exists u, In u x /\ u <= b) /\ (exists v, In v x /\ b < v).
(** The lowest point. *)
Definition lowest (b : R) (x : list R) : Prop := forall v, In v x -> b <= v.

(** The two straight lines of a broken line with intercept p0, slopes s1 and s2, meeting at
    the break. *)
Definition broken_line (p0 s1 s2 brk k : R) : R := if Rltb k brk then p0 + s1 * k else p0 + s1 * brk + s2 * (k - brk).

(** Standard error of gamma / beta by the delta method. *)
Definition ratio_error (beta gamma var_beta var_gamma cov : R) : R :=
  sqrt (var_gamma + var_beta * (gamma / beta) ^ 2 - 2 * cov * (gamma / beta)) / Rabs beta.

(** A value lies in (low, high] (comparisons with NaN are false). *)
Definition within (low high v : fl) : Prop :=
  match low, v, high with
  | NaN, _, _ | _, NaN, _ | _, _, NaN => False
  | Fin a, Fin v, Fin b => a < v <= b
  | Fin a, Fin v, PInf => a < v
  | NInf, Fin v, Fin b => v <= b
  | NInf, Fin _, PInf => True
  | NInf, PInf, PInf | Fin _, PInf, PInf => True
  | _, _, _ => False
  end.

(** Perpendicular errors-in-variables chi squared of the line y = tan(theta) x + b: each
    residual over its variance sigma_y^2 + tan(theta)^2 sigma_x^2. *)
Definition line_chi2 (theta b : R) (pts : list (R * R * (R * R))) : R :=
  lsum (map (fun p => let '(x, y, (ex, ey)) := p in (y - (tan theta * x + b)) ^ 2 / (ey ^ 2 + (tan theta) ^ 2 * ex ^ 2)) pts).

(** Break, its error and the slopes of an object fit together. *)
Definition consistent (st : fit_state) : Prop :=
  match t_brk st with
  | None => t_slope st = None
  | Some None => exists s, t_slope st = Some [s]
  | Some (Some _) => exists s1 s2 e, t_slope st = Some [s1; s2] /\ t_brk_err st = Some (Some e)
  end.

(** Covariances of four parameters of which only those of the last two matter. *)
Definition cov4 (v22 v32 v33 : R) : list (list fl) :=
  let z := Fin 0 in [[z; z; z; z]; [z; z; z; z]; [z; z; Fin v22; Fin v32]; [z; z; Fin v32; Fin v33]].
Definition psd2 (v22 v32 v33 : R) : Prop := forall a b, 0 <= a * a * v22 + 2 * a * b * v32 + b * b * v33.

(** Where a break at b goes with the step [step] halved j times, for the fitted parameters
    beta (change of slope) and gamma (offset). *)
Definition moved_break (b step beta gamma : R) (j : nat) : R := b + step / 2 ^ j * gamma / beta.
(** Residual sum of squares of a fit. *)
Definition rss (f : fit_result) : fl := fsum (map fsqr (f_resid f)).
