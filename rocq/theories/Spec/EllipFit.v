(** Specification vocabulary for the 2D fit of a power spectrum. *)
From Coq Require Import Reals List.
From Verif Require Import Lib.RSum Lib.Fl.
Import ListNotations.
Local Open Scope R_scope.

(** Sum of the absolute differences between values and a model surface at points. *)
Fixpoint misfit (m : R -> R -> R) (xs ys values : list R) : R :=
  match xs, ys, values with
  | x :: xs, y :: ys, v :: values => Rabs (v - m x y) + misfit m xs ys values
  | _, _, _ => 0
  end.

(** One-sigma errors from a covariance matrix: the square roots of its diagonal. *)
Definition errors_of (cov : list (list R)) (errs : list fl) : Prop :=
  length errs = length cov /\
  forall i, (i < length cov)%nat -> nth i errs NaN = Fin (sqrt (Rabs (nth i (nth i cov []) 0))).

(** The residual bootstrap: a synthetic data set is the fitted model plus the
    residuals in another order. *)
Definition residual_bootstrap (values model sample : list R) (perm : list nat) : Prop :=
  length sample = length values /\
  forall i, (i < length values)%nat ->
    nth i sample 0 = nth i model 0 + (nth (nth i perm 0%nat) values 0 - nth (nth i perm 0%nat) model 0).

(** Squared elliptical radius: the point is rotated by theta and its first
    coordinate scaled by q. *)
Definition form (q theta x y : R) : R := (q * (x * cos theta - y * sin theta)) ^ 2 + (x * sin theta + y * cos theta) ^ 2.

(** The number in (0, 1) with the given log-odds. *)
Definition q_of (t : R) : R := 1 / (1 + exp (- t)).
