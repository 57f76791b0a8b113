(** Specification vocabulary for pixel grids. *)
From Coq Require Import Reals.
From Verif Require Import Model.StatsUtils.
Local Open Scope R_scope.

(** An undistorted grid whose two pixel scales agree within [tol]. *)
Definition square (tol : R) (g : grid) : Prop :=
  distorted g = false /\ Rabs (Rabs (scale0 g) - Rabs (scale1 g)) <= tol.
