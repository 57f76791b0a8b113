(** Specification vocabulary for directions in the plane. *)
From Coq Require Import Reals ZArith.
From Verif Require Import Lib.Trig2.
Local Open Scope R_scope.

(** The angle [phi] is strictly closer than [half] to [theta], modulo [period]. *)
Definition angle_within (period theta half phi : R) : Prop :=
  exists k : Z, Rabs (phi - theta - period * IZR k) < half.
