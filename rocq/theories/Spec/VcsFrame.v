(** Vocabulary for the velocity coordinate spectrum of cubes with blank surroundings (C318). *)
From Coq Require Import Reals List Arith.
From Verif Require Import Lib.PyBase Lib.Fl Spec.MomentsFrame.
Import ListNotations.
Local Open Scope R_scope.

(** The cube inside a larger field: every spectrum outside is blank. *)
Definition in_field (n0 n1 o0 o1 : nat) (cube : nat -> nat -> nat -> fl) : nat -> nat -> nat -> fl := fun z => placed n0 n1 o0 o1 (cube z).

(** Every spectrum of the cube has emission somewhere. *)
Definition emission (nz n0 n1 : nat) (cube : nat -> nat -> nat -> fl) : Prop :=
  forall y x, (y < n0)%nat -> (x < n1)%nat -> exists z v, (z < nz)%nat /\ cube z y x = Fin v /\ 0 < v.

(** How much larger the field is *)
Definition larger (n0 n1 N0 N1 : nat) : R := INR (N0 * N1) / INR (n0 * n1).
