(** Specification vocabulary for cubes with blank voxels. *)
From Coq Require Import List Arith.
From Verif Require Import Lib.Fl.
Import ListNotations.

(** Some voxel of the cube is blank. *)
Definition has_blank (nz ny nx : nat) (cube : nat -> nat -> nat -> fl) : Prop :=
  exists z y x, (z < nz)%nat /\ (y < ny)%nat /\ (x < nx)%nat /\ is_nan (cube z y x) = true.

(** Lines of sight with at least one value. *)
Definition live_line (nz : nat) (cube : nat -> nat -> nat -> fl) (y x : nat) : bool :=
  existsb (fun z => negb (is_nan (cube z y x))) (seq 0 nz).
