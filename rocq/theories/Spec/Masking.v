(** Specification vocabulary for masks of cubes. *)
From Coq Require Import Arith.

(** A voxel of a cube of nz channels, ny rows and nx columns *)
Definition voxel : Type := (nat * nat * nat)%type.
Definition in_cube (nz ny nx : nat) (p : voxel) : Prop := let '(z, y, x) := p in z < nz /\ y < ny /\ x < nx.
(** No coordinate of p and q differs by more than d. *)
Definition within (d : nat) (p q : voxel) : Prop :=
  let '(z, y, x) := p in let '(z', y', x') := q in
  (z <= z' + d /\ z' <= z + d) /\ (y <= y' + d /\ y' <= y + d) /\ (x <= x' + d /\ x' <= x + d).
Definition at_voxel {A} (cube : nat -> nat -> nat -> A) (p : voxel) : A := let '(z, y, x) := p in cube z y x.
