(** Renumbered channels and rearranged pixels. *)
From Coq Require Import Reals List Arith Permutation.
From Verif Require Import Lib.RSum Lib.Fl.
Import ListNotations.
Local Open Scope R_scope.

(** p takes 0, ..., n-1 to themselves, in another order *)
Definition reorders (p : nat -> nat) (n : nat) : Prop := Permutation (map p (seq 0 n)) (seq 0 n).
(** q takes the positions of an image to themselves *)
Definition rearranges (q : nat * nat -> nat * nat) (ny nx : nat) : Prop :=
  let positions := list_prod (seq 0 ny) (seq 0 nx) in Permutation (map q positions) positions.
(** The channels of a cube in another order; the spectra of a cube at other positions *)
Definition channels {A} (p : nat -> nat) (cube : nat -> nat -> nat -> A) (z y x : nat) : A := cube (p z) y x.
Definition spectra {A} (q : nat * nat -> nat * nat) (cube : nat -> nat -> nat -> A) (z y x : nat) : A := cube z (fst (q (y, x))) (snd (q (y, x))).
(** The same of lists *)
Definition in_order {A} (p : nat -> nat) (d : A) (l : list A) : list A := map (fun i => nth (p i) l d) (seq 0 (length l)).
(** v is an eigenvector of the matrix of side n, of the eigenvalue lambda *)
Definition eigen (n : nat) (m : nat -> nat -> R) (lambda : R) (v : nat -> R) : Prop :=
  (exists i, (i < n)%nat /\ v i <> 0) /\ forall i, (i < n)%nat -> rsum n (fun j => m i j * v j) = lambda * v i.
(** Those of one matrix are those of the other, in another order *)
Definition same_up_to (p : nat -> nat) (n : nat) (m m' : nat -> nat -> R) : Prop :=
  forall lambda v, eigen n m lambda v <-> eigen n m' lambda (fun i => v (p i)).
