(** Specification vocabulary for the delta variance of images seen from another side. *)
From Coq Require Import Reals List ZArith Arith.
From Verif Require Import Lib.Arr Spec.Turned.
Local Open Scope R_scope.

(** An image of n0 rows and n1 columns, row by row *)
Definition row_by_row {A} (n0 n1 : nat) (image : nat -> nat -> A) : list A := tab1 (n0 * n1) (fun i => image (i / n1)%nat (i mod n1)%nat).
(** A kernel on a grid of n1 columns: its value at the distance of two pixels, in rows and in columns *)
Definition on_grid (n1 : nat) (kernel : Z -> Z -> R) (i j : nat) : R :=
  kernel (Z.of_nat (i / n1) - Z.of_nat (j / n1))%Z (Z.of_nat (i mod n1) - Z.of_nat (j mod n1))%Z.
(** It has no up or down, left or right. *)
Definition even_kernel (kernel : Z -> Z -> R) : Prop := forall a b, kernel (- a)%Z b = kernel a b /\ kernel a (- b)%Z = kernel a b.
(** The kernel for the image seen from another side: rows are exchanged with columns where the image is transposed or turned *)
Definition seen_kernel (v : view) (kernel : Z -> Z -> R) : Z -> Z -> R :=
  match v with LeftRight | UpDown => kernel | Swapped | QuarterTurn => fun a b => kernel b a end.
