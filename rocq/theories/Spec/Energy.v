(** Specification of the two-sample energy (Cramer) statistic of Baringhaus & Franz
    with kernel sqrt(distance)/2. *)
From Coq Require Import Reals List Arith.
From Verif Require Import Lib.RSum.
Local Open Scope R_scope.

(** Euclidean distance of two vectors with d entries. *)
Definition euclid (d : nat) (x y : nat -> R) : R := sqrt (rsum d (fun k => (x k - y k) ^ 2)).

(** Mean of the root distance over all pairs of a row of X (m rows) and a row of Y (n rows). *)
Definition mean_root_distance (d m n : nat) (X Y : nat -> nat -> R) : R :=
  rsum m (fun i => rsum n (fun j => sqrt (euclid d (X i) (Y j)))) / (INR m * INR n).

Definition energy_statistic (d m n : nat) (X Y : nat -> nat -> R) : R :=
  INR m * INR n / (INR m + INR n) *
  (mean_root_distance d m n X Y - mean_root_distance d m m X X / 2 - mean_root_distance d n n Y Y / 2).

(** p rearranges the rows 0 .. m-1. *)
Definition rearranges (m : nat) (p : nat -> nat) : Prop :=
  (forall i, (i < m)%nat -> (p i < m)%nat) /\
  (forall i j, (i < m)%nat -> (j < m)%nat -> p i = p j -> i = j).
