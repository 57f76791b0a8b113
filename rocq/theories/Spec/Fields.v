(** Specification vocabulary for synthetic fields. *)
From Coq Require Import Reals Arith List.
From Coquelicot Require Import Complex.
From Verif Require Import Lib.RSum Lib.DFT.
Local Open Scope R_scope.

(** Index of the opposite frequency of an axis with n points. *)
Definition opposite (n k : nat) : nat := ((n - k) mod n)%nat.

(** F(-k) is the conjugate of F(k), for every frequency of an n x n map. *)
Definition hermitian2 (n : nat) (F : nat -> nat -> C) : Prop :=
  forall ky kx, (ky < n)%nat -> (kx < n)%nat -> F (opposite n ky) (opposite n kx) = Cconj (F ky kx).
Definition hermitian3 (n : nat) (F : nat -> nat -> nat -> C) : Prop :=
  forall k0 k1 k2, (k0 < n)%nat -> (k1 < n)%nat -> (k2 < n)%nat ->
    F (opposite n k0) (opposite n k1) (opposite n k2) = Cconj (F k0 k1 k2).

(** Where Fourier index k is stored when the zero frequency is moved to the centre. *)
Definition centred (n k : nat) : nat := ((k + n / 2) mod n)%nat.

(** Root mean square of a cube. *)
Definition rms3 (n0 n1 n2 : nat) (a : nat -> nat -> nat -> R) : R :=
  sqrt (rsum n0 (fun i => rsum n1 (fun j => rsum n2 (fun k => (a i j k)²))) / INR (n0 * n1 * n2)).

(** A list of lists has n0 rows of n1 entries. *)
Definition has_shape2 {A} (n0 n1 : nat) (a : list (list A)) : Prop :=
  length a = n0 /\ forall r, In r a -> length r = n1.
Definition has_shape3 {A} (n0 n1 n2 : nat) (a : list (list (list A))) : Prop :=
  length a = n0 /\ forall p, In p a -> has_shape2 n1 n2 p.

(** Mean of the squares exp(2 i angle) of random phases on the half map of an
    n x n image. *)
Definition mean_sq (n : nat) (ang : nat -> nat -> R) : C :=
  Cmult (RtoC (/ INR (n * S (n / 2)))) (csum n (fun i => csum (S (n / 2)) (fun j => cis (2 * ang i j)))).
