(** Specification vocabulary for an image with pixels around it. *)
From Coq Require Import Reals List ZArith Arith Bool.
From Verif Require Import Lib.RSum Lib.Fl.
Local Open Scope R_scope.

(** Pixel (Y, X) of a larger image belongs to the image of n0 rows and n1 columns whose first pixel is (b0, b1). *)
Definition of_image (n0 n1 b0 b1 Y X : nat) : bool := (b0 <=? Y)%nat && (Y <? b0 + n0)%nat && (b1 <=? X)%nat && (X <? b1 + n1)%nat.
(** The image with something around it *)
Definition framed {A} (n0 n1 b0 b1 : nat) (around image : nat -> nat -> A) (Y X : nat) : A :=
  if of_image n0 n1 b0 b1 Y X then image (Y - b0)%nat (X - b1)%nat else around Y X.
(** The weight of the image that a kernel collects at pixel (Y, X) *)
Definition collected (n0 n1 b0 b1 : nat) (kernel : Z -> Z -> R) (weights : nat -> nat -> R) (Y X : nat) : R :=
  rsum n0 (fun y => rsum n1 (fun x => kernel (Z.of_nat Y - Z.of_nat (b0 + y))%Z (Z.of_nat X - Z.of_nat (b1 + x))%Z * weights y x)).
(** Every pixel of the image is blank, zero, or positive with a distance of at least the root of d2 from every pixel around the image. *)
Definition away_from_edge (n0 n1 N0 N1 b0 b1 : nat) (image : nat -> nat -> fl) (d2 : R) : Prop :=
  forall y x, (y < n0)%nat -> (x < n1)%nat -> image y x = NaN \/ image y x = Fin 0 \/
    ((exists v, image y x = Fin v /\ 0 < v) /\
     forall Y X, (Y < N0)%nat -> (X < N1)%nat -> of_image n0 n1 b0 b1 Y X = false -> d2 <= (INR Y - INR (b0 + y)) ^ 2 + (INR X - INR (b1 + x)) ^ 2).
