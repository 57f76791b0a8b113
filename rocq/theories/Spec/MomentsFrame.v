(** Vocabulary for local moments of images with blank surroundings (C317). *)
From Coq Require Import Reals List ZArith Arith Bool.
From Verif Require Import Lib.PyBase Lib.Fl.
Import ListNotations.
Local Open Scope R_scope.

(** The image of n0 x n1 pixels inside a larger one: its pixel (0, 0) is pixel (o0, o1) there, and
    every pixel outside it is blank. *)
Definition placed (n0 n1 o0 o1 : nat) (a : nat -> nat -> fl) (i j : nat) : fl :=
  if (o0 <=? i) && (i <? o0 + n0) && ((o1 <=? j) && (j <? o1 + n1)) then a (i - o0)%nat (j - o1)%nat else NaN.

(** The surroundings along one axis of N pixels: with wrapped boundaries there are as many blanks as the
    radius between the image and its next copy. *)
Definition apart (periodic : bool) (n N o radius : nat) : Prop :=
  (o + n <= N)%nat /\ (periodic = true -> radius <= N - n)%nat.

(** Mean, variance, skewness and kurtosis out of the four moments at a pixel *)
Definition moment (k : nat) (m : fl * fl * fl * fl) : fl :=
  let '(a, b, c, d) := m in match k with 0%nat => a | 1%nat => b | 2%nat => c | _ => d end.
