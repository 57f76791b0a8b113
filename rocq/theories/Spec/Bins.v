(** Specification vocabulary for histogram-like binning. *)
From Coq Require Import Reals List.
Import ListNotations.
Local Open Scope R_scope.

(** Strictly increasing bin edges. *)
Definition increasing (edges : list R) : Prop :=
  forall i j, (i < j < length edges)%nat -> nth i edges 0 < nth j edges 0.

(** [x] lies in bin [i]: [e_i <= x < e_(i+1)], the last bin being closed. *)
Definition in_bin (edges : list R) (i : nat) (x : R) : Prop :=
  (S i < length edges)%nat /\ nth i edges 0 <= x /\
  (x < nth (S i) edges 0 \/ (S (S i) = length edges /\ x = nth (S i) edges 0)).

(** [x] lies between the first and the last edge. *)
Definition in_range (edges : list R) (x : R) : Prop :=
  nth 0 edges 0 <= x <= nth (length edges - 1) edges 0.
