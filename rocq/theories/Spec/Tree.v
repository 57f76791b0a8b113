(** Specification vocabulary for the dendrogram statistics. *)
From Coq Require Import Reals List Arith.
From Verif Require Import Lib.Fl Lib.RSum Lib.Arr Spec.Blank Spec.Distrib.
Import ListNotations.
Local Open Scope R_scope.

(** The numbers of features never grow along the thresholds. *)
Definition nonincreasing (l : list nat) : Prop := forall i j, (i <= j < length l)%nat -> (nth j l 0 <= nth i l 0)%nat.
(** Threshold i has more than m features. *)
Definition qualifies (l : list nat) (m i : nat) : Prop := (i < length l)%nat /\ (m < nth i l 0)%nat.
(** A histogram padded with blanks. *)
Definition padded (v : list R) (k : nat) : list fl := map Fin v ++ repeat NaN k.
(** The values of a distribution function: growing, between 0 and 1, ending at 1. *)
Definition distribution (row : list fl) : Prop :=
  exists v, row = map Fin v /\ (forall i j, (i <= j < length v)%nat -> 0 <= nth i v 0 <= nth j v 0 /\ nth j v 0 <= 1) /\
    (0 < length v)%nat /\ nth (length v - 1) v 0 = 1.
(** Equally spaced edges between two values. *)
Definition even_edges (lo hi : R) (nb : nat) : list R := tab1 (nb + 1) (fun i => lo + INR i * ((hi - lo) / INR nb)).
(** Values in units of the standard deviation from the mean. *)
Definition zscores (v : list R) : list R := map (fun x => (x - rmean v) / sqrt (rvar v)) v.
(** The share of the data in each bin. *)
Definition shares (data edges : list R) : list R :=
  tab1 (length edges - 1) (fun i => INR (length (filter (in_binb edges i) data)) / INR (length data)).
(** At least two different values. *)
Definition varied (v : list R) : Prop := exists x y, In x v /\ In y v /\ x <> y.
(** The w values from position k on. *)
Definition window (y : list R) (k w : nat) : list R := firstn w (skipn k y).
(** i is the first position of the largest of n values. *)
Definition first_largest (f : nat -> R) (n i : nat) : Prop :=
  (i < n)%nat /\ forall j, (j < n)%nat -> f j <= f i /\ ((j < i)%nat -> f j < f i).
(** Two dendrograms with peak values at the first [cut] thresholds that can be compared. *)
Definition comparable (num1 num2 : list nat) (vals1 vals2 : list (list R)) (cut : nat) : Prop :=
  (1 <= cut)%nat /\ (cut <= length num1)%nat /\ (cut <= length num2)%nat /\ (cut <= length vals1)%nat /\ (cut <= length vals2)%nat /\
  forall i, (i < cut)%nat -> (1 <= nth i num1 0)%nat /\ (1 <= nth i num2 0)%nat /\ varied (nth i vals1 []) /\ varied (nth i vals2 []).
