(** Quantiles of a sample. *)
From Coq Require Import Reals List.
Import ListNotations.
Local Open Scope R_scope.

(** How many values are at or below v, at or above v *)
Definition at_or_below (v : R) (l : list R) : nat := length (filter (fun x => if Rle_dec x v then true else false) l).
Definition at_or_above (v : R) (l : list R) : nat := length (filter (fun x => if Rle_dec v x then true else false) l).
(** A q-th percentile of the sample: more than the share q/100 of n - 1 values is at or below it,
    more than the rest at or above it.  For q = 50: at least half on either side. *)
Definition quantile (l : list R) (q v : R) : Prop :=
  q / 100 * INR (length l - 1) < INR (at_or_below v l) /\ (1 - q / 100) * INR (length l - 1) < INR (at_or_above v l).
