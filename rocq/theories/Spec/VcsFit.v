(** Vocabulary for the points of the VCS fit. *)
From Coq Require Import Reals List.
Local Open Scope R_scope.

(** Strictly increasing *)
Definition increasing (l : list R) : Prop := forall i j, (i < j < length l)%nat -> nth i l 0 < nth j l 0.
(** Within the limits that are given, the lower one excluded *)
Definition within (low high : option R) (f : R) : Prop :=
  (match low with None => True | Some a => a < f end) /\ (match high with None => True | Some b => f <= b end).
