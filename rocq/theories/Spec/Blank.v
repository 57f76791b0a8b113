(** Specification vocabulary for arrays with blank (NaN) entries. *)
From Coq Require Import Reals List.
From Verif Require Import Lib.Fl Lib.RSum.
Import ListNotations.
Local Open Scope R_scope.

(** A histogram value: a non-negative number or blank. *)
Definition hist_value (x : fl) : Prop :=
  match x with Fin r => 0 <= r | NaN => True | _ => False end.

(** The pairs of numbers at the positions where neither array is blank. *)
Definition valid_pairs (p q : list fl) : list (R * R) :=
  flat_map (fun ab => match ab with (Fin a, Fin b) => [(a, b)] | _ => [] end) (combine p q).

(** [m] is the least (greatest) element of the list. *)
Definition is_min (m : R) (l : list R) : Prop := In m l /\ forall y, In y l -> m <= y.
Definition is_max (m : R) (l : list R) : Prop := In m l /\ forall y, In y l -> y <= m.

(** Mean and variance of a list of reals. *)
Definition rmean (l : list R) : R := lsum l / INR (length l).
Definition rvar (l : list R) : R := rmean (map (fun r => (r - rmean l) * (r - rmean l)) l).

(** A limit given by the caller, if any, applied to a bound. *)
Definition clip_lo (mv : option R) (lo : R) : R := match mv with Some v => Rmax lo v | None => lo end.
Definition clip_hi (mv : option R) (hi : R) : R := match mv with Some v => Rmin hi v | None => hi end.
