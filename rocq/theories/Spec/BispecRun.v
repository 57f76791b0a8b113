(** Vocabulary for slices of bispectra. *)
From Coq Require Import Reals List.
From Verif Require Import Model.Units Model.BispecRun.
Import ListNotations.
Local Open Scope R_scope.

(** One width for each of n radii: a number (also in a list of its own) for all, or an array. *)
Definition widths_of (n : nat) (delta : numbers) : option (list R) :=
  match delta with Number d => Some (repeat d n) | NArray l => Some l | NList l => match l with [d] => Some (repeat d n) | _ => None end end.
(** An angular unit; the same angle in two units. *)
Definition angular (u : unit_) : Prop := is_equivalent u rad = true.
Definition same_angle (v : R) (u : unit_) (v' : R) (u' : unit_) : Prop := v * u_factor u = v' * u_factor u'.
