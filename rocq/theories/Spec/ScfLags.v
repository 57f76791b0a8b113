(** Vocabulary for the lags of an SCF object. *)
From Coq Require Import Reals List.
From Verif Require Import Model.Units.
Import ListNotations.
Local Open Scope R_scope.

(** The whole numbers from -k to k. *)
Definition around_zero (k : nat) : list R := map (fun i => INR i - INR k) (seq 0 (2 * k + 1)).
(** Lags as the documentation asks for: with every lag its opposite. *)
Definition symmetric (l : list R) : Prop := forall x, In x l -> In (- x) l.
(** An object whose pixels are squares of [a] degrees. *)
Definition pixel_of (s : stat) (a : R) : Prop := s_header s = Some a /\ 0 < a.
