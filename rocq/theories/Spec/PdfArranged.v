(** Vocabulary for PDFs of images whose pixels are arranged differently (C320). *)
From Coq Require Import Reals List Bool Permutation.
From Verif Require Import Lib.PyBase Lib.Fl.
Import ListNotations.
Local Open Scope R_scope.

(** The valid pixels of one image are those of the other, in any places, and with any number of others. *)
Definition same_valid (img img' : list fl) : Prop := Permutation (filter is_fin img) (filter is_fin img').
(** ... of images with weights, where a valid pixel has a valid weight *)
Definition same_weighted (img img' : list (fl * fl)) : Prop :=
  Permutation (filter (fun p => is_fin (fst p) && is_fin (snd p)) img) (filter (fun p => is_fin (fst p) && is_fin (snd p)) img').
(** The same data up to their order, or the same exception *)
Definition same_data (r r' : result (list fl)) : Prop :=
  match r, r' with Ok a, Ok b => Permutation a b | Err e, Err e' => e = e' | _, _ => False end.
