(** Specification of what input_data accepts and returns. *)
From Coq Require Import Reals List.
From Verif Require Import Lib.Fl Model.InputData.
Import ListNotations.

(** Cubes, projections and image HDUs always, pairs, and arrays if no header is wanted. *)
Definition supported (data : source) (no_header : bool) : Prop :=
  match data with
  | SpectralCube _ _ | LowerDim _ _ | ImageHDU _ _ => True
  | Sequence l => length l = 2
  | Array _ => no_header = true
  | Unsupported => False
  end.
(** The array of an item, of an input; the header of an input. *)
Definition item_value (st : store) (i : item) : option (list fl) := match i with IArray r => Some (read st r) | _ => None end.
Definition source_value (st : store) (data : source) : option (list fl) :=
  match data with
  | SpectralCube r _ | LowerDim r _ | ImageHDU r _ | Array r => Some (read st r)
  | Sequence (i :: _) => item_value st i
  | _ => None
  end.
Definition source_header (data : source) : option item :=
  match data with
  | SpectralCube _ h | LowerDim _ h | ImageHDU _ h => Some (IHeader h)
  | Sequence [_; h] => Some h
  | _ => None
  end.
(** Every array of the input exists. *)
Definition wf_source (st : store) (data : source) : Prop :=
  match data with
  | SpectralCube r _ | LowerDim r _ | ImageHDU r _ | Array r => (r < length st)%nat
  | Sequence l => forall i, In i l -> match i with IArray r => (r < length st)%nat | _ => True end
  | Unsupported => True
  end.
