(** Vocabulary for PDF distances of images whose pixels are arranged differently (C327). *)
From Coq Require Import Reals List Bool.
From Verif Require Import Lib.PyBase Lib.Fl Spec.PdfArranged.
Import ListNotations.

(** Two images with the same valid pixels, in any places and with any number of blank ones; with
    weights, the same pairs of a valid pixel and a valid weight.  One weight belongs to each pixel. *)
Definition same_pixels (img : list fl) (w : option (list fl)) (img' : list fl) (w' : option (list fl)) : Prop :=
  match w, w' with
  | None, None => same_valid img img'
  | Some w, Some w' => length w = length img /\ length w' = length img' /\ same_weighted (combine img w) (combine img' w')
  | _, _ => False
  end.
