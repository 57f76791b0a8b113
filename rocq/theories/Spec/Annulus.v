(** Specification vocabulary for radial profiles (psds.pspec). *)
From Coq Require Import Reals List Arith Bool.
From Verif Require Import Lib.Fl Spec.Bins Model.Psds.
Import ListNotations.
Local Open Scope R_scope.

(** The distance used for binning: frequency modulus or pixel distance. *)
Definition radial_distance (return_freqs : bool) (ny nx i j : nat) : R :=
  if return_freqs then freqs_dist ny nx i j else dists ny nx i j.

(** Pixel (i, j) is a finite, unmasked pixel of [psd2] in annulus [b]. *)
Definition in_annulus (psd2 : list (list fl)) (return_freqs : bool) (edges : list R)
    (mask : option (nat -> nat -> bool)) (b i j : nat) : Prop :=
  let ny := length psd2 in
  let nx := length (hd [] psd2) in
  (i < ny)%nat /\ (j < nx)%nat /\ is_fin (at2 NaN psd2 i j) = true /\
  (forall m, mask = Some m -> m i j = true) /\
  in_bin edges b (radial_distance return_freqs ny nx i j).

(** The number stored at a finite pixel. *)
Definition pixel_value (psd2 : list (list fl)) (p : nat * nat) : R :=
  match at2 NaN psd2 (fst p) (snd p) with Fin r => r | _ => 0 end.
