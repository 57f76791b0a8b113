(** Specification vocabulary for the genus statistic. *)
From Coq Require Import Reals ZArith List.
From Verif Require Import Lib.Fl Spec.Regions.
Local Open Scope R_scope.

(** The pixels of an n0 x n1 image above (below) a threshold; blanks are neither. *)
Definition above (n0 n1 : nat) (img : pixel -> fl) (t : R) (p : pixel) : Prop :=
  in_image n0 n1 p /\ (img p = PInf \/ exists v, img p = Fin v /\ t < v).
Definition below (n0 n1 : nat) (img : pixel -> fl) (t : R) (p : pixel) : Prop :=
  in_image n0 n1 p /\ (img p = NInf \/ exists v, img p = Fin v /\ v < t).

(** Area of a Gaussian beam with the given full widths at half maximum:
    2 pi sigma_major sigma_minor. *)
Definition sigma_of_fwhm (w : R) : R := w / sqrt (8 * ln 2).
Definition beam_area (major minor : R) : R := 2 * PI * sigma_of_fwhm major * sigma_of_fwhm minor.

(** [l] are [n] equally spaced values from [a] to [b]. *)
Definition evenly_spaced (a b : R) (n : nat) (l : list R) : Prop :=
  length l = n /\ nth 0 l 0 = a /\ nth (n - 1) l 0 = b /\
  forall i, (S i < n)%nat -> nth (S i) l 0 - nth i l 0 = (b - a) / INR (n - 1).

(** The regions that are counted: with removal, those of at least m pixels. *)
Definition counted (c : Z) (ins : pixel -> Prop) (removal : bool) (m : Z) : pixel -> Prop := if removal then region_ge (adjacent c) ins m else fun _ => True.

(** A change of the intensity scale; blanks and infinities stay. *)
Definition fmap (phi : R -> R) (x : fl) : fl := match x with Fin r => Fin (phi r) | y => y end.
