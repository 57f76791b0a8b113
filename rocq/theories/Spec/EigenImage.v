(** Specification vocabulary: the projection of a cube on a spectrum. *)
From Coq Require Import Reals List.
From Verif Require Import Lib.Fl Lib.RSum Lib.Arr Spec.Blank.
Import ListNotations.
Local Open Scope R_scope.

(** Every value of the cube is a number or blank. *)
Definition blankable_cube (nz ny nx : nat) (data : nat -> nat -> nat -> fl) : Prop :=
  forall c y x, (c < nz)%nat -> (y < ny)%nat -> (x < nx)%nat -> blankable (data c y x).

(** The values of one channel of a map of shape (ny, nx), in reading order, and those
    which are not blank. *)
Definition flat {A} (ny nx : nat) (channel : nat -> nat -> A) : list A := concat (tab2 ny nx channel).
Definition channel_values (ny nx : nat) (channel : nat -> nat -> fl) : list R := fins (flat ny nx channel).

(** The spectrum of the pixel (y, x), with the mean of each channel taken off if asked
    for, projected on the spectrum [v]; blank values count zero. *)
Definition projection (nz ny nx : nat) (data : nat -> nat -> nat -> fl) (mean_sub : bool)
    (v : nat -> R) (y x : nat) : R :=
  rsum nz (fun c =>
    match data c y x with
    | Fin r => (r - (if mean_sub then rmean (channel_values ny nx (data c)) else 0)) * v c
    | _ => 0
    end).

(** A cube without blanks, and the value of a pixel less the mean of its channel. *)
Definition full (d : nat -> nat -> nat -> R) : nat -> nat -> nat -> fl := fun c y x => Fin (d c y x).
Definition deviation (ny nx : nat) (d : nat -> nat -> nat -> R) (mean_sub : bool) (c y x : nat) : R :=
  d c y x - (if mean_sub then rmean (flat ny nx (d c)) else 0).

(** Sum over the pixels of a map. *)
Definition pixel_sum (ny nx : nat) (f : nat -> nat -> R) : R := rsum ny (fun y => rsum nx (f y)).
(** Product of two spectra. *)
Definition dot (nz : nat) (v w : nat -> R) : R := rsum nz (fun c => v c * w c).
(** [v] is an eigenvector of the matrix [M] for [lam]. *)
Definition eigenvector (nz : nat) (M : nat -> nat -> R) (v : nat -> R) (lam : R) : Prop :=
  forall i, (i < nz)%nat -> rsum nz (fun j => M i j * v j) = lam * v i.
(** [V] is an orthogonal matrix: its rows, and its columns, are orthonormal. *)
Definition orthonormal (nz : nat) (V : nat -> nat -> R) : Prop :=
  forall i j, (i < nz)%nat -> (j < nz)%nat ->
    rsum nz (fun k => V i k * V j k) = (if Nat.eqb i j then 1 else 0) /\
    rsum nz (fun k => V k i * V k j) = (if Nat.eqb i j then 1 else 0).

(** The channels of a cube as lists of pixels, and the divisor of its covariances. *)
Definition channels (nz ny nx : nat) (d : nat -> nat -> nat -> R) : list (list R) := tab1 nz (fun c => flat ny nx (d c)).
Definition degrees (ny nx : nat) (mean_sub : bool) : R := INR (ny * nx) - (if mean_sub then 1 else 0).

(** [sigma] is the width of the Gaussian that has the full width [fwhm] at half maximum. *)
Definition gaussian_of_fwhm (fwhm sigma : R) : Prop :=
  0 < sigma /\ exp (- (fwhm / 2) ^ 2 / (2 * sigma ^ 2)) = 1 / 2.
