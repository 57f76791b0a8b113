(** Pixels on the sky. *)
From Coq Require Import Reals List Arith Bool.
From Verif Require Import Lib.PyBase Lib.Fl Model.Wcs.
Import ListNotations.
Local Open Scope R_scope.

(** The celestial axes are the first two, and the other axes do not mix with them *)
Definition celestial_first (w : wcs) : Prop :=
  (exists rest, (w_axes w = Lon :: Lat :: rest \/ w_axes w = Lat :: Lon :: rest)) /\
  (forall i, (2 <= i)%nat -> w_matrix w i 0%nat = 0 /\ w_matrix w i 1%nat = 0 /\ w_matrix w 0%nat i = 0 /\ w_matrix w 1%nat i = 0).
(** Square pixels with sides of [s] degrees, at an angle, and perhaps mirrored (as images of the
    sky are) *)
Definition square (w : wcs) (s : R) : Prop :=
  exists angle, let c := s * cos angle in let d := s * sin angle in
    w_matrix w 0%nat 0%nat = c /\ w_matrix w 1%nat 0%nat = d /\
    ((w_matrix w 0%nat 1%nat = - d /\ w_matrix w 1%nat 1%nat = c) \/ (w_matrix w 0%nat 1%nat = d /\ w_matrix w 1%nat 1%nat = - c)).
(** The area of a pixel, in square degrees *)
Definition pixel_area (w : wcs) : R :=
  Rabs (w_matrix w 0%nat 0%nat * w_matrix w 1%nat 1%nat - w_matrix w 0%nat 1%nat * w_matrix w 1%nat 0%nat).
(** Pixels of [a] by [b] degrees along the axes *)
Definition rectangle (w : wcs) (a b : R) : Prop :=
  Rabs (w_matrix w 0%nat 0%nat) = a /\ Rabs (w_matrix w 1%nat 1%nat) = b /\ w_matrix w 0%nat 1%nat = 0 /\ w_matrix w 1%nat 0%nat = 0.
(** Axis [k] is the only spectral axis, its channels are [step] wide *)
Definition spectral_axis (w : wcs) (k : nat) (velocity : bool) (step : R) : Prop :=
  nth_error (w_axes w) k = Some (Spectral velocity) /\
  (forall j v, nth_error (w_axes w) j = Some (Spectral v) -> j = k) /\ Rabs (w_matrix w k k) = step.
