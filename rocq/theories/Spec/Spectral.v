(** Vocabulary for spectral axes and channel widths. *)
From Coq Require Import Reals List ZArith.
From Verif Require Import Lib.RSum Lib.Fl Model.SliceThickness.
Import ListNotations.
Local Open Scope R_scope.

(** [n] channels from [first] on, [step] apart (negative for a decreasing axis) *)
Definition channels (first step : R) (n : nat) : list R := map (fun i => first + INR i * step) (seq 0 n).
(** [k] is the smallest integer not below [r], the largest not above [r] *)
Definition rounded_up (r : R) (k : Z) : Prop := IZR k - 1 < r <= IZR k.
Definition rounded_down (r : R) (k : Z) : Prop := IZR k <= r < IZR k + 1.
(** full width at half maximum of a Gaussian of standard deviation [s] *)
Definition fwhm (s : R) : R := sqrt (8 * ln 2) * s.
(** how many times wider than the channels of the cube the requested width is *)
Definition ratio_is (c : sc_cube) (step : R) (w : width) (ratio : R) : Prop :=
  match w with
  | WPix v => ratio = Rabs v
  | WSpec v s => ratio = Rabs v * s / (Rabs step * axis_unit c)
  | _ => False
  end.
