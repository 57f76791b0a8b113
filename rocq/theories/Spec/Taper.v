(** Specification vocabulary for windows on an image. *)
From Coq Require Import Reals Arith.
Local Open Scope R_scope.

(** Distance of pixel (i, j) from the middle of an ny x nx image. *)
Definition centre_dist (ny nx i j : nat) : R :=
  sqrt ((INR i - (INR ny - 1) / 2)² + (INR j - (INR nx - 1) / 2)²).

(** Distance from the middle of the image to the middle of its nearest edge. *)
Definition half_width (ny nx : nat) : R := (INR (Nat.min ny nx) - 1) / 2.
