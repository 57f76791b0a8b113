(** Vocabulary for maps and the modified velocity centroid spectrum. *)
From Coq Require Import Reals List Arith.
From Coquelicot Require Import Complex.
From Verif Require Import Lib.RSum Lib.Fl Lib.DFT Spec.Freq Model.Psds Model.Mvc.
Import ListNotations.
Local Open Scope R_scope.

(** a map without blanks *)
Definition full (ny nx : nat) (a : nat -> nat -> R) : fmap := {| rows := ny; cols := nx; pixel := fun y x => Fin (a y x) |}.
Definition map_of (ny nx : nat) (a : nat -> nat -> fl) : fmap := {| rows := ny; cols := nx; pixel := a |}.

(** modulus of the Fourier transform, mean over the map *)
Definition ft_abs (ny nx : nat) (a : nat -> nat -> R) (ky kx : nat) : R := Cmod (dft2 ny nx (fun y x => RtoC (a y x)) ky kx).
Definition mean2 (ny nx : nat) (a : nat -> nat -> R) : R := rsum ny (fun y => rsum nx (fun x => a y x)) / (INR ny * INR nx).

(** pixel (i, j) of a published spectrum stands for Fourier index (ky, kx) *)
Definition holds (ny nx i j ky kx : nat) : Prop :=
  (ky < ny)%nat /\ (kx < nx)%nat /\
  is_freq ny ky (at2 0 (yy_freq ny nx) i j) /\ is_freq nx kx (at2 0 (xx_freq ny nx) i j).

(** The documented spectrum (docs/tutorials/statistics/mvc_example.rst):
    |F(M0 M1)|^2 - <M2> |F(M0)|^2 *)
Definition documented_mvc (ny nx : nat) (c m l : nat -> nat -> R) (ky kx : nat) : R :=
  ft_abs ny nx (fun y x => m y x * c y x) ky kx ^ 2
  - mean2 ny nx (fun y x => l y x ^ 2) * ft_abs ny nx m ky kx ^ 2.

(** a map moved cyclically by (sy, sx) *)
Definition moved (ny nx sy sx : nat) (a : nat -> nat -> R) (y x : nat) : R := a ((y + sy) mod ny)%nat ((x + sx) mod nx)%nat.

(** cyclic convolution of an image with a kernel of the same shape *)
Definition convolved (ny nx : nat) (a k : nat -> nat -> R) (y x : nat) : R :=
  rsum ny (fun v => rsum nx (fun u => a ((y + (ny - v)) mod ny)%nat ((x + (nx - u)) mod nx)%nat * k v u)).

Definition numbers_map (ny nx : nat) (a : nat -> nat -> fl) : Prop := forall y x, (y < ny)%nat -> (x < nx)%nat -> blankable (a y x).
(** no pixel is blank in the centroid or the moment 0 map unless it is blank in all three,
    and some pixel has both a centroid and a linewidth, or is blank in all three *)
Definition usable (ny nx : nat) (c m l : nat -> nat -> fl) : Prop :=
  (forall y x, (y < ny)%nat -> (x < nx)%nat -> c y x = NaN \/ m y x = NaN -> c y x = NaN /\ m y x = NaN /\ l y x = NaN) /\
  (exists y x, (y < ny)%nat /\ (x < nx)%nat /\
     ((c y x <> NaN /\ l y x <> NaN) \/ (c y x = NaN /\ m y x = NaN /\ l y x = NaN))).
(** blanks replaced by zero *)
Definition zero_filled (a : nat -> nat -> fl) (y x : nat) : fl := match a y x with NaN => Fin 0 | v => v end.
(** one pixel replaced *)
Definition with_pixel (y0 x0 : nat) (v : fl) (a : nat -> nat -> fl) (y x : nat) : fl :=
  if (Nat.eqb y y0 && Nat.eqb x x0)%bool then v else a y x.
Definition tapered (kernel : option (nat -> nat -> R)) (a : nat -> nat -> R) (y x : nat) : R :=
  match kernel with Some k => a y x * k y x | None => a y x end.
