(** Vocabulary for bispectra: Fourier modes with integer wave vectors. *)
From Coq Require Import Reals List ZArith Bool.
From Coquelicot Require Import Complex.
From Verif Require Import Lib.DFT Lib.RSum.
Import ListNotations.
Local Open Scope R_scope.

(** the Fourier mode of wave vector (kx, ky): sum of data times exp(-2 pi i (kx i / ny + ky j / nx)) *)
Definition mode (ny nx : nat) (data : nat -> nat -> R) (k : Z * Z) : C :=
  csum ny (fun i => csum nx (fun j =>
    Cmult (RtoC (data i j)) (cis (- (2 * PI * (IZR (fst k) * INR i / INR ny + IZR (snd k) * INR j / INR nx)))))).

(** [z] is [x] without its fractional part *)
Definition truncates (x : R) (z : Z) : Prop := Rabs (IZR z) <= Rabs x < Rabs (IZR z) + 1 /\ 0 <= x * IZR z.

(** the product F(k1) F(k2) F(k3)* *)
Definition triple (F : Z * Z -> C) (k1 k2 k3 : Z * Z) : C := Cmult (Cmult (F k1) (F k2)) (Cconj (F k3)).

Definition csum_list (l : list C) : C := fold_right Cplus (RtoC 0) l.

Definition wave_sum (a b : Z * Z) : Z * Z := (fst a + fst b, snd a + snd b)%Z.

(** the integer wave vectors of one pair of angles *)
Definition draws (k1 k2 : nat) (phi : R * R) (w1 w2 w3 : Z * Z) : Prop :=
  let x1 := INR k1 * cos (fst phi) in let y1 := INR k1 * sin (fst phi) in
  let x2 := INR k2 * cos (snd phi) in let y2 := INR k2 * sin (snd phi) in
  truncates x1 (fst w1) /\ truncates y1 (snd w1) /\ truncates x2 (fst w2) /\ truncates y2 (snd w2) /\
  truncates (x1 + x2) (fst w3) /\ truncates (y1 + y2) (snd w3).

(** largest wave vectors of the sampling stay inside both axes *)
Definition fits (ny nx : nat) : Prop := (ny / 2 + nx / 2 <= Nat.min ny nx + 1)%nat.

(** an image with its blanks set to 0, and with its mean subtracted on request *)
Definition pixel (img : nat -> nat -> option R) (i j : nat) : R := match img i j with Some r => r | None => 0 end.
Definition analysed (ny nx : nat) (ms : bool) (img : nat -> nat -> option R) (i j : nat) : R :=
  if ms then pixel img i j - rsum ny (fun i => rsum nx (fun j => pixel img i j)) / INR (ny * nx) else pixel img i j.

(** cyclic shift of an image *)
Definition rolled {A} (ny nx s0 s1 : nat) (img : nat -> nat -> A) : nat -> nat -> A := fun i j => img ((i + s0) mod ny)%nat ((j + s1) mod nx)%nat.

(** wave vector [k] is stored at position [p] of the transform *)
Definition lands (ny nx : nat) (k : Z * Z) (p : nat * nat) : bool :=
  ((Z.of_nat (fst p) =? fst k mod Z.of_nat ny) && (Z.of_nat (snd p) =? snd k mod Z.of_nat nx))%Z.

(** sum over selected pixels *)
Definition sum_over (hy hx : nat) (sel : nat -> nat -> bool) (g : nat -> nat -> R) : R :=
  rsum hy (fun a => rsum hx (fun b => if sel a b then g a b else 0)).
Definition zsum (l : list Z) : Z := fold_right Z.add 0%Z l.
Definition zb (b : bool) : Z := if b then 1%Z else 0%Z.
Definition scaled_img (c : R) (img : nat -> nat -> option R) : nat -> nat -> option R := fun i j => option_map (Rmult c) (img i j).
Definition offset_img (c : R) (img : nat -> nat -> option R) : nat -> nat -> option R := fun i j => option_map (fun v => v + c) (img i j).
Definition grid_norm (hy hx : nat) (d : nat -> nat -> R) : R := sqrt (rsum hy (fun i => rsum hx (fun j => d i j ^ 2))).
(** an image turned by half, and turned by half about its first pixel (with the edges joined) *)
Definition half_turned {A} (ny nx : nat) (img : nat -> nat -> A) : nat -> nat -> A := fun i j => img (ny - 1 - i)%nat (nx - 1 - j)%nat.
Definition about_first {A} (ny nx : nat) (img : nat -> nat -> A) : nat -> nat -> A := fun i j => img ((ny - i) mod ny)%nat ((nx - j) mod nx)%nat.
