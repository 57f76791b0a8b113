(** Vocabulary for images (lists of rows) and their differences at a lag. *)
From Coq Require Import Reals List ZArith Bool.
From Verif Require Import Lib.RSum Lib.Fl.
Import ListNotations.
Local Open Scope R_scope.

Definition shape {A} (n0 n1 : nat) (img : list (list A)) : Prop := length img = n0 /\ forall row, In row img -> length row = n1.
Definition px (img : list (list fl)) (i j : nat) : fl := nth j (nth i img []) NaN.

(** the image seen at any position of the plane: repeated, or zero outside *)
Definition seen (periodic : bool) (n0 n1 : nat) (img : list (list fl)) (i j : Z) : fl :=
  if ((0 <=? i) && (i <? Z.of_nat n0) && (0 <=? j) && (j <? Z.of_nat n1))%Z%bool then px img (Z.to_nat i) (Z.to_nat j)
  else if periodic then px img (Z.to_nat (i mod Z.of_nat n0)) (Z.to_nat (j mod Z.of_nat n1)) else Fin 0.
(** the four pixels at distance [lag] *)
Definition four (periodic : bool) (n0 n1 : nat) (img : list (list fl)) (lag i j : nat) : list fl :=
  let y := Z.of_nat i in let x := Z.of_nat j in let l := Z.of_nat lag in
  map (fun p => seen periodic n0 n1 img (fst p) (snd p)) [(y - l, x); (y + l, x); (y, x - l); (y, x + l)]%Z.

(** every pixel is a number or blank *)
Definition numbers (img : list (list fl)) : Prop := Forall blankable (concat img).
Definition all_finite (img : list (list fl)) : Prop := forall v, In v (concat img) -> is_fin v = true.
Definition scale_offset (a b : R) (img : list (list fl)) : list (list fl) := map (map (fun v => fadd (fmul (Fin a) v) (Fin b))) img.

(** reduced chi-square of a three-parameter model [f] (in log10) for shares given as (x, log10 share) *)
Definition reduced_chisq (f : R -> R) (pts : list (R * R)) : R :=
  RSum.lsum (map (fun p => (Rpower 10 (f (fst p)) - Rpower 10 (snd p)) ^ 2 / Rpower 10 (snd p)) pts) / (INR (length pts) - 3).
(** an accepted lag: at least one pixel, and its whole part at most half of the smaller side *)
Definition lag_ok (n : nat) (r : R) : Prop := 1 <= r /\ exists z, IZR z <= r < IZR z + 1 /\ 2 * IZR z <= INR n.
