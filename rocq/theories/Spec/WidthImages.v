(** Gaussian images, best fits to them, and what a spline asks of its knots *)
From Coq Require Import Reals List Arith.
From Verif Require Import Lib.PyBase Lib.RSum Model.WidthImages.
Import ListNotations.
Local Open Scope R_scope.

(** The exponent of a Gaussian whose first axis is at the angle theta, and the Gaussian *)
Definition form (g : gauss2) (x y : R) : R :=
  (x * cos (g_theta g) + y * sin (g_theta g)) ^ 2 / (2 * g_x g ^ 2) + (y * cos (g_theta g) - x * sin (g_theta g)) ^ 2 / (2 * g_y g ^ 2).
Definition gaussian (A : R) (g : gauss2) (x y : R) : R := A * exp (- form g x y).
(** Its image about the centre of an array, on a constant and on some noise *)
Definition gauss_image (n0 n1 : nat) (A : R) (g : gauss2) (noise : nat -> nat -> R) : image :=
  mk_img n0 n1 (fun i j => gaussian A g (INR i - INR (n0 / 2)) (INR j - INR (n1 / 2)) + g_const g + noise i j).
Definition no_noise : nat -> nat -> R := fun _ _ => 0.
Definition proper (g : gauss2) : Prop := g_x g <> 0 /\ g_y g <> 0.
(** The width of a Gaussian: the root of the sum of the two squared standard deviations *)
Definition true_width (g : gauss2) : R := sqrt (g_x g ^ 2 + g_y g ^ 2).

(** Sum of the squared residuals for a given amplitude, and an answer that has the least one *)
Definition cost (A : R) (pts : list pixel) (g : gauss2) : R :=
  lsum (map (fun p : pixel => Rsqr (snd p - (gaussian A g (fst (fst p)) (snd (fst p)) + g_const g))) pts).
Definition best (fit : R -> list pixel -> gauss2 * option (R * R)) (A : R) (pts : list pixel) : Prop :=
  proper (fst (fit A pts)) /\ forall g, proper g -> cost A pts (fst (fit A pts)) <= cost A pts g.

(** FITPACK refuses more coefficients than points, and interior knots that do not increase *)
Fixpoint increasing (l : list R) : Prop := match l with [] => True | a :: t => match t with [] => True | b :: _ => a < b /\ increasing t end end.
Definition fitpack (spline : list R -> list R -> list R -> result (R -> R)) : Prop :=
  forall x y t, (length x < length t + 4)%nat \/ ~ increasing t -> spline x y t = Err ValueError.
(** How many pixels of an image are fainter than, as bright as and brighter than a value *)
Definition count (P : R -> bool) (px : list pixel) : nat := length (filter (fun p : pixel => P (snd p)) px).
(** Circular Gaussians *)
Definition circular (g : gauss2) : Prop := g_x g = g_y g /\ g_x g <> 0.
(** An image multiplied by a number *)
Definition scaled (c : R) (im : image) : image := mk_img (i_n0 im) (i_n1 im) (fun i j => c * i_val im i j).
