(** Vocabulary for modified velocity centroids of maps in larger blank fields (C325). *)
From Coq Require Import Reals List Arith Bool.
From Verif Require Import Lib.Fl Lib.RSum Spec.PspecFrame.
Local Open Scope R_scope.

(** The three maps have their blank pixels in common, and no infinities *)
Definition blank_together (c m l : nat -> nat -> fl) : Prop :=
  forall y x, (exists a b d, c y x = Fin a /\ m y x = Fin b /\ l y x = Fin d) \/ (c y x = NaN /\ m y x = NaN /\ l y x = NaN).
(** The sum of the squares of the line width and the centroid *)
Definition total_square (ny nx : nat) (c l : nat -> nat -> fl) : R :=
  rsum ny (fun y => rsum nx (fun x => or_zero (l y x) * or_zero (l y x) + or_zero (c y x) * or_zero (c y x))).
(** The square of |F(M0 M1)| - s |F(M0)| at a frequency *)
Definition mvc_at (ny nx : nat) (c m : nat -> nat -> fl) (s fy fx : R) : R :=
  let d := sqrt (power_at ny nx (fun y x => fmul (c y x) (m y x)) fy fx) - s * sqrt (power_at ny nx m fy fx) in d * d.
