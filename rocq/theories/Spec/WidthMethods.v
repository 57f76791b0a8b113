(** Autocorrelation curves and the width at 1/e *)
From Coq Require Import Reals List Arith.
From Verif Require Import Lib.RSum.
Import ListNotations.
Local Open Scope R_scope.

(** A normalised autocorrelation curve: 1 at zero lag, the same at opposite lags, and falling
    from zero lag to the largest lag *)
Definition symmetric (y : list R) : Prop := forall k, (1 <= k < length y)%nat -> nth k y 0 = nth (length y - k) y 0.
Definition falling (y : list R) (m : nat) : Prop := forall i, (i < m)%nat -> nth (S i) y 0 < nth i y 0.
(** A sample below both of its neighbours *)
Definition local_minimum (y : list R) (i : nat) : Prop := (0 < i)%nat /\ (S i < length y)%nat /\ nth i y 0 < nth (i - 1) y 0 /\ nth i y 0 < nth (S i) y 0.
Definition curve (y : list R) : Prop := nth 0 y 0 = 1 /\ symmetric y /\ falling y (length y / 2).
(** Between the lags k and k+1 the curve passes 1/e; where the straight line between the two
    values does *)
Definition crosses (y : list R) (k : nat) : Prop := nth (S k) y 0 < exp (-1) <= nth k y 0.
Definition crossing (y : list R) (k : nat) : R := INR k + (nth k y 0 - exp (-1)) / (nth k y 0 - nth (S k) y 0).

(** A sampled Gaussian: the lag of channel i of n is the smaller of i and n - i *)
Definition gauss (A s x : R) : R := A * exp (- (x ^ 2 / (2 * s ^ 2))).
Definition gauss_curve (A s : R) (n : nat) : list R := map (fun i => gauss A s (INR (Nat.min i (n - i)))) (seq 0 n).
(** Sum of the squared residuals of a Gaussian of the given amplitude and standard deviation *)
Definition cost (A : R) (pts : list (R * R)) (s : R) : R := lsum (map (fun p => Rsqr (snd p - gauss A s (fst p))) pts).
(** A fitter whose answers are best fits *)
Definition best_fits (fit : R -> list (R * R) -> option (R * R)) : Prop :=
  forall A pts s e, fit A pts = Some (s, e) -> s <> 0 /\ forall t, t <> 0 -> cost A pts s <= cost A pts t.
