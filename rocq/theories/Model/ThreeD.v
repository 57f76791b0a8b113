(** Model of turbustat/simulator/threeD_pspec.py *)
From Coq Require Import Reals List ZArith Bool Arith.
From Coquelicot Require Import Complex.
From Verif Require Import Lib.PyBase Lib.RSum Lib.Fl Lib.DFT Model.Scf Model.StatsUtils.
Import ListNotations.
Local Open Scope R_scope.

(** np.mean and np.std of a list (NaN for the empty list) *)
Definition np_mean (l : list R) : fl := match l with [] => NaN | _ => Fin (lsum l / INR (length l)) end.
Definition np_std (l : list R) : fl :=
  match l with [] => NaN | _ => let m := lsum l / INR (length l) in Fin (sqrt (lsum (map (fun v => (v - m) ^ 2) l) / INR (length l))) end.
(** np.arange(start, stop, step), step > 0 *)
Definition arange (start stop step : R) : list R := map (fun i => start + INR i * step) (seq 0 (Z.to_nat (np_ceil ((stop - start) / step)))).
(** np.digitize for increasing bins *)
Definition digitize (bins : list R) (x : R) : nat := length (filter (fun e => Rleb e x) bins).

Section Cube.
Variables (n0 n1 n2 : nat).
(** the flat order of an array of this shape *)
Definition modes : list (nat * nat * nat) := list_prod (list_prod (seq 0 n0) (seq 0 n1)) (seq 0 n2).
(** threeD_pspec.py:25 *)
Definition ps3D (arr : nat -> nat -> nat -> R) (p : nat * nat * nat) : R :=
  let '(a, b, c) := p in Cmod (dft3 n0 n1 n2 (fun i j k => RtoC (arr i j k)) a b c) ^ 2.
(** threeD_pspec.py:27-33 *)
Definition rr (p : nat * nat * nat) : R :=
  let '(a, b, c) := p in sqrt (fftfreq n0 a ^ 2 + fftfreq n1 b ^ 2 + fftfreq n2 c ^ 2).
(** threeD_pspec.py:35-38 *)
Definition freq_bins : list R := let freq_min := 1 / INR (Nat.max n0 (Nat.max n1 n2)) in arange freq_min (1 / 2) freq_min.
Definition whichbin (p : nat * nat * nat) : nat := digitize freq_bins (rr p).
(** threeD_pspec.py:41: len(np.bincount(whichbin)) *)
Definition n_count : nat := S (fold_right Nat.max 0%nat (map whichbin modes)).
Definition bin_power (arr : nat -> nat -> nat -> R) (n : nat) : list R := map (ps3D arr) (filter (fun p => Nat.eqb (whichbin p) n) modes).
End Cube.

(** threeD_pspec.py:5-50 [threeD_pspec] (an array with no element: max()/fftfreq fail) *)
Definition threeD_pspec (ndim : nat) (shape : nat * nat * nat) (arr : nat -> nat -> nat -> R) : result (list R * list fl * list fl) :=
  if negb (Nat.eqb ndim 3) then Err ValueError else
  let '(n0, n1, n2) := shape in
  if Nat.eqb (n0 * n1 * n2) 0 then Err ZeroDivisionError else
  let bins := seq 1 (n_count n0 n1 n2 - 1) in
  Ok (freq_bins n0 n1 n2, map (fun n => np_mean (bin_power n0 n1 n2 arr n)) bins, map (fun n => np_std (bin_power n0 n1 n2 arr n)) bins).
