(** Vocabulary for three-dimensional power spectra. *)
From Coq Require Import Reals List.
From Coquelicot Require Import Complex.
From Verif Require Import Lib.RSum Lib.Fl Lib.DFT.
Local Open Scope R_scope.

(** frequency of a mode, from the frequencies of its three indices *)
Definition mode_freq (fx fy fz : nat -> R) (a b c : nat) : R := sqrt (fx a ^ 2 + fy b ^ 2 + fz c ^ 2).
(** squared modulus of the Fourier transform *)
Definition power (n0 n1 n2 : nat) (arr : nat -> nat -> nat -> R) (a b c : nat) : R := Cmod (dft3 n0 n1 n2 (fun i j k => RtoC (arr i j k)) a b c) ^ 2.
(** multiply a finite value *)
Definition fscale (c : R) (v : fl) : fl := match v with Fin r => Fin (c * r) | w => w end.
(** sum over a cube *)
Definition sum3 (n0 n1 n2 : nat) (g : nat -> nat -> nat -> R) : R := rsum n0 (fun i => rsum n1 (fun j => rsum n2 (fun k => g i j k))).
