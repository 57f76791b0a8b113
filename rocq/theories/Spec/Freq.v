(** Specification vocabulary for Fourier frequencies. *)
From Coq Require Import Reals ZArith List.
From Verif Require Import Lib.RSum Spec.Blank.
Import ListNotations.
Local Open Scope R_scope.

(** [f] (cycles per pixel) is the frequency of Fourier index [k] of an axis with
    [n] pixels: the representative of k/n modulo 1 in [-1/2, 1/2). *)
Definition is_freq (n k : nat) (f : R) : Prop :=
  - (1 / 2) <= f < 1 / 2 /\ exists z : Z, f = INR k / INR n + IZR z.

(** Sample standard deviation (n - 1 in the denominator). *)
Definition sample_std (l : list R) : R :=
  sqrt (lsum (map (fun v => (v - rmean l) * (v - rmean l)) l) / INR (length l - 1)).
