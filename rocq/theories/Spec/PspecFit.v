(** Specification vocabulary: the power spectrum of an image and its fit. *)
From Coq Require Import Reals List Arith Permutation.
From Verif Require Import Lib.PyBase Lib.DFT Lib.Fl Lib.RSum Model.Psds Model.FitState Model.ScfSpectrum Model.PspecFit.
From Coquelicot Require Import Complex.
Import ListNotations.
Local Open Scope R_scope.

(** The Fourier modes of an image: pairs of indices (along y, along x). *)
Definition modes (ny nx : nat) : list (nat * nat) := list_prod (seq 0 ny) (seq 0 nx).
(** The frequency of index [k] on an axis of [n] pixels, in [-1/2, 1/2) cycles per pixel. *)
Definition axis_freq (n k : nat) : R := if 2 * k <? n then INR k / INR n else INR k / INR n - 1.
(** The modulus of the frequency of a mode, and the power in it. *)
Definition mode_freq (ny nx : nat) (k : nat * nat) : R := sqrt (axis_freq ny (fst k) ^ 2 + axis_freq nx (snd k) ^ 2).
Definition mode_power (ny nx : nat) (image : nat -> nat -> R) (k : nat * nat) : R :=
  Cnorm2 (dft2 ny nx (fun y x => RtoC (image y x)) (fst k) (snd k)).
(** Between the limits. *)
Definition within (low high f : R) : bool := if Rlt_dec low f then if Rle_dec f high then true else false else false.

(** The object holds the spectrum of the image. *)
Definition holds_spectrum (o : pobj) (ny nx : nat) (image : nat -> nat -> R) : Prop :=
  o_ps2D o = Some (map (map Fin) (power_ps2D ny nx image)).

(** The bins of the radial spectrum as (frequency, power, uncertainty). *)
Definition bins_of (freqs : list R) (ps1D sd : list fl) : list (R * fl * fl) := combine (combine freqs ps1D) sd.

(** The same image scaled; with a constant added. *)
Definition scaled (c : R) (image : nat -> nat -> R) (y x : nat) : R := c * image y x.
Definition offset (c : R) (image : nat -> nat -> R) (y x : nat) : R := image y x + c.

(** A bin of the spectrum counts when its power is a number and, in a weighted fit, its
    uncertainty is a number other than zero. *)
Definition counted (weighted : bool) (b : R * fl * fl) : Prop :=
  let '(f, v, e) := b in (exists p, v = Fin p) /\ (weighted = true -> exists g, e = Fin g /\ g <> 0).
(** It does not when one of them is missing. *)
Definition left_out (weighted : bool) (b : R * fl * fl) : Prop :=
  let '(f, v, e) := b in v = NaN \/ (weighted = true /\ (e = NaN \/ e = Fin 0)).
Definition power_is (p : R) (b : R * fl * fl) : Prop := snd (fst b) = Fin p.

(** Two objects with the same results (the 2D spectra themselves may differ); outcomes agree up to that. *)
Definition same_results (p1 p2 : pobj) : Prop :=
  o_freqs p1 = o_freqs p2 /\ o_ps1D p1 = o_ps1D p2 /\ o_stddev p1 = o_stddev p2 /\ o_low p1 = o_low p2 /\ o_high p1 = o_high p2 /\
  o_state p1 = o_state p2 /\ o_amp p1 = o_amp p2 /\ o_fit2D p1 = o_fit2D p2.
Definition same_run (Rel : pobj -> pobj -> Prop) (r1 r2 : result pobj) : Prop :=
  match r1, r2 with Ok a, Ok b => Rel a b | Err e1, Err e2 => e1 = e2 | _, _ => False end.

(** Two objects after the same run: everything the run computes; the error of the break only
    when no break was asked for, the 2D fit only when it was asked for. *)
Definition same_after (a : prun_args) (p1 p2 : pobj) : Prop :=
  o_ps2D p1 = o_ps2D p2 /\ o_freqs p1 = o_freqs p2 /\ o_ps1D p1 = o_ps1D p2 /\ o_stddev p1 = o_stddev p2 /\ o_low p1 = o_low p2 /\ o_high p1 = o_high p2 /\
  FitState.t_brk (o_state p1) = FitState.t_brk (o_state p2) /\ FitState.t_slope (o_state p1) = FitState.t_slope (o_state p2) /\
  FitState.t_slope_err (o_state p1) = FitState.t_slope_err (o_state p2) /\ o_amp p1 = o_amp p2 /\
  (f_brk (r_fit a) = None -> FitState.t_brk_err (o_state p1) = FitState.t_brk_err (o_state p2)) /\
  (r_fit_2D a = true -> o_fit2D p1 = o_fit2D p2).
