(** Model of turbustat/statistics/wavelets/wavelet_transform.py. *)
From Coq Require Import Reals List ZArith Arith Bool.
From Verif Require Import Lib.PyBase Lib.Arr Lib.RSum Lib.Fl Model.Units Model.StatsUtils Model.Psds Model.DeltaVar Model.BaseStat Model.ThreeD.
Import ListNotations.
Local Open Scope R_scope.

(** wavelet_transform.py:57-62: blanks become 0.  Infinite pixels are not modelled. *)
Definition wavelet_data (data : nat -> nat -> fl) (y x : nat) : R := real_of (clean (data y x)).

(** wavelet_transform.py:67-73: the default scales ([None]) and the setter *)
Definition wavelet_scales (s : stat) (side num : nat) (scales : option lag_value) : option quantity * option exn :=
  let scales := match scales with
                | None => LagQuantity (mk_q (logspace10 (1667 / 1000) (INR side / 2) num) pix)
                | Some v => v
                end in
  set_lags s side None scales.

(** astropy's RickerWavelet2DKernel(an): the values at offsets from -half to half in
    both directions ([half] is astropy's choice, any number here).  The
    discretization in mode 'center' takes the function at the pixel centres. *)
Definition ricker (an : R) (v u : Z) : R :=
  let r2 := (IZR v * IZR v + IZR u * IZR u) / (2 * an ^ 2) in
  1 / (PI * an ^ 4) * (1 - r2) * exp (- r2).

(** The image seen at any position: zero outside (convolve_fft with its default
    boundary='fill', fill_value=0, and padding by the kernel size) *)
Definition plane (ny nx : nat) (data : nat -> nat -> R) (y x : Z) : R :=
  if ((0 <=? y) && (y <? Z.of_nat ny) && ((0 <=? x) && (x <? Z.of_nat nx)))%Z%bool
  then data (Z.to_nat y) (Z.to_nat x) else 0.

(** wavelet_transform.py:174-183: [convolve_fft(data, psi).real * an**factor] at a pixel *)
Definition wavelet_coef (ny nx : nat) (data : nat -> nat -> R) (half : nat) (scale_normalization : bool) (an : R) (y x : nat) : R :=
  let factor := if scale_normalization then 2%nat else 4%nat in
  rsum (2 * half + 1) (fun a => rsum (2 * half + 1) (fun b =>
    let v := (Z.of_nat a - Z.of_nat half)%Z in
    let u := (Z.of_nat b - Z.of_nat half)%Z in
    ricker an v u * plane ny nx data (Z.of_nat y - v) (Z.of_nat x - u))) * an ^ factor.

(** wavelet_transform.py:188-195: the value and its standard deviation at one scale
    ([kern_area] is the same expression as in the delta-variance) *)
Definition wavelet_value (coefs : list R) (an : R) : fl * fl :=
  let pos := filter (fun c => Rltb 0 c) coefs in
  let nindep := fsqrt (Fin (IZR (Z.of_nat (length coefs) / kern_area an))) in
  (np_mean pos, fdiv (np_std pos) nindep).

(** wavelet_transform.py:112-198 [compute_transform]: one (value, stddev) per scale
    in pixels; [half an] is half the kernel size astropy chooses *)
Definition compute_transform (half : R -> nat) (ny nx : nat) (data : nat -> nat -> fl) (scale_normalization : bool) (scales : list R)
    : list (fl * fl) :=
  map (fun an => wavelet_value (map (fun p => wavelet_coef ny nx (wavelet_data data) (half an) scale_normalization an (fst p) (snd p)) (pixels ny nx)) an) scales.

Definition log10 (x : R) : R := ln x / ln 10.

(** wavelet_transform.py:267-303: the scales fitted and the check of the break.
    All scales and limits are positive numbers of pixels. *)
Definition fit_range (scales : list R) (xlow xhigh : option R) : R * R :=
  (match xlow with Some l => l | None => rmin_list scales * (99 / 100) end,
   match xhigh with Some h => h | None => rmax_list scales * (101 / 100) end).
Definition fitted_scales (scales : list R) (xlow xhigh brk : option R) : result (list R) :=
  let keep s := (match xlow with Some l => Rleb (log10 l) (log10 s) | None => true end &&
                 match xhigh with Some h => Rleb (log10 s) (log10 h) | None => true end)%bool in
  let range := fit_range scales xlow xhigh in
  match brk with
  | Some b => if (Rltb b (fst range) || Rltb (snd range) b)%bool then Err ValueError else Ok (filter keep scales)
  | None => Ok (filter keep scales)
  end.

(** wavelet_transform.py:311-324, base_pspec2.py:240-253, delta_variance.py:366-379: whether
    the break [b] (a log10) found for the points at [x] is kept *)
Definition break_kept (x : list R) (b : R) (min_fits_pts : nat) : bool :=
  negb (Nat.ltb (length (filter (fun v => Rltb v b) x)) min_fits_pts).

(** wavelet_transform.py:643-677, 682-684 [Wavelet_Distance.__init__] for two arrays: the scales of
    the two transforms; [num] is accepted and not passed on *)
Definition distance_scales (s1 s2 : stat) (side1 side2 : nat) (scales : option lag_value) (num : nat) : result (quantity * quantity) :=
  let one s side := match wavelet_scales s side 50 scales with (Some q, None) => Ok q | (_, Some e) => Err e | (None, None) => Err OtherError end in
  q1 <- one s1 side1 ;; q2 <- one s2 side2 ;; Ok (q1, q2).
