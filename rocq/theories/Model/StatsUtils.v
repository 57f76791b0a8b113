(** Model of turbustat/statistics/stats_utils.py *)
From Coq Require Import String Reals List ZArith Arith Bool.
From Coquelicot Require Import Complex.
From Verif Require Import Lib.PyBase Lib.PySlice Lib.Arr Lib.DFT Lib.Fl Lib.RSum.
Import ListNotations.
Local Open Scope R_scope.

(** stats_utils.py:10-29 [hellinger(data1, data2, bin_width)].  The arrays have
    the same length (numpy would raise or broadcast otherwise). *)
Definition hellinger (data1 data2 : list fl) (bin_width : R) : fl :=
  fmul (Fin (bin_width / sqrt 2))
       (fsqrt (nansum (map2 (fun a b => fsqr (fsub (fsqrt a) (fsqrt b))) data1 data2))).

(** stats_utils.py:32-36 *)
Definition standardize (x : list fl) : list fl :=
  map (fun v => fdiv (fsub v (nanmean x)) (nanstd x)) x.

(** stats_utils.py:39-43 *)
Definition normalize_by_mean (x : list fl) : list fl :=
  map (fun v => fdiv v (nanmean x)) x.

(** stats_utils.py:46-50 *)
Definition center (x : list fl) : list fl :=
  map (fun v => fsub v (nanmean x)) x.

(** stats_utils.py:53-57 *)
Definition normalize (x : list fl) : list fl :=
  map (fun v => fdiv (fsub v (nanmin x)) (fsub (nanmax x) (nanmin x))) x.

(** stats_utils.py:60-86 *)
Definition data_normalization (x : list fl) (norm_type : string) : result (list fl) :=
  if String.eqb norm_type "standardize" then Ok (standardize x)
  else if String.eqb norm_type "center" then Ok (center x)
  else if String.eqb norm_type "normalize" then Ok (normalize x)
  else if String.eqb norm_type "normalize_by_mean" then Ok (normalize_by_mean x)
  else Err ValueError.

(** np.log on an extended value: log 0 = -inf, log of a negative is NaN *)
Definition flog (x : fl) : fl :=
  match x with
  | Fin a => if Rltb 0 a then Fin (ln a) else if Reqb a 0 then NInf else NaN
  | PInf => PInf
  | NInf => NaN
  | NaN => NaN
  end.

(** stats_utils.py:89-108.  P and Q are filtered independently; numpy raises
    ValueError when the filtered lengths differ (a filtered length of 1 would
    be broadcast; that case is modelled by repeating the value). *)
Definition kl_divergence (P Q : list fl) : result fl :=
  let P := filter (fun v => negb (is_nan v)) P in
  let Q := filter (fun v => negb (is_nan v)) Q in
  let P := filter is_fin P in
  let Q := filter is_fin Q in
  let term p q := if feqb q (Fin 0) then Fin 0 else fmul p (flog (fdiv p q)) in
  if Nat.eqb (length P) (length Q) then Ok (nansum (map2 term P Q))
  else if Nat.eqb (length P) 1 then Ok (nansum (map2 term (repeat (hd NaN P) (length Q)) Q))
  else if Nat.eqb (length Q) 1 then Ok (nansum (map2 term P (repeat (hd NaN Q) (length P))))
  else Err ValueError.

(** np.linspace(a, b, num) *)
Definition linspace (a b : R) (num : nat) : list R :=
  match num with
  | O => []
  | S O => [a]
  | S m => tab1 num (fun i => a + INR i * ((b - a) / INR m))
  end.

(** np.logspace(log10 a, log10 b, num) for a, b > 0 *)
Definition logspace10 (a b : R) (num : nat) : list R :=
  map (fun e => Rpower 10 e) (linspace (ln a / ln 10) (ln b / ln 10) num).

(** (bins[:-1] + bins[1:]) / 2 *)
Definition centers (bins : list R) : list R :=
  map2 (fun a b => (a + b) / 2) (slice None (Some (-1)%Z) 1 bins) (slice (Some 1%Z) None 1 bins).

(** stats_utils.py:111-161.  [ndim1], [ndim2] are the dimensions of the data
    sets.  The data are assumed to contain a finite value and no infinities,
    so that the global limits are finite ([None] marks the blank result numpy
    would otherwise compute with); for logscale the limits must be positive.
    Returns (bins, centres). *)
Definition common_histogram_bins (ndim1 ndim2 : nat) (dataset1 dataset2 : list fl)
    (nbins : option nat) (logscale : bool) (min_val max_val : option R)
  : result (option (list R * list R)) :=
  if (Nat.ltb 1 ndim1 || Nat.ltb 1 ndim2)%bool then Err ValueError
  else
    let gmin := fmin2 (nanmin dataset1) (nanmin dataset2) in
    let gmin := match min_val with Some v => fmax2 gmin (Fin v) | None => gmin end in
    let gmax := fmax2 (nanmax dataset1) (nanmax dataset2) in
    let gmax := match max_val with Some v => fmin2 gmax (Fin v) | None => gmax end in
    let nb := match nbins with
              | Some k => k
              | None => Z.to_nat (Int_part (sqrt (INR (length dataset1 + length dataset2) / 2)))
              end in
    match gmin, gmax with
    | Fin a, Fin b =>
        let bins := if logscale then logspace10 a b nb else linspace a b nb in
        Ok (Some (bins, centers bins))
    | _, _ => Ok None
    end.

(** A celestial pixel grid as seen by [common_scale]: distortion flag and the two
    proj_plane_pixel_scales. *)
Record grid := { distorted : bool; scale0 : R; scale1 : R }.

(** stats_utils.py:490-535 *)
Definition common_scale (wcs1 wcs2 : grid) (tol : R) : result R :=
  if distorted wcs1 then Err WcsError
  else if distorted wcs2 then Err WcsError
  else
    let s10 := Rabs (scale0 wcs1) in let s11 := Rabs (scale1 wcs1) in
    let s20 := Rabs (scale0 wcs2) in let s21 := Rabs (scale1 wcs2) in
    if Rltb tol (Rabs (s10 - s11)) then Err ValueError
    else if Rltb tol (Rabs (s20 - s21)) then Err ValueError
    else Ok (s20 / s10).

(** np.fft.fftfreq(n)[k] *)
Definition fftfreq (n k : nat) : R :=
  if Nat.ltb k ((n - 1) / 2 + 1) then INR k / INR n else (INR k - INR n) / INR n.

(** stats_utils.py:568-576 [_shifter] on a real vector of length n *)
Definition shifter (n : nat) (x : nat -> R) (shift : R) : nat -> R :=
  let ftx := dft1 n (fun j => RtoC (x j)) in
  let phase k := cis (- (2 * PI * fftfreq n k * shift)) in
  fun j => fst (idft1 n (fun k => Cmult (ftx k) (phase k)) j).

(** stats_utils.py:538-565 [fourier_shift] along the shifted axis *)
Definition fourier_shift (x : list fl) (shift : R) : list fl :=
  let n := length x in
  let mask j := if is_fin (nth j x NaN) then 0 else 1 in
  let nonan j := match nth j x NaN with Fin r => r | _ => 0 end in
  let nonan_shift := shifter n nonan shift in
  let mask_shift j := Rltb (1 / 2) (shifter n mask shift j) in
  tab1 n (fun j => if mask_shift j then NaN else Fin (nonan_shift j)).

(** np.roll along an axis (numpy/core/numeric.py): the last [shift mod n]
    elements move to the front. *)
Definition roll {A} (x : list A) (shift : Z) : list A :=
  let n := length x in
  let s := Z.to_nat (shift mod Z.of_nat n) in
  skipn (n - s) x ++ firstn (n - s) x.

(** int(r): truncation toward zero *)
Definition Rtrunc (r : R) : Z := if Rltb r 0 then (- Int_part (- r))%Z else Int_part r.

(** The shift argument as passed by the caller. *)
Inductive shift_arg := ShiftInt (z : Z) | ShiftFloat (r : R).

(** stats_utils.py:579-602 [pixel_shift] along the shifted axis *)
Definition pixel_shift {A} (x : list A) (shift : shift_arg) : list A :=
  match shift with
  | ShiftInt z => roll x z
  | ShiftFloat r => roll x (Rtrunc r)
  end.

(** stats_utils.py:605-617 [padwithzeros]/[padwithnans]: set the slices
    [vector[:pad_width[0]]] and [vector[-pad_width[1]:]] to [v]. *)
Definition padwith {A} (v : A) (vector : list A) (pad0 pad1 : nat) : list A :=
  let idx0 := slice_idx None (Some (Z.of_nat pad0)) 1 (length vector) in
  let vector := fold_left (fun acc i => upd acc i v) idx0 vector in
  let idx1 := slice_idx (Some (- Z.of_nat pad1)%Z) None 1 (length vector) in
  fold_left (fun acc i => upd acc i v) idx1 vector.
