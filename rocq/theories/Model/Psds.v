(** Model of turbustat/statistics/psds.py, and of the 2D power spectra built by
    turbustat/statistics/base_pspec2.py, pspec_bispec/pspec.py, vca_vcs/vca.py
    and vca_vcs/vcs.py. *)
From Coq Require Import Reals List ZArith Arith Bool.
From Verif Require Import Lib.PyBase Lib.PySlice Lib.Arr Lib.DFT Lib.Fl Lib.RSum Lib.Bins Lib.Trig2
  Model.RfftToFft Model.StatsUtils.
Import ListNotations.
Local Open Scope R_scope.

(** Element [i, j] of an array stored by rows. *)
Definition at2 {A} (d : A) (a : list (list A)) (i j : nat) : A := nth j (nth i a []) d.
Definition at3 {A} (d : A) (a : list (list (list A))) (i j k : nat) : A := nth k (nth j (nth i a []) []) d.

(** np.fft.fftshift: np.roll by n//2 along every axis *)
Definition fftshift {A} (l : list A) : list A := roll l (Z.of_nat (length l / 2)).
Definition fftshift2 {A} (a : list (list A)) : list (list A) := map fftshift (fftshift a).
Definition fftshift3 {A} (a : list (list (list A))) : list (list (list A)) := map fftshift2 (fftshift a).

(** psds.py:196-213 [make_radial_arrays] with the default centres: the offsets
    (yy, xx) of pixel (i, j). *)
Definition radial_y (ny i : nat) : R := INR i - INR (ny / 2).
Definition radial_x (nx j : nat) : R := INR j - INR (nx / 2).

(** psds.py:216-223 [make_radial_freq_arrays]: meshgrid of the shifted
    frequencies, both arrays returned with their rows reversed *)
Definition yy_freq (ny nx : nat) : list (list R) :=
  slice None None (-1) (tab2 ny nx (fun i _ => nth i (fftshift (tab1 ny (fftfreq ny))) 0)).
Definition xx_freq (ny nx : nat) : list (list R) :=
  slice None None (-1) (tab2 ny nx (fun _ j => nth j (fftshift (tab1 nx (fftfreq nx))) 0)).

(** np.round: to the nearest integer, ties to even *)
Definition np_round (x : R) : Z :=
  let k := Int_part x in
  let f := x - IZR k in
  if Rltb f (1 / 2) then k else if Rltb (1 / 2) f then (k + 1)%Z
  else if Z.even k then k else (k + 1)%Z.

Definition pixels (ny nx : nat) : list (nat * nat) := list_prod (seq 0 ny) (seq 0 nx).

Fixpoint rmax_list (l : list R) : R :=
  match l with [] => 0 | [a] => a | a :: l' => Rmax a (rmax_list l') end.
Fixpoint rmin_list (l : list R) : R :=
  match l with [] => 0 | [a] => a | a :: l' => Rmin a (rmin_list l') end.

(** psds.py:63-64, the pixel distances *)
Definition dists (ny nx i j : nat) : R :=
  sqrt (radial_y ny i * radial_y ny i + radial_x nx j * radial_x nx j).

(** psds.py:85-90, the frequency moduli, with the zero frequency replaced by half
    of the smallest non-zero one *)
Definition freqs_raw (ny nx i j : nat) : R :=
  sqrt (at2 0 (yy_freq ny nx) i j * at2 0 (yy_freq ny nx) i j +
        at2 0 (xx_freq ny nx) i j * at2 0 (xx_freq ny nx) i j).
Definition nonzero_freqs (ny nx : nat) : list R :=
  filter (fun r => negb (Reqb r 0)) (map (fun p => freqs_raw ny nx (fst p) (snd p)) (pixels ny nx)).
Definition freqs_dist (ny nx i j : nat) : R :=
  if Reqb (freqs_raw ny nx i j) 0 then rmin_list (nonzero_freqs ny nx) / 2 else freqs_raw ny nx i j.

(** psds.py:67-80 and 113-129: the azimuthal mask.  Angles in radians; arctan2 of
    the pixel offsets, the limits wrapped into [-pi, pi), the mask or-ed with
    itself reversed along both axes, and the middle block set. *)
Definition theta_lo (theta_0 delta_theta : R) : R := wrap_pi (theta_0 - (1 / 2) * delta_theta).
Definition theta_hi (theta_0 delta_theta : R) : R := wrap_pi (theta_0 + (1 / 2) * delta_theta).
Definition in_sector (theta_0 delta_theta th : R) : bool :=
  let lo := theta_lo theta_0 delta_theta in
  let hi := theta_hi theta_0 delta_theta in
  if Rltb lo hi then Rleb lo th && Rleb th hi else Rleb lo th || Rleb th hi.
Definition in_block (n i : nat) : bool :=
  existsb (Nat.eqb i) (slice_idx (Some (Z.of_nat (n / 2) - 1)%Z) (Some (Z.of_nat (n / 2) + 1)%Z) 1 n).
Definition azim_mask (ny nx : nat) (theta_0 delta_theta : R) (i j : nat) : bool :=
  let sector i j := in_sector theta_0 delta_theta (atan2 (radial_y ny i) (radial_x nx j)) in
  (sector i j || sector (ny - 1 - i)%nat (nx - 1 - j)%nat) || (in_block ny i && in_block nx j).

(** np.nanstd(x, ddof=1) *)
Definition nanstd1 (l : list fl) : fl :=
  let m := nanmean l in
  if Nat.leb (length (nonnan l)) 1 then NaN
  else fsqrt (fdiv (nansum (map (fun v => fsqr (fsub v m)) l)) (Fin (INR (length (nonnan l) - 1)))).

Record radial_profile := {
  prof_edges : list R;
  prof_bins : list R;
  prof_ps1D : list fl;
  prof_stddev : option (list fl);
  prof_mask : option (nat -> nat -> bool)
}.

(** psds.py:11-193 [pspec] with boot_iter=None.  [tppf c] is
    t_dist.ppf(alpha, c - 1), any value.  [theta_0] and [delta_theta] are in
    radians.  With logspacing the limits must be positive (numpy would go on
    with NaN edges; the model reports ValueError). *)
Definition pspec (tppf : nat -> fl) (psd2 : list (list fl)) (nbins : option nat)
    (return_stddev : bool) (binsize : R) (logspacing : bool) (max_bin min_bin : option R)
    (return_freqs : bool) (theta_0 delta_theta : option R) (mean_func : list fl -> fl)
    : result radial_profile :=
  let ny := length psd2 in
  let nx := length (hd [] psd2) in
  let dists_max := rmax_list (map (fun p => dists ny nx (fst p) (snd p)) (pixels ny nx)) in
  let nbins := match nbins with
               | Some n => n
               | None => Z.to_nat (np_round (dists_max / binsize) + 1)
               end in
  mask <- match theta_0 with
          | None => Ok None
          | Some t0 => match delta_theta with
                       | None => Err ValueError
                       | Some dt => Ok (Some (azim_mask ny nx t0 dt))
                       end
          end ;;
  if (Nat.eqb (length (pixels ny nx)) 0
      || (return_freqs && Nat.eqb (length (nonzero_freqs ny nx)) 0))%bool then Err ValueError
  else
    let max_bin := match max_bin with
                   | Some b => b
                   | None => if return_freqs then 1 / 2 else dists_max
                   end in
    let min_bin := match min_bin with
                   | Some b => b
                   | None => if return_freqs then 1 / INR (Nat.min ny nx) else 1 / 2
                   end in
    if (logspacing && negb (Rltb 0 min_bin && Rltb 0 max_bin))%bool then Err ValueError
    else
      let bins := if logspacing then logspace10 min_bin max_bin (nbins + 1)
                  else linspace min_bin max_bin (nbins + 1) in
      let dist_arr := if return_freqs then freqs_dist ny nx else dists ny nx in
      let keep p := is_fin (at2 NaN psd2 (fst p) (snd p)) &&
                    match mask with Some m => m (fst p) (snd p) | None => true end in
      let sel := filter keep (pixels ny nx) in
      let sample := map (fun p => dist_arr (fst p) (snd p)) sel in
      let values := map (fun p => at2 NaN psd2 (fst p) (snd p)) sel in
      let ps1D := binned_statistic mean_func bins sample values in
      let cents := centers bins in
      if negb return_stddev then
        Ok {| prof_edges := bins; prof_bins := cents; prof_ps1D := ps1D;
              prof_stddev := None; prof_mask := mask |}
      else
        let cts := binned_statistic (@length fl) bins sample values in
        let sd := binned_statistic nanstd1 bins sample values in
        let A c := fdiv (tppf c) (fsqrt (Fin (INR c))) in
        let sd := map2 (fun s c => if fltb (Fin 1) (A c) then fmul s (A c) else s) sd cts in
        Ok {| prof_edges := bins; prof_bins := cents;
              prof_ps1D := map2 (fun v c => if Nat.leb c 1 then NaN else v) ps1D cts;
              prof_stddev := Some (map2 (fun s c => if Nat.leb c 1 then NaN else s) sd cts);
              prof_mask := mask |}.

(** pspec.py:44-62: blank pixels of the image become 0, the image is multiplied
    by the weights (ones by default; blank weights become 0). *)
Definition clean (v : fl) : fl := if is_nan v then Fin 0 else v.

(** The real number in an array without blanks or infinities. *)
Definition real_of (v : fl) : R := match v with Fin r => r | _ => 0 end.

(** pspec.py:103-119 (no apodizing, no beam correction) followed by the ps2D
    property of base_pspec2.py:25-30.  [a] is the weighted image.  An error of
    rfft_to_fft cannot happen for a 2D image. *)
Definition power_ps2D (ny nx : nat) (a : nat -> nat -> R) : list (list R) :=
  match rfft_to_fft (Real2 ny nx a) false with
  | Ok (Abs2 rows) => slice None None (-1) (map (map (fun v => v * v)) (fftshift2 rows))
  | _ => []
  end.

(** numpy's sum over axis 0 of a 3D array *)
Definition sum_axis0 (nz ny nx : nat) (c : list (list (list R))) : list (list R) :=
  tab2 ny nx (fun y x => rsum nz (fun z => at3 0 c z y x)).

(** vca.py:113-124 (no apodizing, no beam correction) followed by ps2D *)
Definition vca_ps2D (nz ny nx : nat) (a : nat -> nat -> nat -> R) : list (list R) :=
  match rfft_to_fft (Real3 nz ny nx a) false with
  | Ok (Abs3 planes) =>
      slice None None (-1) (sum_axis0 nz ny nx (map (map (map (fun v => v * v))) (fftshift3 planes)))
  | _ => []
  end.

(** vca.py:60-65 and vcs.py:38-44: blanks become 0 *)
Definition clean3 (cube : nat -> nat -> nat -> fl) (z y x : nat) : R := real_of (clean (cube z y x)).

(** data.max(axis=0) over the nz channels *)
Fixpoint max_upto (n : nat) (f : nat -> R) : R :=
  match n with
  | O => f O
  | S m => Rmax (max_upto m f) (f (S m))
  end.

(** vcs.py:37-82: the spectrum along the first axis, each value divided by the
    number of good pixels (0 good pixels gives NaN or inf). *)
Definition vcs_good (nz ny nx : nat) (cube : nat -> nat -> nat -> fl) : nat :=
  let has_nan := existsb (fun z => existsb (fun p => is_nan (cube z (fst p) (snd p))) (pixels ny nx)) (seq 0 nz) in
  if has_nan then
    length (filter (fun p => negb (Reqb (max_upto (nz - 1) (fun z => clean3 cube z (fst p) (snd p))) 0)) (pixels ny nx))
  else (ny * nx)%nat.
Definition vcs_ps1D (nz ny nx : nat) (cube : nat -> nat -> nat -> fl) : list fl :=
  match rfft_to_fft (Real3 nz ny nx (clean3 cube)) false with
  | Ok (Abs3 planes) =>
      tab1 nz (fun z => fdiv (Fin (rsum ny (fun y => rsum nx (fun x => at3 0 planes z y x * at3 0 planes z y x))))
                             (Fin (INR (vcs_good nz ny nx cube))))
  | _ => []
  end.
