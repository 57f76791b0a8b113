(** Model of turbustat/statistics/pspec_bispec/bispec.py. *)
From Coq Require Import Reals List ZArith Arith Bool.
From Coquelicot Require Import Complex.
From Verif Require Import Lib.PyBase Lib.Arr Lib.DFT Lib.Fl Lib.RSum Lib.Bins Lib.Trig2 Model.StatsUtils Model.Psds.
Import ListNotations.
Local Open Scope R_scope.

(** bispec.py:52-61 [Bispectrum.__init__]: NaN pixels become 0 (infinite pixels are not
    modelled: [None] is a NaN) *)
Definition fill (v : option R) : R := match v with Some r => r | None => 0 end.

(** int(x): truncation towards zero *)
Definition trunc (x : R) : Z := if Rleb 0 x then Int_part x else (- Int_part (- x))%Z.

(** numpy's integer indexing: negative indices count from the end *)
Definition np_index (n : nat) (z : Z) : result nat :=
  if ((0 <=? z) && (z <? Z.of_nat n))%Z then Ok (Z.to_nat z)
  else if ((- Z.of_nat n <=? z) && (z <? 0))%Z then Ok (Z.to_nat (z + Z.of_nat n))
  else Err IndexError.

(** arr[kx, ky] for arr.shape = (ny, nx) *)
Definition at_wave (ny nx : nat) (k : Z * Z) : result (nat * nat) :=
  i <- np_index ny (fst k) ;; j <- np_index nx (snd k) ;; Ok (i, j).

Fixpoint each {A B} (f : A -> result B) (l : list A) : result (list B) :=
  match l with [] => Ok [] | a :: r => b <- f a ;; bs <- each f r ;; Ok (b :: bs) end.

(** bispec.py:132-146: the three wave vectors of one pair of angles *)
Definition wave1 (k1 k2 : nat) (phi : R * R) : Z * Z := (trunc (INR k1 * cos (fst phi)), trunc (INR k1 * sin (fst phi))).
Definition wave2 (k1 k2 : nat) (phi : R * R) : Z * Z := (trunc (INR k2 * cos (snd phi)), trunc (INR k2 * sin (snd phi))).
Definition wave3 (k1 k2 : nat) (phi : R * R) : Z * Z :=
  (trunc (INR k1 * cos (fst phi) + INR k2 * cos (snd phi)), trunc (INR k1 * sin (fst phi) + INR k2 * sin (snd phi))).

Definition clist_sum (l : list C) : C := fold_right Cplus (RtoC 0) l.

(** bispec.py:148-157, one cell (k1mag, k2mag): the three index arrays, the sum of the samples
    and the sum of their moduli.  Without samples the index arrays are float arrays
    (np.asarray of an empty list), which numpy refuses with IndexError. *)
Definition cell (ny nx : nat) (fft : nat -> nat -> C) (k1 k2 : nat) (angles : list (R * R)) : result (list (nat * nat) * list (nat * nat) * list (nat * nat) * (C * R)) :=
  if Nat.eqb (length angles) 0 then Err IndexError else
  i1 <- each (at_wave ny nx) (map (wave1 k1 k2) angles) ;;
  i2 <- each (at_wave ny nx) (map (wave2 k1 k2) angles) ;;
  i3 <- each (at_wave ny nx) (map (wave3 k1 k2) angles) ;;
  let val p := fft (fst p) (snd p) in
  let samps := map (fun t => Cmult (Cmult (val (fst (fst t))) (val (snd (fst t)))) (Cconj (val (snd t)))) (combine (combine i1 i2) i3) in
  Ok (i1, i2, i3, (clist_sum samps, lsum (map Cmod samps))).

(** np.int16 arithmetic *)
Definition wrap16 (z : Z) : Z := ((z + 32768) mod 65536 - 32768)%Z.
Definition pix_eqb (p q : nat * nat) : bool := Nat.eqb (fst p) (fst q) && Nat.eqb (snd p) (snd q).
(** arr[kx, ky] += 1 with index arrays: numpy adds once to every position that occurs *)
Definition incr (t : nat * nat -> Z) (idx : list (nat * nat)) : nat * nat -> Z :=
  fun p => if existsb (pix_eqb p) idx then wrap16 (t p + 1) else t p.

Definition tally (t : nat * nat -> Z) (c : list (nat * nat) * list (nat * nat) * list (nat * nat) * (C * R)) : nat * nat -> Z :=
  let '(i1, i2, i3, _) := c in incr (incr (incr t i1) i2) i3.

Record surfaces := mk_surf { s_bispectrum : nat -> nat -> C; s_bicoherence : nat -> nat -> fl; s_logamp : nat -> nat -> fl; s_tracker : nat * nat -> Z }.

(** np.log10 of a non-negative number *)
Definition flog10 (r : R) : fl := if Reqb r 0 then NInf else Fin (ln r / ln 10).

(** bispec.py:64-165 [compute_bispectrum].  [angles k1 k2] are the pairs of angles drawn for a
    cell: a function of the seed and nsamples, left arbitrary.  pyfftw computes the same
    transform; the progress bar is not modelled. *)
Definition compute_bispectrum (ny nx : nat) (img : nat -> nat -> option R) (mean_subtract : bool) (angles : nat -> nat -> list (R * R)) : result surfaces :=
  let data i j := fill (img i j) in
  let mean := rsum ny (fun i => rsum nx (fun j => data i j)) / INR (ny * nx) in
  let norm_data i j := if mean_subtract then data i j - mean else data i j in
  let fft := dft2 ny nx (fun i j => RtoC (norm_data i j)) in
  cells <- each (fun k => cell ny nx fft (fst k) (snd k) (angles (fst k) (snd k))) (list_prod (seq 0 (ny / 2)) (seq 0 (nx / 2))) ;;
  let out k1 k2 := snd (nth (k1 * (nx / 2) + k2) cells ([], [], [], (RtoC 0, 1))) in
  Ok (mk_surf (fun k1 k2 => fst (out k1 k2))
              (fun k1 k2 => fdiv (Fin (Cmod (fst (out k1 k2)))) (Fin (snd (out k1 k2))))
              (fun k1 k2 => flog10 (Cmod (fst (out k1 k2))))
              (fold_left tally cells (fun _ => 0%Z))).

(** bispec.py:258-296 [azimuthal_slice] for one radius, a real surface [surf] of shape (hy, hx)
    and a bin width in radians: bin edges, means and standard deviations.  Fewer than two
    edges are an error in scipy (the exception is not modelled exactly). *)
Definition in_ring (rad del d : R) : bool := Rleb (rad - del / 2) d && Rleb d (rad + del / 2).
Definition is_finite (v : fl) : bool := match v with Fin _ => true | _ => false end.
Definition dist0 (p : nat * nat) : R := sqrt (INR (fst p) ^ 2 + INR (snd p) ^ 2).
Definition theta0 (p : nat * nat) : R := atan2 (INR (fst p)) (INR (snd p)).

Definition slice_bins (bins : list R) (sample : nat * nat -> R) (sel : nat * nat -> bool) (hy hx : nat) (surf : nat -> nat -> fl) : result (list R * list fl * list fl) :=
  if Nat.ltb (length bins) 2 then Err ValueError else
  let pix := filter (fun p => sel p && is_finite (surf (fst p) (snd p))) (pixels hy hx) in
  let values := map (fun p => surf (fst p) (snd p)) pix in
  Ok (bins, binned_statistic nanmean bins (map sample pix) values, binned_statistic nanstd bins (map sample pix) values).

Definition azimuthal_slice (hy hx : nat) (surf : nat -> nat -> fl) (bin_width rad del : R) : result (list R * list fl * list fl) :=
  slice_bins (linspace 0 PI (Z.to_nat (Int_part (PI / bin_width)))) theta0 (fun p => in_ring rad del (dist0 p)) hy hx surf.

(** bispec.py:372-405 [radial_slice] for one angle (radians) *)
Definition radial_slice (hy hx : nat) (surf : nat -> nat -> fl) (bin_width theta del : R) : result (list R * list fl * list fl) :=
  let dmax := rmax_list (map dist0 (pixels hy hx)) in
  slice_bins (linspace 0 dmax (Z.to_nat (Int_part (dmax / bin_width)))) dist0 (fun p => in_ring theta del (theta0 p)) hy hx surf.

(** bispec.py:610-638 [Bispectrum_Distance.distance_metric]: surface and mean distances of two
    bicoherence surfaces with their shapes *)
Definition flat (hy hx : nat) (s : nat -> nat -> fl) : list fl := map (fun p => s (fst p) (snd p)) (pixels hy hx).
Definition mean_all (l : list fl) : fl := fdiv (fsum l) (Fin (INR (length l))).
Definition surface_distance (hy1 hx1 : nat) (s1 : nat -> nat -> fl) (hy2 hx2 : nat) (s2 : nat -> nat -> fl) : fl :=
  if Nat.eqb hy1 hy2 && Nat.eqb hx1 hx2
  then fsqrt (fsum (map fsqr (map2 fsub (flat hy1 hx1 s1) (flat hy2 hx2 s2)))) else NaN.
Definition mean_distance (hy1 hx1 : nat) (s1 : nat -> nat -> fl) (hy2 hx2 : nat) (s2 : nat -> nat -> fl) : fl :=
  fabs (fsub (mean_all (flat hy1 hx1 s1)) (mean_all (flat hy2 hx2 s2))).
