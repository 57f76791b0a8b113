(** Properties C12-C15 and C76: radial power spectra, VCA, VCS. *)
From Coq Require Import Reals List ZArith Arith Bool Lia.
From Coquelicot Require Import Complex.
From Verif Require Import Lib.PyBase Lib.PySlice Lib.DFT Lib.Fl Lib.RSum Lib.Trig2
  Spec.Blank Spec.Bins Spec.Freq Spec.Annulus Spec.Cube Spec.Direction
  Model.Psds Proofs.Psds_Proofs Proofs.Psds2_Proofs Proofs.Azim_Proofs Proofs.Psds3_Proofs.
Import ListNotations.
Local Open Scope R_scope.

(** C12.  Each value of the 1D spectrum is the mean over exactly the pixels of its
    annulus (listed once each); blank without pixels; the standard deviation is
    the sample standard deviation, enlarged by the t-correction, and blank (with
    the value) when the annulus has at most one pixel. *)
Theorem C12_annulus_mean : forall tppf psd2 nbins sd binsize logspacing max_bin min_bin rf theta_0 delta_theta prof b,
  pspec tppf psd2 nbins sd binsize logspacing max_bin min_bin rf theta_0 delta_theta nanmean = Ok prof ->
  increasing (prof_edges prof) -> (S b < length (prof_edges prof))%nat ->
  exists px : list (nat * nat),
    NoDup px /\
    (forall i j, In (i, j) px <-> in_annulus psd2 rf (prof_edges prof) (prof_mask prof) b i j) /\
    (length px = 0%nat -> nth b (prof_ps1D prof) NaN = NaN) /\
    (length px = 1%nat -> sd = true -> nth b (prof_ps1D prof) NaN = NaN) /\
    ((2 <= length px)%nat \/ (length px = 1%nat /\ sd = false) ->
       nth b (prof_ps1D prof) NaN = Fin (rmean (map (pixel_value psd2) px))) /\
    match prof_stddev prof with
    | None => sd = false
    | Some s =>
        sd = true /\
        ((length px <= 1)%nat -> nth b s NaN = NaN) /\
        (forall t, (2 <= length px)%nat -> tppf (length px) = Fin t ->
           nth b s NaN = Fin (sample_std (map (pixel_value psd2) px) * Rmax 1 (t / sqrt (INR (length px)))))
    end.
Proof. exact annulus_mean. Qed.
Print Assumptions C12_annulus_mean.

(** C12.  A value that is not blank lies between two powers of its annulus. *)
Theorem C12_annulus_between : forall tppf psd2 nbins sd binsize logspacing max_bin min_bin rf theta_0 delta_theta prof b v,
  pspec tppf psd2 nbins sd binsize logspacing max_bin min_bin rf theta_0 delta_theta nanmean = Ok prof ->
  increasing (prof_edges prof) -> (S b < length (prof_edges prof))%nat ->
  nth b (prof_ps1D prof) NaN = Fin v ->
  exists p q : nat * nat,
    in_annulus psd2 rf (prof_edges prof) (prof_mask prof) b (fst p) (snd p) /\
    in_annulus psd2 rf (prof_edges prof) (prof_mask prof) b (fst q) (snd q) /\
    pixel_value psd2 p <= v <= pixel_value psd2 q.
Proof. exact annulus_between. Qed.
Print Assumptions C12_annulus_between.

(** C12.  Annuli partition the binned range. *)
Theorem C12_annuli_partition : forall edges x,
  increasing edges -> (2 <= length edges)%nat ->
  (in_range edges x <-> exists b, in_bin edges b x) /\
  (forall b c, in_bin edges b x -> in_bin edges c x -> b = c).
Proof. exact annulus_unique. Qed.
Print Assumptions C12_annuli_partition.

(** C12.  The edges run from the requested minimum to the requested maximum,
    strictly increasing, in linear or logarithmic steps; the defaults. *)
Theorem C12_edges : forall tppf psd2 nbins sd binsize logspacing max_bin min_bin rf theta_0 delta_theta mf prof lo hi,
  pspec tppf psd2 (Some nbins) sd binsize logspacing max_bin min_bin rf theta_0 delta_theta mf = Ok prof ->
  (min_bin = Some lo \/ (min_bin = None /\ lo = if rf then 1 / INR (Nat.min (length psd2) (length (hd [] psd2))) else 1 / 2)) ->
  (max_bin = Some hi \/ (max_bin = None /\ if rf then hi = 1 / 2
     else is_max hi (map (fun p => dists (length psd2) (length (hd [] psd2)) (fst p) (snd p))
                         (pixels (length psd2) (length (hd [] psd2)))))) ->
  lo < hi -> (1 <= nbins)%nat ->
  length (prof_edges prof) = S nbins /\ increasing (prof_edges prof) /\
  nth 0 (prof_edges prof) 0 = lo /\ nth nbins (prof_edges prof) 0 = hi.
Proof. exact pspec_edges. Qed.
Print Assumptions C12_edges.

(** C12.  Pixel (i, j) of the power spectrum of an image is the squared modulus of
    the Fourier coefficient whose frequency is used to place it in an annulus. *)
Theorem C12_pixel_frequency : forall ny nx (image : nat -> nat -> R) i j,
  (i < ny)%nat -> (j < nx)%nat ->
  exists ky kx, (ky < ny)%nat /\ (kx < nx)%nat /\
    at2 0 (power_ps2D ny nx image) i j = Cnorm2 (dft2 ny nx (fun y x => RtoC (image y x)) ky kx) /\
    is_freq ny ky (at2 0 (yy_freq ny nx) i j) /\ is_freq nx kx (at2 0 (xx_freq ny nx) i j).
Proof. exact ps2D_frequency. Qed.
Print Assumptions C12_pixel_frequency.

(** C12.  Every Fourier coefficient appears at exactly one pixel. *)
Theorem C12_pixels_complete : forall ny nx ky kx,
  (ky < ny)%nat -> (kx < nx)%nat ->
  exists i j, (i < ny)%nat /\ (j < nx)%nat /\
    is_freq ny ky (at2 0 (yy_freq ny nx) i j) /\ is_freq nx kx (at2 0 (xx_freq ny nx) i j) /\
    forall i' j', (i' < ny)%nat -> (j' < nx)%nat ->
      is_freq ny ky (at2 0 (yy_freq ny nx) i' j') -> is_freq nx kx (at2 0 (xx_freq ny nx) i' j') ->
      i' = i /\ j' = j.
Proof. exact ps2D_complete. Qed.
Print Assumptions C12_pixels_complete.

(** C12.  The binned distance is the modulus of that frequency (the zero frequency
    is placed at half the smallest non-zero one). *)
Theorem C12_distance : forall ny nx i j, (i < ny)%nat -> (j < nx)%nat ->
  let fy := at2 0 (yy_freq ny nx) i j in
  let fx := at2 0 (xx_freq ny nx) i j in
  (fy <> 0 \/ fx <> 0 -> radial_distance true ny nx i j = sqrt (fy * fy + fx * fx)) /\
  (fy = 0 -> fx = 0 -> nonzero_freqs ny nx <> [] ->
     exists r, is_min r (nonzero_freqs ny nx) /\ radial_distance true ny nx i j = r / 2).
Proof. exact radial_distance_spec. Qed.
Print Assumptions C12_distance.

(** C12.  Without frequencies (SCF surfaces) the binned distance is that of pixel
    (i, j) from the pixel (ny//2, nx//2). *)
Theorem C12_pixel_distance : forall ny nx i j,
  radial_distance false ny nx i j =
  sqrt ((INR i - INR (ny / 2)) * (INR i - INR (ny / 2)) + (INR j - INR (nx / 2)) * (INR j - INR (nx / 2))).
Proof. exact (fun ny nx i j => eq_refl). Qed.
Print Assumptions C12_pixel_distance.

(** A 1 x 3 power array: the annulus [1/2, 2] holds the two outer pixels. *)
Example C12_example : exists prof,
  pspec (fun _ => Fin 1) [[Fin 4; Fin 100; Fin 6]] (Some 1%nat) false 1 false (Some 2) (Some (1 / 2)) false None None nanmean = Ok prof /\
  increasing (prof_edges prof) /\ length (prof_edges prof) = 2%nat /\ prof_ps1D prof = [Fin 5].
Proof. exact pspec_example. Qed.

(** C13.  Pixels whose direction is strictly within delta/2 of theta_0 are kept. *)
Theorem C13_sector_kept : forall ny nx theta_0 delta i j,
  0 < delta <= 2 * PI ->
  angle_within (2 * PI) theta_0 (delta / 2) (atan2 (radial_y ny i) (radial_x nx j)) ->
  azim_mask ny nx theta_0 delta i j = true.
Proof. exact azim_mask_sector. Qed.
Print Assumptions C13_sector_kept.

(** C13, odd shapes: also the opposite sector, and the mask is point-symmetric
    outside the pixels adjacent to the middle. *)
Theorem C13_opposite_sector_odd_partial : forall ny nx theta_0 delta i j,
  0 < delta <= PI -> (i < ny)%nat -> (j < nx)%nat ->
  Nat.odd ny = true -> Nat.odd nx = true ->
  (radial_y ny i <> 0 \/ radial_x nx j <> 0) ->
  angle_within PI theta_0 (delta / 2) (atan2 (radial_y ny i) (radial_x nx j)) ->
  azim_mask ny nx theta_0 delta i j = true.
Proof. exact azim_mask_line. Qed.
Print Assumptions C13_opposite_sector_odd_partial.

Theorem C13_point_symmetric_odd_partial : forall ny nx theta_0 delta i j i' j',
  (i < ny)%nat -> (j < nx)%nat -> (i' < ny)%nat -> (j' < nx)%nat ->
  Nat.odd ny = true -> Nat.odd nx = true ->
  radial_y ny i' = - radial_y ny i -> radial_x nx j' = - radial_x nx j ->
  (1 < Rabs (radial_y ny i) \/ 1 < Rabs (radial_x nx j)) ->
  azim_mask ny nx theta_0 delta i' j' = azim_mask ny nx theta_0 delta i j.
Proof. exact azim_mask_opposite. Qed.
Print Assumptions C13_point_symmetric_odd_partial.

(** C13 fails for even shapes: pixel (3,5) is kept, the opposite (3,1) is not. *)
Theorem C13_point_symmetric_even_refuted :
  azim_mask 6 6 0 (PI / 4) 3 5 = true /\ azim_mask 6 6 0 (PI / 4) 3 1 = false /\
  radial_y 6 3 = 0 /\ radial_x 6 5 = 2 /\ radial_x 6 1 = - 2.
Proof. exact azim_even_cex. Qed.
Print Assumptions C13_point_symmetric_even_refuted.

(** ... and for odd shapes next to the middle. *)
Theorem C13_point_symmetric_middle_refuted :
  azim_mask 5 5 0 (PI / 8) 1 1 = true /\ azim_mask 5 5 0 (PI / 8) 3 3 = false /\
  radial_y 5 1 = - 1 /\ radial_y 5 3 = 1.
Proof. exact azim_block_cex. Qed.
Print Assumptions C13_point_symmetric_middle_refuted.

(** C14.  VCA = number of channels times the sum of the channel maps' spectra, at
    the frequency attached to the pixel. *)
Theorem C14_vca_channels : forall nz ny nx (cube : nat -> nat -> nat -> R) i j,
  (1 <= nz)%nat -> (i < ny)%nat -> (j < nx)%nat ->
  exists ky kx, (ky < ny)%nat /\ (kx < nx)%nat /\
    at2 0 (vca_ps2D nz ny nx cube) i j =
      INR nz * rsum nz (fun z => Cnorm2 (dft2 ny nx (fun y x => RtoC (cube z y x)) ky kx)) /\
    is_freq ny ky (at2 0 (yy_freq ny nx) i j) /\ is_freq nx kx (at2 0 (xx_freq ny nx) i j).
Proof. exact vca_ps2D_channels. Qed.
Print Assumptions C14_vca_channels.

(** C14, in terms of the image power spectrum of each channel. *)
Theorem C14_vca_sum_of_pspec : forall nz ny nx (cube : nat -> nat -> nat -> R) i j,
  (1 <= nz)%nat -> (i < ny)%nat -> (j < nx)%nat ->
  at2 0 (vca_ps2D nz ny nx cube) i j = INR nz * rsum nz (fun z => at2 0 (power_ps2D ny nx (cube z)) i j).
Proof. exact vca_sum_of_channels. Qed.
Print Assumptions C14_vca_sum_of_pspec.

(** The zero-frequency pixel of a 2 x 1 x 1 cube with channels 3 and 4: 2 (9+16). *)
Example C14_example : at2 0 (vca_ps2D 2 1 1 (fun z _ _ => match z with O => 3 | _ => 4 end)) 0 0 = 50.
Proof. exact vca_example. Qed.

(** C15.  Without blanks: the sum of the spectra of all lines of sight. *)
Theorem C15_vcs_no_blanks : forall nz ny nx (cube : nat -> nat -> nat -> R) kz,
  (1 <= nz)%nat -> (1 <= ny)%nat -> (1 <= nx)%nat -> (kz < nz)%nat ->
  nth kz (vcs_ps1D nz ny nx (fun z y x => Fin (cube z y x))) NaN =
  Fin (rsum ny (fun y => rsum nx (fun x => Cnorm2 (dft1 nz (fun z => RtoC (cube z y x)) kz)))).
Proof. exact vcs_clean_formula. Qed.
Print Assumptions C15_vcs_no_blanks.

(** C15 with blanks, provided every line that is not blank has a positive value:
    number of pixels over number of non-blank lines, times the sum over the
    non-blank lines (blank voxels counting as 0). *)
Theorem C15_vcs_blanks_partial : forall nz ny nx cube kz live,
  (1 <= nz)%nat -> (1 <= ny)%nat -> (1 <= nx)%nat -> (kz < nz)%nat ->
  has_blank nz ny nx cube ->
  (forall y x, (y < ny)%nat -> (x < nx)%nat -> live_line nz cube y x = true ->
     exists z r, (z < nz)%nat /\ cube z y x = Fin r /\ 0 < r) ->
  live = length (filter (fun p => live_line nz cube (fst p) (snd p)) (pixels ny nx)) -> (1 <= live)%nat ->
  nth kz (vcs_ps1D nz ny nx cube) NaN =
  Fin (INR (ny * nx) / INR live *
       rsum ny (fun y => rsum nx (fun x =>
         if live_line nz cube y x then Cnorm2 (dft1 nz (fun z => RtoC (clean3 cube z y x)) kz) else 0))).
Proof. exact vcs_blank_formula. Qed.
Print Assumptions C15_vcs_blanks_partial.

(** C15 fails otherwise: a line [NaN, -1] is not blank but is not counted. *)
Theorem C15_vcs_count_refuted : exists nz ny nx cube,
  vcs_good nz ny nx cube = 1%nat /\
  length (filter (fun p => live_line nz cube (fst p) (snd p)) (pixels ny nx)) = 2%nat.
Proof. exact (ex_intro _ 2%nat (ex_intro _ 1%nat (ex_intro _ 2%nat (ex_intro _ vcs_cex_cube vcs_count_cex)))). Qed.
Print Assumptions C15_vcs_count_refuted.

(** Two lines of sight, one of them blank. *)
Example C15_example :
  nth 0 (vcs_ps1D 2 1 2 (fun z y x => match x with O => Fin (INR (S z)) | _ => NaN end)) NaN = Fin 18.
Proof. exact vcs_example. Qed.

(** C76.  The azimuthal angle of a pixel and the direction of its frequency: for
    odd shapes the y offset has the opposite sign of the y frequency. *)
Theorem C76_mask_angle_partial : forall ny nx i j,
  Nat.odd ny = true -> Nat.odd nx = true -> (i < ny)%nat -> (j < nx)%nat ->
  radial_y ny i = - (INR ny * at2 0 (yy_freq ny nx) i j) /\
  radial_x nx j = INR nx * at2 0 (xx_freq ny nx) i j.
Proof. exact mask_angle_mirrored. Qed.
Print Assumptions C76_mask_angle_partial.

(** So asking for directions around 45 degrees discards the frequency
    (2/5, 2/5), and asking for -45 degrees keeps it. *)
Theorem C76_mask_angle_refuted :
  at2 0 (yy_freq 5 5) 0 4 = 2 / 5 /\ at2 0 (xx_freq 5 5) 0 4 = 2 / 5 /\
  azim_mask 5 5 (PI / 4) (PI / 8) 0 4 = false /\ azim_mask 5 5 (- (PI / 4)) (PI / 8) 0 4 = true.
Proof. exact mask_angle_cex. Qed.
Print Assumptions C76_mask_angle_refuted.
