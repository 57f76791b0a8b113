(** Properties C23-C28 and C77-C85: principal components. *)
From Coq Require Import String Reals List ZArith Arith Permutation.
From Verif Require Import Lib.PyBase Lib.RSum Lib.Fl Spec.Blank Spec.Components Spec.EigenImage Spec.Covariance
  Model.Psds Model.Pca Model.Formats Proofs.Pca_Proofs Proofs.Pca2_Proofs Proofs.Pca3_Proofs Proofs.Cov_Proofs Proofs.EigenImage_Proofs.
Import ListNotations.
Local Open Scope R_scope.

(** C23.  The distance of the eigenvalue spectra of two cubes with the number n of
    components asked for is the Euclidean distance of their proportions. *)
Theorem C23_formula : forall ms n e1 e2, (n <= length e1)%nat -> (n <= length e2)%nat ->
  lsum (compared ms n e1) <> 0 -> lsum (compared ms n e2) <> 0 ->
  pca_distance ms (Z.of_nat n) e1 e2 = Ok (Fin (l2_distance (proportions (compared ms n e1)) (proportions (compared ms n e2)))).
Proof. exact pca_distance_formula. Qed.
Print Assumptions C23_formula.

Theorem C23_symmetric : forall ms n e1 e2, pca_distance ms n e1 e2 = pca_distance ms n e2 e1.
Proof. exact pca_distance_symm. Qed.
Print Assumptions C23_symmetric.

(** C23.  Between 0 and sqrt 2; zero exactly for equal proportions. *)
Theorem C23_bounded : forall ms n e1 e2, spectrum_ok ms n e1 -> spectrum_ok ms n e2 ->
  exists r, pca_distance ms (Z.of_nat n) e1 e2 = Ok (Fin r) /\ 0 <= r <= sqrt 2 /\
    (r = 0 <-> proportions (compared ms n e1) = proportions (compared ms n e2)).
Proof. exact pca_distance_bounded. Qed.
Print Assumptions C23_bounded.

Theorem C23_triangle : forall ms n e1 e2 e3, spectrum_ok ms n e1 -> spectrum_ok ms n e2 -> spectrum_ok ms n e3 ->
  exists r12 r23 r13, pca_distance ms (Z.of_nat n) e1 e2 = Ok (Fin r12) /\ pca_distance ms (Z.of_nat n) e2 e3 = Ok (Fin r23) /\
    pca_distance ms (Z.of_nat n) e1 e3 = Ok (Fin r13) /\ r13 <= r12 + r23.
Proof. exact pca_distance_triangle. Qed.
Print Assumptions C23_triangle.

Theorem C23_rescaled : forall ms n c1 c2 e1 e2, spectrum_ok ms n e1 -> spectrum_ok ms n e2 -> 0 < c1 -> 0 < c2 ->
  pca_distance ms (Z.of_nat n) (map (fun v => c1 * v) e1) (map (fun v => c2 * v) e2) = pca_distance ms (Z.of_nat n) e1 e2.
Proof. exact pca_distance_rescaled. Qed.
Print Assumptions C23_rescaled.

Example C23_nonvacuous : spectrum_ok true 2 [3; 1; 0] /\ spectrum_ok true 2 [1; 1; 1] /\
  exists r, pca_distance true 2 [3; 1; 0] [1; 1; 1] = Ok (Fin r) /\ 0 < r.
Proof. exact ex_pca_distance. Qed.

(** C24.  Method 'value': component i is kept exactly when its eigenvalue is at least
    min_eigval. *)
Theorem C24_value : forall eigs m,
  (forall i j, (i <= j)%nat -> (j < length eigs)%nat -> nth j eigs 0 <= nth i eigs 0) ->
  exists k, set_n_eigs eigs m "value" = Ok k /\ (k <= length eigs)%nat /\
    forall i, (i < length eigs)%nat -> ((i < k)%nat <-> m <= nth i eigs 0).
Proof. exact set_n_eigs_value_rule. Qed.
Print Assumptions C24_value.

(** C24.  Method 'proportion': the run of components whose cumulative proportion does
    not exceed min_eigval, never fewer than one. *)
Theorem C24_proportion : forall eigs m, (forall v, In v eigs -> 0 <= v) -> 0 < lsum eigs ->
  exists k, set_n_eigs eigs m "proportion" = Ok (Nat.max 1 k) /\ (Nat.max 1 k <= length eigs)%nat /\
    forall i, (i < length eigs)%nat -> ((i < k)%nat <-> lsum (firstn (S i) eigs) / lsum eigs <= m).
Proof. exact set_n_eigs_proportion_rule. Qed.
Print Assumptions C24_proportion.

Theorem C24_methods : forall eigs m method,
  set_n_eigs eigs m method = Err ValueError <-> method <> "value"%string /\ method <> "proportion"%string.
Proof. exact set_n_eigs_methods. Qed.
Print Assumptions C24_methods.

(** C24.  compute_pca(n_eigs='auto') uses that number (no component: ValueError). *)
Theorem C24_auto : forall nz m method eigs k, set_n_eigs eigs m method = Ok k ->
  choose_n_eigs nz Auto (Some m) method eigs = if Nat.eqb k 0 then Err ValueError else Ok (Z.of_nat k).
Proof. exact choose_auto. Qed.
Print Assumptions C24_auto.

Theorem C24_auto_needs_min : forall nz method eigs, choose_n_eigs nz Auto None method eigs = Err ValueError.
Proof. exact choose_auto_needs_min. Qed.
Print Assumptions C24_auto_needs_min.

(** C24.  A number given by the caller is used as is; -1 means all channels. *)
Theorem C24_count : forall nz z m method eigs, (1 <= nz)%nat ->
  choose_n_eigs nz (Count z) m method eigs =
    if (z =? -1)%Z then Ok (Z.of_nat nz)
    else if ((1 <=? z)%Z && (z <=? Z.of_nat nz)%Z)%bool then Ok z else Err OtherError.
Proof. exact choose_count. Qed.
Print Assumptions C24_count.

(** C24.  The number is always between 1 and the number of channels. *)
Theorem C24_range : forall nz a m method eigs n, length eigs = nz -> (1 <= nz)%nat ->
  choose_n_eigs nz a m method eigs = Ok n -> (1 <= n <= Z.of_nat nz)%Z.
Proof. exact choose_range. Qed.
Print Assumptions C24_range.

Example C24_nonvacuous : set_n_eigs [4; 3; 1] 2 "value" = Ok 2%nat /\ set_n_eigs [4; 3; 1] (9 / 10) "proportion" = Ok 2%nat /\
  set_n_eigs [4; 3; 1] (1 / 10) "proportion" = Ok 1%nat.
Proof. exact ex_set_n_eigs. Qed.

(** C25 fails: noise_ACF(n_eigs=-2) is not the mean of the two autocorrelation images
    it is computed from. *)
Theorem C25_refuted : exists nz ny nx data ms eps eigvals eigvecs acors N y x,
  autocorr_images nz ny nx data ms eps eigvals eigvecs (-2) = Ok acors /\ length acors = 2%nat /\
  noise_ACF nz ny nx data ms eps eigvals eigvecs (-2) = Ok N /\ (y < ny)%nat /\ (x < nx)%nat /\
  at2 NaN N y x <> Fin (mean_at acors y x).
Proof. exact noise_acf_refuted. Qed.
Print Assumptions C25_refuted.

(** C25, what holds for negative n_eigs: minus the mean of the autocorrelation images
    of the last -n significant components. *)
Theorem C25_negative_partial : forall nz ny nx data ms eps eigvals eigvecs n,
  available nz eps eigvals n -> (n < 0)%Z ->
  exists acors N, autocorr_images nz ny nx data ms eps eigvals eigvecs n = Ok acors /\ length acors = Z.to_nat (- n) /\
    noise_ACF nz ny nx data ms eps eigvals eigvecs n = Ok N /\
    forall y x, (y < ny)%nat -> (x < nx)%nat -> at2 NaN N y x = Fin (- mean_at acors y x).
Proof. exact noise_negative. Qed.
Print Assumptions C25_negative_partial.

(** C25, for positive n_eigs it is the mean. *)
Theorem C25_positive_partial : forall nz ny nx data ms eps eigvals eigvecs n,
  available nz eps eigvals n -> (0 < n)%Z ->
  exists acors N, autocorr_images nz ny nx data ms eps eigvals eigvecs n = Ok acors /\ length acors = Z.to_nat n /\
    noise_ACF nz ny nx data ms eps eigvals eigvecs n = Ok N /\
    forall y x, (y < ny)%nat -> (x < nx)%nat -> at2 NaN N y x = Fin (mean_at acors y x).
Proof. exact noise_positive. Qed.
Print Assumptions C25_positive_partial.

Example C25_nonvacuous : available 2 (1 / 2) [1; 1] (-2).
Proof. exact ex_available. Qed.

(** C26.  Every autocorrelation image is point-symmetric about zero lag (pixel
    (ny/2, nx/2)) and largest there. *)
Theorem C26_symmetric_peak : forall nz ny nx data ms eps eigvals eigvecs n l,
  autocorr_images nz ny nx data ms eps eigvals eigvecs n = Ok l ->
  forall A, In A l ->
  (forall dy dx : Z, let cy := Z.of_nat (ny / 2) in let cx := Z.of_nat (nx / 2) in
     (0 <= cy + dy < Z.of_nat ny)%Z -> (0 <= cx + dx < Z.of_nat nx)%Z -> (0 <= cy - dy < Z.of_nat ny)%Z -> (0 <= cx - dx < Z.of_nat nx)%Z ->
     at2 0 A (Z.to_nat (cy - dy)) (Z.to_nat (cx - dx)) = at2 0 A (Z.to_nat (cy + dy)) (Z.to_nat (cx + dx))) /\
  (forall y x, (y < ny)%nat -> (x < nx)%nat -> Rabs (at2 0 A y x) <= at2 0 A (ny / 2) (nx / 2)).
Proof. exact autocorr_symmetric_peak. Qed.
Print Assumptions C26_symmetric_peak.

(** C26.  The images exist, one per component asked for, have the shape of the map, and
    are the circular autocorrelations of the projections of the spectra on the
    eigenvectors (with the first pixel zeroed, see C83). *)
Theorem C26_images : forall nz ny nx data ms eps eigvals eigvecs n, blankable_cube nz ny nx data -> available nz eps eigvals n ->
  exists l, autocorr_images nz ny nx data ms eps eigvals eigvecs n = Ok l /\ length l = Z.abs_nat n /\
  forall k, (k < length l)%nat -> length (nth k l []) = ny /\
    (forall y, (y < ny)%nat -> length (nth y (nth k l []) []) = nx) /\
    forall y x, (y < ny)%nat -> (x < nx)%nat ->
      at2 0 (nth k l []) y x =
      circular_acf ny nx (without_first (projection nz ny nx data ms (fun channel => eigvecs channel (nth k (wanted eps eigvals n) 0%nat))))
        (Z.of_nat y - Z.of_nat (ny / 2)) (Z.of_nat x - Z.of_nat (nx / 2)).
Proof. exact autocorr_projection. Qed.
Print Assumptions C26_images.

Example C26_nonvacuous : exists a b, autocorr_images 2 1 2 ex_data false (1 / 2) [1; 1] ex_vecs (-2) = Ok [a; b] /\ at2 0 a 0 1 = 1 /\ at2 0 b 0 1 = 0.
Proof. exact ex_acors. Qed.

(** C27.  For a symmetric vector with its positive maximum at zero lag: the width
    lies in [i-1, i) where i is the first sample below 1/e of the maximum, at the
    point where the interpolated vector equals 1/e; without such a sample it is
    blank. *)
Theorem C27_width : forall y, y <> [] -> 0 < nth 0 y 0 -> (forall v, In v y -> v <= nth 0 y 0) ->
  (forall k, (1 <= k < length y)%nat -> nth k y 0 = nth (length y - k) y 0) ->
  let g i := nth i y 0 / nth 0 y 0 in
  ((forall i, (i < length y)%nat -> exp (-1) <= g i) /\ snd (walk_down y) = (NaN, NaN)) \/
  exists i w, (1 <= i < length y)%nat /\ g i < exp (-1) /\ (forall j, (j < i)%nat -> exp (-1) <= g j) /\
    snd (walk_down y) = (Fin w, Fin (1 / 2)) /\
    INR i - 1 <= w < INR i /\ g (i - 1)%nat + (w - (INR i - 1)) * (g i - g (i - 1)%nat) = exp (-1).
Proof. exact walk_down_width. Qed.
Print Assumptions C27_width.

(** C27 fails in that the caller's vector is modified... *)
Theorem C27_input_refuted : exists y, 0 < nth 0 y 0 /\ (forall v, In v y -> v <= nth 0 y 0) /\ fst (walk_down y) <> map Fin y.
Proof. exact walk_down_input_refuted. Qed.
Print Assumptions C27_input_refuted.

(** ...it is left divided by its maximum. *)
Theorem C27_input_partial : forall y, y <> [] -> 0 < nth 0 y 0 -> (forall v, In v y -> v <= nth 0 y 0) ->
  fst (walk_down y) = map (fun v => Fin (v / nth 0 y 0)) y.
Proof. exact walk_down_input. Qed.
Print Assumptions C27_input_partial.

Example C27_nonvacuous : snd (walk_down [1; 0; 0]) = (Fin (1 - exp (-1)), Fin (1 / 2)).
Proof. exact ex_walk_down. Qed.

(** C28 fails: a structure with no width at all is reported as larger than one of
    exactly the beam's contribution. *)
Theorem C28_refuted : exists beam cdelt y y', 0 < beam /\ 0 < cdelt /\ 0 <= y < y' /\
  exists r r', beam_corrected_scale true (Some beam) (Some cdelt) y y = Ok r /\
    beam_corrected_scale true (Some beam) (Some cdelt) y' y' = Ok r' /\ r' < r.
Proof. exact scale_not_monotone. Qed.
Print Assumptions C28_refuted.

(** C28, what holds: monotone above the beam contribution and zero at it. *)
Theorem C28_monotone_partial : forall beam cdelt y x y' x', let t := brunt_term2 beam cdelt in
  t <= y <= y' -> t <= x <= x' ->
  exists r r', beam_corrected_scale true (Some beam) (Some cdelt) y x = Ok r /\
    beam_corrected_scale true (Some beam) (Some cdelt) y' x' = Ok r' /\ r <= r'.
Proof. exact scale_monotone. Qed.
Print Assumptions C28_monotone_partial.

Theorem C28_zero_partial : forall beam cdelt,
  beam_corrected_scale true (Some beam) (Some cdelt) (brunt_term2 beam cdelt) (brunt_term2 beam cdelt) = Ok 0.
Proof. exact scale_zero. Qed.
Print Assumptions C28_zero_partial.

(** C28.  The contribution of the beam taken off both axes: sigma / (4 sqrt 2) pixels,
    where sigma is the width of the Gaussian with the beam's full width at half maximum. *)
Theorem C28_contribution_partial : forall fwhm cdelt sigma y x, 0 < fwhm -> cdelt <> 0 -> gaussian_of_fwhm fwhm sigma ->
  let t := sigma / (4 * sqrt 2 * Rabs cdelt) in
  beam_corrected_scale true (Some fwhm) (Some cdelt) y x = Ok (sqrt ((y - t) ^ 2 + (x - t) ^ 2)).
Proof. exact beam_contribution. Qed.
Print Assumptions C28_contribution_partial.

Theorem C28_needs_beam_partial : forall beam cdelt y x, beam = None \/ cdelt = None ->
  beam_corrected_scale true beam cdelt y x = Err ValueError.
Proof. exact scale_needs_beam. Qed.
Print Assumptions C28_needs_beam_partial.

Example C28_nonvacuous_gaussian : gaussian_of_fwhm (sqrt (8 * ln 2)) 1.
Proof. exact ex_gaussian. Qed.

Example C28_nonvacuous : forall beam cdelt, 0 < beam -> cdelt <> 0 -> 0 < brunt_term2 beam cdelt.
Proof. exact term2_pos. Qed.

(** C77.  The proportion of variance in the n components kept is in [0, 1], grows with
    n and is 1 for all of them. *)
Theorem C77_proportion : forall ms n eigs, (n <= length eigs)%nat -> (forall v, In v eigs -> 0 <= v) ->
  0 < lsum (compared ms (length eigs) eigs) ->
  exists r, snd (variance_summary ms (Z.of_nat n) eigs) = Fin r /\ 0 <= r <= 1 /\
    r = lsum (compared ms n eigs) / lsum (compared ms (length eigs) eigs) /\
    (n = length eigs -> r = 1) /\
    (forall m r', (m <= n)%nat -> snd (variance_summary ms (Z.of_nat m) eigs) = Fin r' -> r' <= r).
Proof. exact var_proportion_spec. Qed.
Print Assumptions C77_proportion.

Example C77_nonvacuous : spectrum_ok true 2 [3; 1; 0] /\ spectrum_ok true 2 [1; 1; 1] /\
  exists r, pca_distance true 2 [3; 1; 0] [1; 1; 1] = Ok (Fin r) /\ 0 < r.
Proof. exact ex_pca_distance. Qed.

(** C78 fails: n_eigs=-1 compares all but the last eigenvalue. *)
Theorem C78_refuted : exists e1 e2 r1 r2,
  pca_distance_run (Cube e1) (Cube e2) true (-1) = Ok (Fin r1) /\
  pca_distance_run (Cube e1) (Cube e2) true (Z.of_nat (length e1)) = Ok (Fin r2) /\ length e1 = length e2 /\ r1 <> r2.
Proof. exact pca_all_refuted. Qed.
Print Assumptions C78_refuted.

(** C78, what holds: with an explicit number up to that of the channels the leading
    components of both cubes are compared. *)
Theorem C78_explicit_partial : forall e1 e2 ms n, (1 <= n)%nat -> (n <= length e1)%nat -> (n <= length e2)%nat ->
  pca_distance_run (Cube e1) (Cube e2) ms (Z.of_nat n) = pca_distance ms (Z.of_nat n) e1 e2.
Proof. exact pca_run_cubes. Qed.
Print Assumptions C78_explicit_partial.

(** C79 fails: with as many components as channels precomputed objects are rejected,
    after their n_eigs has been overwritten. *)
Theorem C79_refuted : exists e s n r, (1 <= n <= length e)%nat /\
  pca_distance_run (Cube e) (Cube e) true (Z.of_nat n) = Ok (Fin r) /\
  pca_distance_run (Precomputed e s) (Precomputed e s) true (Z.of_nat n) = Err ValueError /\
  snd (pca_load (Precomputed e s) (Z.of_nat n)) <> Some s.
Proof. exact pca_precomputed_refuted. Qed.
Print Assumptions C79_refuted.

Theorem C79_fewer_partial : forall e1 e2 ms n s1 s2, (1 <= n)%nat -> (n < length e1)%nat -> (n < length e2)%nat ->
  pca_distance_run (Precomputed e1 s1) (Precomputed e2 s2) ms (Z.of_nat n) = pca_distance_run (Cube e1) (Cube e2) ms (Z.of_nat n) /\
  pca_distance_run (Cube e1) (Precomputed e2 s2) ms (Z.of_nat n) = pca_distance_run (Cube e1) (Cube e2) ms (Z.of_nat n) /\
  pca_distance_run (Precomputed e1 s1) (Cube e2) ms (Z.of_nat n) = pca_distance_run (Cube e1) (Cube e2) ms (Z.of_nat n).
Proof. exact pca_precomputed_same. Qed.
Print Assumptions C79_fewer_partial.

(** C80 fails: the autocorrelation of a single component always raises IndexError. *)
Theorem C80_refuted : forall nz ny nx data ms eps eigvals eigvecs, (1 <= nz)%nat -> (1 <= ny)%nat ->
  autocorr_images nz ny nx data ms eps eigvals eigvecs 1 = Err IndexError.
Proof. exact autocorr_single. Qed.
Print Assumptions C80_refuted.

(** C80, what holds: two or more. *)
Theorem C80_several_partial : forall nz ny nx data ms eps eigvals eigvecs n, available nz eps eigvals n ->
  exists l, autocorr_images nz ny nx data ms eps eigvals eigvecs n = Ok l /\ length l = Z.abs_nat n /\
  forall k, (k < length l)%nat -> length (nth k l []) = ny /\
    (forall y, (y < ny)%nat -> length (nth y (nth k l []) []) = nx) /\
    forall y x, (y < ny)%nat -> (x < nx)%nat ->
      at2 0 (nth k l []) y x =
      circular_acf ny nx (without_first (eigimage nz ny nx data ms (fun channel => eigvecs channel (nth k (wanted eps eigvals n) 0%nat))))
        (Z.of_nat y - Z.of_nat (ny / 2)) (Z.of_nat x - Z.of_nat (nx / 2)).
Proof. exact autocorr_wanted. Qed.
Print Assumptions C80_several_partial.

Example C80_nonvacuous : available 2 (1 / 2) [1; 1] (-2).
Proof. exact ex_available. Qed.

(** C81.  The covariance matrix is symmetric for any cube, blanks included. *)
Theorem C81_symmetric : forall eps big cube ms i j, (i < length cube)%nat -> (j < length cube)%nat ->
  at2 0 (var_cov_cube eps big cube ms) i j = at2 0 (var_cov_cube eps big cube ms) j i.
Proof. exact cov_symmetric. Qed.
Print Assumptions C81_symmetric.

(** C81.  Without blanks its entries are the sample covariances of the channels. *)
Theorem C81_formula : forall eps big cube ms n i j, channels_of n cube -> enough ms n ->
  (i < length cube)%nat -> (j < length cube)%nat ->
  at2 0 (var_cov_cube eps big (map (map Fin) cube) ms) i j = covariance ms (nth i cube []) (nth j cube []).
Proof. exact cov_value. Qed.
Print Assumptions C81_formula.

(** C81.  It is positive semi-definite. *)
Theorem C81_positive : forall eps big cube ms n, channels_of n cube -> enough ms n ->
  forall w, 0 <= rsum (length cube) (fun i => rsum (length cube) (fun j => w i * w j * at2 0 (var_cov_cube eps big (map (map Fin) cube) ms) i j)).
Proof. exact cov_psd. Qed.
Print Assumptions C81_positive.

(** C81.  Scaling the cube by c scales it by c^2. *)
Theorem C81_scaled : forall eps big cube ms n c i j, channels_of n cube -> enough ms n ->
  (i < length cube)%nat -> (j < length cube)%nat ->
  at2 0 (var_cov_cube eps big (map (map Fin) (map (map (Rmult c)) cube)) ms) i j =
  c * c * at2 0 (var_cov_cube eps big (map (map Fin) cube) ms) i j.
Proof. exact cov_scaled. Qed.
Print Assumptions C81_scaled.

Example C81_nonvacuous : channels_of 2 [[1; 2]; [3; 5]] /\ enough true 2 /\
  at2 0 (var_cov_cube (1 / 4) 9 (map (map Fin) [[1; 2]; [3; 5]]) true) 0 1 = 1.
Proof. exact ex_cov. Qed.

(** C82 fails: blank pixels count as values eps in the variances. *)
Theorem C82_refuted : forall eps big, 0 < eps < 1 -> exists cube i,
  (i < length cube)%nat /\ Forall (Forall blankable) cube /\
  at2 0 (var_cov_cube eps big cube false) i i <> valid_covariance (nth i cube []) (nth i cube []).
Proof. exact cov_blank_refuted. Qed.
Print Assumptions C82_refuted.

(** C82, what holds: a channel without blanks against an earlier one with blanks. *)
Theorem C82_earlier_partial : forall eps big cube i j a, (j < i < length cube)%nat -> nth i cube [] = map Fin a ->
  Forall blankable (nth j cube []) -> valid_pairs (nth i cube []) (nth j cube []) <> [] ->
  at2 0 (var_cov_cube eps big cube false) i j = valid_covariance (nth i cube []) (nth j cube []).
Proof. exact cov_blank_earlier. Qed.
Print Assumptions C82_earlier_partial.

Example C82_nonvacuous : at2 0 (var_cov_cube (1 / 4) 9 [[NaN; Fin 2]; [Fin 3; Fin 5]] false) 1 0 = 10.
Proof. exact ex_cov_blank. Qed.

(** C83 fails: moving the structure cyclically changes the autocorrelation image. *)
Theorem C83_refuted : exists n0 n1 img dy dx i j, (i < n0)%nat /\ (j < n1)%nat /\
  at2 0 (autocorr_image n0 n1 img) i j <>
  at2 0 (autocorr_image n0 n1 (fun y x => img (wrap n0 (Z.of_nat y + dy)) (wrap n1 (Z.of_nat x + dx)))) i j.
Proof. exact autocorr_position_refuted. Qed.
Print Assumptions C83_refuted.

(** C83, what holds: the image is the autocorrelation of the structure when its first
    pixel is zero. *)
Theorem C83_zero_first_partial : forall n0 n1 img i j, (i < n0)%nat -> (j < n1)%nat -> img 0%nat 0%nat = 0 ->
  at2 0 (autocorr_image n0 n1 img) i j = circular_acf n0 n1 img (Z.of_nat i - Z.of_nat (n0 / 2)) (Z.of_nat j - Z.of_nat (n1 / 2)).
Proof. exact autocorr_true. Qed.
Print Assumptions C83_zero_first_partial.

(** C84.  Each row of the 'intensity' matrix holds the brightest values of its channel
    above the noise limit in descending order, padded with zeros, over the cube's
    maximum. *)
Theorem C84_rows : forall cube L lim, Forall (Forall blankable) cube ->
  forall m, is_max m (fins (concat cube)) -> m <> 0 ->
  let r := intensity_data cube L lim true in
  length r = length cube /\
  forall dv, (dv < length cube)%nat -> exists s,
    Permutation s (above lim (fins (nth dv cube []))) /\ descending s /\
    nth dv r [] = map (fun v => Fin (v / m)) (firstn L s ++ repeat 0 (L - length s)).
Proof. exact intensity_data_spec. Qed.
Print Assumptions C84_rows.

(** C84.  A cube whose maximum is zero gives no rows. *)
Theorem C84_zero : forall cube L lim, Forall (Forall blankable) cube -> is_max 0 (fins (concat cube)) ->
  intensity_data cube L lim true = [].
Proof. exact intensity_all_zero. Qed.
Print Assumptions C84_zero.

(** C84.  Rearranging the pixels of a channel does not change its row. *)
Theorem C84_shuffle : forall L lim m chan chan', Permutation chan chan' ->
  intensity_row L lim m chan = intensity_row L lim m chan'.
Proof. exact intensity_row_shuffle. Qed.
Print Assumptions C84_shuffle.

Example C84_nonvacuous : Forall (Forall blankable) [[Fin 1; NaN; Fin 2]] /\ is_max 2 (fins (concat [[Fin 1; NaN; Fin 2]])) /\
  nth 0 (intensity_data [[Fin 1; NaN; Fin 2]] 3 None true) [] = [Fin (2 / 2); Fin (1 / 2); Fin (0 / 2)].
Proof. exact ex_intensity. Qed.

(** C85 fails: for maps that are not square the flat indices of the brightest spectra
    are unravelled wrongly, giving other spectra or an IndexError. *)
Theorem C85_refuted :
  (exists ny nx bright, (forall b, In b bright -> (b < ny * nx)%nat) /\
     format_spectra ny nx (fun y x => (y, x)) bright = Err IndexError) /\
  (exists ny nx b r, (b < ny * nx)%nat /\ format_spectra ny nx (fun y x => (y, x)) [b] = Ok r /\ r <> [((b / nx)%nat, (b mod nx)%nat)]).
Proof. exact format_spectra_refuted. Qed.
Print Assumptions C85_refuted.

(** C85, what holds: square maps. *)
Theorem C85_square_partial : forall A n (spectrum : nat -> nat -> A) bright, (0 < n)%nat ->
  (forall b, In b bright -> (b < n * n)%nat) ->
  format_spectra n n spectrum bright = Ok (map (fun b => spectrum (b / n)%nat (b mod n)%nat) bright).
Proof. exact @format_spectra_square. Qed.
Print Assumptions C85_square_partial.

Example C85_nonvacuous : format_spectra 2 2 (fun y x => (y, x)) [3%nat; 0%nat] = Ok [(1%nat, 1%nat); (0%nat, 0%nat)].
Proof. reflexivity. Qed.

(** ** C214-C216: eigenimages *)

(** C214 fails: two or more eigenimages come with their axes swapped, so that an image
    of a square map does not have the value of pixel (y, x) at (y, x). *)
Theorem C214_refuted : exists nz ny nx data ms eps eigvals eigvecs l y x,
  blankable_cube nz ny nx data /\ available nz eps eigvals 2 /\ ny = nx /\ (y < ny)%nat /\ (x < nx)%nat /\
  eigimages nz ny nx data ms eps eigvals eigvecs 2 = Ok (Stack l) /\
  nth 0 l (fun _ _ => 0) y x <> projection nz ny nx data ms (fun c => eigvecs c 0%nat) y x.
Proof. exact eigimages_axes_refuted. Qed.
Print Assumptions C214_refuted.

(** C214, what holds: the k-th image has at [x, y] the projection of the spectrum of the
    pixel (y, x) on the k-th eigenvector asked for. *)
Theorem C214_swapped_partial : forall nz ny nx data ms eps eigvals eigvecs n, blankable_cube nz ny nx data -> available nz eps eigvals n ->
  exists l, eigimages nz ny nx data ms eps eigvals eigvecs n = Ok (Stack l) /\ length l = Z.abs_nat n /\
  forall k y x, (k < length l)%nat -> (y < ny)%nat -> (x < nx)%nat ->
    nth k l (fun _ _ => 0) x y = projection nz ny nx data ms (fun c => eigvecs c (nth k (wanted eps eigvals n) 0%nat)) y x.
Proof. exact eigimages_wanted. Qed.
Print Assumptions C214_swapped_partial.

(** C214, a single image is the projection on the first eigenvector. *)
Theorem C214_single_partial : forall nz ny nx data ms eps eigvals eigvecs, blankable_cube nz ny nx data -> (1 <= nz)%nat ->
  exists img, eigimages nz ny nx data ms eps eigvals eigvecs 1 = Ok (Single img) /\
  forall y x, (y < ny)%nat -> (x < nx)%nat -> img y x = projection nz ny nx data ms (fun c => eigvecs c 0%nat) y x.
Proof. exact eigimages_one. Qed.
Print Assumptions C214_single_partial.

Example C214_nonvacuous : blankable_cube 2 2 2 axes_data /\ available 2 (1 / 2) [1; 1] 2.
Proof. split; [exact axes_blankable|exact axes_available]. Qed.

(** C215.  For a cube without blanks and an eigenvector w of its covariance matrix with
    eigenvalue mu: the product of the image of w with the image of any v, summed over the
    map, is mu <v, w> times the divisor of the covariances.  So the sum of squares of an
    eigenimage is its eigenvalue times the divisor, and images of orthogonal eigenvectors
    are uncorrelated. *)
Theorem C215_variance : forall nz ny nx d ms eps big v w mu, enough ms (ny * nx) ->
  eigenvector nz (at2 0 (var_cov_cube eps big (map (map Fin) (channels nz ny nx d)) ms)) w mu ->
  pixel_sum ny nx (fun y x => eigimage nz ny nx (full d) ms v y x * eigimage nz ny nx (full d) ms w y x) =
  mu * degrees ny nx ms * dot nz v w.
Proof. exact eigimage_eigen. Qed.
Print Assumptions C215_variance.

(** C215.  With the means subtracted an image sums to zero. *)
Theorem C215_zero_mean : forall nz ny nx d v, (1 <= ny * nx)%nat ->
  pixel_sum ny nx (eigimage nz ny nx (full d) true v) = 0.
Proof. exact eigimage_sum_zero. Qed.
Print Assumptions C215_zero_mean.

Example C215_nonvacuous : enough false (1 * 2) /\ eigenvector 2 (at2 0 (var_cov_cube (1 / 4) 9 (map (map Fin) (channels 2 1 2 ex_cube2)) false)) (fun c => ex_basis c 1) 2 /\
  eigenvector 2 (at2 0 (var_cov_cube (1 / 4) 9 (map (map Fin) (channels 2 1 2 ex_cube2)) false)) (fun c => ex_basis c 0) (1 / 2).
Proof. exact ex_eigen. Qed.

(** C216.  The eigenimages of all components give the cube back: weighted with the
    eigenvectors they sum to the values less the channel means. *)
Theorem C216_reconstruction : forall nz ny nx d ms V c y x, orthonormal nz V -> (c < nz)%nat -> (y < ny)%nat -> (x < nx)%nat ->
  rsum nz (fun k => V c k * eigimage nz ny nx (full d) ms (fun j => V j k) y x) = deviation ny nx d ms c y x.
Proof. exact eigimage_reconstruction. Qed.
Print Assumptions C216_reconstruction.

(** C216.  The eigenvalues sum to the variances of the channels. *)
Theorem C216_total : forall nz ny nx d ms V eps big lam, let M := at2 0 (var_cov_cube eps big (map (map Fin) (channels nz ny nx d)) ms) in
  enough ms (ny * nx) -> orthonormal nz V -> (forall k, (k < nz)%nat -> eigenvector nz M (fun j => V j k) (lam k)) ->
  rsum nz lam = rsum nz (fun c => covariance ms (flat ny nx (d c)) (flat ny nx (d c))).
Proof. exact total_of_variances. Qed.
Print Assumptions C216_total.

Example C216_nonvacuous : orthonormal 2 ex_basis.
Proof. exact ex_orthonormal. Qed.
