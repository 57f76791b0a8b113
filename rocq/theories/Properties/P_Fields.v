(** Properties of apodizing windows, the elliptical power-law fit and synthetic fields. *)
From Coq Require Import Reals String List ZArith Arith Bool Permutation.
From Coquelicot Require Import Coquelicot.
From Coq Require Import List.
From Verif Require Import Lib.PyBase Lib.RSum Lib.Fl Lib.DFT Lib.DFT2 Lib.DFT3
  Spec.Freq Spec.Taper Spec.EllipFit Spec.Fields Model.Psds Model.Apodize Model.EllipPlaw Model.GenField
  Proofs.Apodize_Proofs Proofs.EllipPlaw_Proofs Proofs.EllipFit_Proofs Proofs.GenField_Proofs Proofs.GenField3_Proofs Proofs.FieldsEx_Proofs Proofs.GenField4_Proofs Proofs.Tighten_Proofs.
Import ListNotations.
Local Open Scope R_scope.

(** C51.  Every value of every window is in [0, 1]. *)
Theorem C51_range : forall w n0 n1 i j, 0 <= window_at w n0 n1 i j <= 1.
Proof. exact window_range. Qed.
Print Assumptions C51_range.
(** C51.  It depends only on the distance from the centre, and does not increase outwards. *)
Theorem C51_radial : forall w n0 n1 i j i' j',
  (centre_dist n0 n1 i j = centre_dist n0 n1 i' j' -> window_at w n0 n1 i j = window_at w n0 n1 i' j') /\
  (centre_dist n0 n1 i j <= centre_dist n0 n1 i' j' -> window_at w n0 n1 i' j' <= window_at w n0 n1 i j).
Proof. exact (fun w n0 n1 i j i' j' => conj (window_radial w n0 n1 i j i' j') (window_mono w n0 n1 i j i' j')). Qed.
Print Assumptions C51_radial.
(** C51.  It is 1 in the untapered interior, 0 outside the taper, and a cosine bell over the
    whole number of pixels of the taper. *)
Theorem C51_profile : forall w n0 n1 i j,
  ((0 < n0)%nat -> (0 < n1)%nat -> 0 <= alpha w -> centre_dist n0 n1 i j < beta w * half_width n0 n1 -> window_at w n0 n1 i j = 1) /\
  ((beta w + alpha w) * half_width n0 n1 < centre_dist n0 n1 i j -> window_at w n0 n1 i j = 0) /\
  (forall m, IZR m <= alpha w * half_width n0 n1 < IZR m + 1 -> (1 <= m)%Z ->
    beta w * half_width n0 n1 <= centre_dist n0 n1 i j <= beta w * half_width n0 n1 + IZR m ->
    window_at w n0 n1 i j = (1 + cos (PI * (centre_dist n0 n1 i j - beta w * half_width n0 n1) / IZR m)) / 2).
Proof. exact (fun w n0 n1 i j => conj (window_inside w n0 n1 i j) (conj (window_outside w n0 n1 i j) (window_middle w n0 n1 i j))). Qed.
Print Assumptions C51_profile.
Example C51_nonvacuous : window_at (Tukey (1 / 2)) 9 9 4 4 = 1 /\ window_at (Tukey (1 / 2)) 9 9 0 4 = 0 /\ window_at (Tukey (1 / 2)) 9 9 0 0 = 0.
Proof. exact ex_window. Qed.

(** C52.  Half a turn of the axes and the opposite point change nothing. *)
Theorem C52_symmetries : forall x y A e theta gamma,
  evaluate x y A e (theta + PI) gamma = evaluate x y A e theta gamma /\
  evaluate (- x) (- y) A e theta gamma = evaluate x y A e theta gamma.
Proof. exact (fun x y A e t g => conj (evaluate_period x y A e t g) (evaluate_parity x y A e t g)). Qed.
Print Assumptions C52_symmetries.
(** C52.  With ellipticity 1 (an infinite transformed value) it is the isotropic power law. *)
Theorem C52_isotropic : forall x y A theta gamma, x <> 0 \/ y <> 0 ->
  ellip_of PInf = Fin 1 /\ evaluate x y A PInf theta gamma = Fin (A + gamma * log10 (sqrt (x ^ 2 + y ^ 2))).
Proof. exact (fun x y A t g H => conj ellip_of_PInf (evaluate_isotropic x y A t g H)). Qed.
Print Assumptions C52_isotropic.
(** C52.  Away from the origin its argument is positive and the value is finite; at the origin it is 0. *)
Theorem C52_domain : forall A theta gamma,
  (forall x y t, x <> 0 \/ y <> 0 -> 0 < form (q_of t) theta x y /\
    evaluate x y A (Fin t) theta gamma = Fin (A + 1 / 2 * gamma * log10 (form (q_of t) theta x y))) /\
  (forall e, evaluate 0 0 A e theta gamma = Fin 0).
Proof. exact (fun A th g => conj (fun x y t H => conj (form_pos (q_of t) th x y (proj1 (q_range t)) H) (evaluate_away x y A t th g H)) (fun e => evaluate_origin A e th g)). Qed.
Print Assumptions C52_domain.
Example C52_nonvacuous : evaluate 3 4 1 PInf 0 (-2) = Fin (1 + (-2) * log10 5) /\ form (1 / 2) 0 2 3 = 10.
Proof. exact (conj ex_evaluate (proj1 ex_form)). Qed.

(** C53.  The two transforms are inverse to each other. *)
Theorem C53_inverse : forall a b, a < b ->
  (forall x, a < x < b -> inverse_interval_transform (interval_transform x a b) a b = x) /\
  (forall t, a < inverse_interval_transform t a b < b /\ interval_transform (inverse_interval_transform t a b) a b = t).
Proof. exact (fun a b H => conj (fun x => transform_inverse a b x) (fun t => conj (inverse_range a b t H) (inverse_transform a b t H))). Qed.
Print Assumptions C53_inverse.
(** C53.  Both are increasing. *)
Theorem C53_increasing : forall a b, a < b ->
  (forall x y, a < x -> x < y -> y < b -> interval_transform x a b < interval_transform y a b) /\
  (forall s t, s < t -> inverse_interval_transform s a b < inverse_interval_transform t a b).
Proof. exact (fun a b H => conj (fun x y => transform_increasing a b x y) (fun s t => inverse_increasing a b s t H)). Qed.
Print Assumptions C53_increasing.
(** C53.  The standard errors are multiplied by the absolute value of the derivative. *)
Theorem C53_stderr : forall a b,
  (forall x dx d, a < x < b -> is_derive (fun x => interval_transform x a b) x d -> interval_transform_stderr dx x a b = Rabs d * dx) /\
  (forall x, a < x < b -> exists d, is_derive (fun x => interval_transform x a b) x d) /\
  (forall t dt d, is_derive (fun t => inverse_interval_transform t a b) t d -> inverse_interval_transform_stderr dt t a b = Rabs d * dt) /\
  (forall t, exists d, is_derive (fun t => inverse_interval_transform t a b) t d).
Proof.
  exact (fun a b => conj (fun x dx d => transform_stderr a b x dx d) (conj (fun x H => ex_intro _ _ (transform_derive a b x H))
    (conj (fun t dt d => inverse_stderr a b t dt d) (fun t => ex_intro _ _ (inverse_derive a b t))))).
Qed.
Print Assumptions C53_stderr.
Example C53_nonvacuous : 0 < 1 / 4 < 1 /\ interval_transform (1 / 4) 0 1 = - ln 3 /\ inverse_interval_transform 0 2 6 = 4.
Proof. exact ex_interval. Qed.

(** C54.  The frequency radius of make_extended is the elliptical radius of the fitted model:
    the model with index -powerlaw is the log of the generated power up to a constant. *)
Theorem C54_same_form : forall A p th e y x, x <> 0 \/ y <> 0 ->
  (0 < e <= 1 -> rr_of e th y x = sqrt (form e th x y)) /\
  (0 < e < 1 -> evaluate x y A (Fin (interval_transform e 0 1)) th (- p) = Fin (A + log10 (Rpower (rr_of e th y x) (- p)))) /\
  evaluate x y A PInf th (- p) = Fin (A + log10 (Rpower (rr_of 1 th y x) (- p))).
Proof. exact (fun A p th e y x H => conj (rr_form e th y x) (conj (fun He => model_of_radius A p th e y x He H) (model_of_radius_circle A p th y x H))). Qed.
Print Assumptions C54_same_form.
Example C54_nonvacuous : form (1 / 2) 0 2 3 = 10 /\ 0 < 1 / 2 < 1.
Proof. exact ex_form. Qed.

(** C55.  The full Fourier map that is returned, with the zero frequency at the centre, is
    Hermitian, for even and odd sizes and all angles. *)
Theorem C55_hermitian : forall N p th e ang, (1 <= N)%nat -> 0 < e <= 1 -> exists F,
  extended_fft N p th e ang = Ok F /\ has_shape2 N N F /\
  hermitian2 N (fun ky kx => at2 (RtoC 0) F (centred N ky) (centred N kx)).
Proof. exact extended_fft_hermitian. Qed.
Print Assumptions C55_hermitian.
(** C55.  For even sizes the image is its inverse Fourier transform: nothing is lost. *)
Theorem C55_image : forall N p th e ang, (1 <= N)%nat -> Nat.even N = true -> 0 < e <= 1 -> exists img F,
  make_extended N p th e ang = Ok img /\ extended_fft N p th e ang = Ok F /\
  forall ky kx, (ky < N)%nat -> (kx < N)%nat ->
    dft2 N N (fun y x => RtoC (at2 0 img y x)) ky kx = at2 (RtoC 0) F (centred N ky) (centred N kx).
Proof. exact image_fft. Qed.
Print Assumptions C55_image.
Example C55_nonvacuous : exists img, make_extended 4 3 (1 / 2) (1 / 2) ex_angles = Ok img /\ Cmod (mean_sq 4 ex_angles) <> 0 /\
  is_freq 4 1 (1 / 4) /\ is_freq 4 3 (- (1 / 4)).
Proof. exact ex_image. Qed.

(** C56, refuted: an odd size gives one column (one plane) less than asked. *)
Theorem C56_size_refuted :
  ~ (forall N p th e ang, (1 <= N)%nat -> 0 < e <= 1 -> exists img, make_extended N p th e ang = Ok img /\ has_shape2 N N img) /\
  ~ (forall N p amp ang, (2 <= N)%nat -> exists cube, make_3dfield N p amp ang = Ok cube /\ has_shape3 N N N cube).
Proof. exact (conj odd_size_refuted odd_cube_refuted). Qed.
Print Assumptions C56_size_refuted.
(** C56, every odd size: N - 1. *)
Theorem C56_odd_partial : forall N p th e amp ang2 ang3, (3 <= N)%nat -> Nat.odd N = true -> 0 < e <= 1 ->
  (exists img, make_extended N p th e ang2 = Ok img /\ has_shape2 N (N - 1) img) /\
  (exists cube, make_3dfield N p amp ang3 = Ok cube /\ has_shape3 N N (N - 1) cube).
Proof. exact odd_sizes. Qed.
Print Assumptions C56_odd_partial.
(** C56, even sizes: the image and the cube have the requested size and the root mean square of
    the cube is |amp|. *)
Theorem C56_even_partial : forall N p th e amp ang2 ang3, (4 <= N)%nat -> Nat.even N = true -> 0 < e <= 1 -> amp <> 0 ->
  (exists img, make_extended N p th e ang2 = Ok img /\ has_shape2 N N img) /\
  exists cube, make_3dfield N p amp ang3 = Ok cube /\ has_shape3 N N N cube /\
  exists v : nat -> nat -> nat -> R,
    (forall i j k, (i < N)%nat -> (j < N)%nat -> (k < N)%nat -> nth k (nth j (nth i cube []) []) NaN = Fin (v i j k)) /\
    rms3 N N N v = Rabs amp.
Proof. exact even_sizes. Qed.
Print Assumptions C56_even_partial.
Example C56_nonvacuous : (4 <= 6)%nat /\ Nat.even 6 = true /\ 3 <> 0 /\ rms3 1 1 2 (fun _ _ k => if Nat.eqb k 0 then 3 else -3) = 3.
Proof. exact ex_cube. Qed.

(** C106, refuted: without the bootstrap, the errors that come with the fit are not those of the
    covariance the solver found with these parameters. *)
Theorem C106_errors_refuted : ~ (forall (solve : solver) vals xs ys p0 alpha r cov,
  fit_elliptical_powerlaw solve [] (map Fin vals) xs ys p0 true false alpha false false = Ok r ->
  (solve p0 false vals None = (r_params r, Some cov) \/ solve (flip_p0 p0) false vals None = (r_params r, Some cov)) ->
  errors_of cov (r_stderrs r)).
Proof. exact errors_refuted. Qed.
Print Assumptions C106_errors_refuted.
(** C106.  What they are: NaN when the second start wins, the errors of the second fit when the
    first start wins. *)
Theorem C106_errors_partial : forall solve perms vals xs ys p0 alpha rw r,
  fit_elliptical_powerlaw solve perms (map Fin vals) xs ys p0 true false alpha rw false = Ok r ->
  (r_params r = fst (solve (flip_p0 p0) false vals (weights_of rw xs ys)) /\ r_stderrs r = [NaN; NaN; NaN; NaN]) \/
  (r_params r = fst (solve p0 false vals (weights_of rw xs ys)) /\
   forall cov, snd (solve (flip_p0 p0) false vals (weights_of rw xs ys)) = Some cov -> errors_of cov (r_stderrs r)).
Proof. exact errors_are. Qed.
Print Assumptions C106_errors_partial.
(** C106.  With the ellipticity fixed there is one fit, and the errors are its own. *)
Theorem C106_fixed_partial : forall solve perms vals xs ys p0 alpha rw r cov,
  fit_elliptical_powerlaw solve perms (map Fin vals) xs ys p0 true false alpha rw true = Ok r ->
  snd (solve (mkParams (p_amp p0) PInf (p_theta p0) (p_gamma p0)) true vals (weights_of rw xs ys)) = Some cov ->
  errors_of cov (r_stderrs r).
Proof. exact fit_fixed_errors. Qed.
Print Assumptions C106_fixed_partial.
(** C106.  The errors stored with the slope and the angle are those of these parameters. *)
Theorem C106_stored_partial : forall r s, store_2D r = Ok s -> nth_error (r_stderrs r) 3 = Some (slope2D_err s) /\ nth_error (r_stderrs r) 2 = Some (theta2D_err s) /\
  forall cov, errors_of cov (r_stderrs r) ->
    slope2D_err s = Fin (sqrt (Rabs (nth 3 (nth 3 cov []) 0))) /\ theta2D_err s = Fin (sqrt (Rabs (nth 2 (nth 2 cov []) 0))).
Proof. exact store_errs. Qed.
Print Assumptions C106_stored_partial.
Example C106_nonvacuous : exists r, fit_elliptical_powerlaw solve_first [] [Fin 0] [1] [0] (mkParams 0 (Fin 0) 0 0) true false (6827 / 10000) false false = Ok r /\
  solve_first (mkParams 0 (Fin 0) 0 0) false [0] None = (r_params r, Some (ex_cov 1)) /\
  ~ errors_of (ex_cov 1) (r_stderrs r) /\ errors_of (ex_cov 4) (r_stderrs r).
Proof. exact errors_swapped. Qed.

(** C107, refuted: with a fixed ellipticity and no bootstrap, storing the fit fails. *)
Theorem C107_fixed_refuted : ~ (forall (solve : solver) vals xs ys p0 alpha rw r cov,
  fit_elliptical_powerlaw solve [] (map Fin vals) xs ys p0 true false alpha rw true = Ok r ->
  snd (solve (mkParams (p_amp p0) PInf (p_theta p0) (p_gamma p0)) true vals (weights_of rw xs ys)) = Some cov -> length cov = 2%nat ->
  exists s, store_2D r = Ok s).
Proof. exact fixed_unusable. Qed.
Print Assumptions C107_fixed_refuted.
(** C107.  It is an IndexError for every solver that reports the covariance of the two free parameters. *)
Theorem C107_index_error_partial : forall solve perms vals xs ys p0 alpha rw r cov,
  fit_elliptical_powerlaw solve perms (map Fin vals) xs ys p0 true false alpha rw true = Ok r ->
  snd (solve (mkParams (p_amp p0) PInf (p_theta p0) (p_gamma p0)) true vals (weights_of rw xs ys)) = Some cov ->
  length cov = 2%nat -> store_2D r = Err IndexError.
Proof. exact fit_fixed_index_error. Qed.
Print Assumptions C107_index_error_partial.
(** C107.  With the bootstrap the ellipticity is 1 and its error is NaN. *)
Theorem C107_bootstrap_partial : forall (solve : solver) perms vals xs ys p0 alpha rw r,
  (forall p v w, p_ell p = PInf -> p_ell (fst (solve p true v w)) = PInf) -> perms <> [] ->
  fit_elliptical_powerlaw solve perms (map Fin vals) xs ys p0 true true alpha rw true = Ok r ->
  exists s, store_2D r = Ok s /\ ellip2D s = Fin 1 /\ ellip2D_err s = NaN.
Proof. exact store_fixed. Qed.
Print Assumptions C107_bootstrap_partial.
Example C107_nonvacuous : exists r, fit_elliptical_powerlaw solve_fixed [[0%nat]] [Fin 0] [1] [0] (mkParams 0 (Fin 0) 0 0) true false (6827 / 10000) false true = Ok r /\
  errors_of [[4; 0]; [0; 9]] (r_stderrs r) /\ store_2D r = Err IndexError.
Proof. exact ex_fit_fixed. Qed.

(** C108.  The power of a generated image of even size at every frequency off the Nyquist lines is
    an exact elliptical power law. *)
Theorem C108_power : forall N p th e ang img ky kx fy fx, Nat.even N = true -> (1 <= N)%nat -> 0 < e <= 1 -> Cmod (mean_sq N ang) <> 0 ->
  make_extended N p th e ang = Ok img -> (ky < N)%nat -> (kx < N)%nat -> ky <> 0%nat \/ kx <> 0%nat ->
  is_freq N ky fy -> is_freq N kx fx -> fy <> - (1 / 2) -> fx <> - (1 / 2) ->
  Cnorm2 (dft2 N N (fun y x => RtoC (at2 0 img y x)) ky kx) = Rpower (sqrt (form e th fx fy)) (- p) / Cmod (mean_sq N ang).
Proof. exact image_power. Qed.
Print Assumptions C108_power.
(** C108.  The log of that power is the surface that fit_elliptical_powerlaw fits, with the
    parameters the image was made with. *)
Theorem C108_model : forall N p th e ang img ky kx fy fx, Nat.even N = true -> (1 <= N)%nat -> 0 < e < 1 -> Cmod (mean_sq N ang) <> 0 ->
  make_extended N p th e ang = Ok img -> (ky < N)%nat -> (kx < N)%nat -> ky <> 0%nat \/ kx <> 0%nat ->
  is_freq N ky fy -> is_freq N kx fx -> fy <> - (1 / 2) -> fx <> - (1 / 2) ->
  evaluate fx fy (- log10 (Cmod (mean_sq N ang))) (Fin (interval_transform e 0 1)) th (- p) =
  Fin (log10 (Cnorm2 (dft2 N N (fun y x => RtoC (at2 0 img y x)) ky kx))).
Proof. exact image_matches_model. Qed.
Print Assumptions C108_model.
Example C108_nonvacuous : exists img, make_extended 4 3 (1 / 2) (1 / 2) ex_angles = Ok img /\ Cmod (mean_sq 4 ex_angles) <> 0 /\
  is_freq 4 1 (1 / 4) /\ is_freq 4 3 (- (1 / 4)).
Proof. exact ex_image. Qed.

(** C109, refuted: the power is not k^-powerlaw. *)
Theorem C109_unit_refuted : ~ (forall N p ang img ky kx fy fx, Nat.even N = true -> (4 <= N)%nat ->
  make_extended N p 0 1 ang = Ok img -> (ky < N)%nat -> (kx < N)%nat -> ky <> 0%nat \/ kx <> 0%nat ->
  is_freq N ky fy -> is_freq N kx fx -> fy <> - (1 / 2) -> fx <> - (1 / 2) ->
  Cnorm2 (dft2 N N (fun y x => RtoC (at2 0 img y x)) ky kx) = Rpower (sqrt (fx ^ 2 + fy ^ 2)) (- p)).
Proof. exact unit_amplitude_refuted. Qed.
Print Assumptions C109_unit_refuted.
(** C109.  It is too large by the same factor, at least 1, everywhere. *)
Theorem C109_factor_partial : forall N p ang img ky kx fy fx, Nat.even N = true -> (1 <= N)%nat -> Cmod (mean_sq N ang) <> 0 ->
  make_extended N p 0 1 ang = Ok img -> (ky < N)%nat -> (kx < N)%nat -> ky <> 0%nat \/ kx <> 0%nat ->
  is_freq N ky fy -> is_freq N kx fx -> fy <> - (1 / 2) -> fx <> - (1 / 2) ->
  1 <= / Cmod (mean_sq N ang) /\
  Cnorm2 (dft2 N N (fun y x => RtoC (at2 0 img y x)) ky kx) = / Cmod (mean_sq N ang) * Rpower (sqrt (fx ^ 2 + fy ^ 2)) (- p).
Proof. exact unit_factor. Qed.
Print Assumptions C109_factor_partial.
Example C109_nonvacuous : mean_sq 4 ex_angles = RtoC (1 / 2).
Proof. exact ex_mean. Qed.

(** C110.  The kernel has the shape of the image or of a channel of the cube, for the four known
    names; any other name is a ValueError. *)
Theorem C110_total : forall data centroid kt a b sh n0 n1,
  (data = Some sh \/ (data = None /\ centroid = Some sh)) -> (sh = [n0; n1] \/ exists nv, sh = [nv; n0; n1]) ->
  (In kt ["splitcosinebell"; "hanning"; "tukey"; "cosinebell"]%string -> exists K, apodizing_kernel data centroid kt a b = Ok K /\ has_shape2 n0 n1 K) /\
  (~ In kt ["splitcosinebell"; "hanning"; "tukey"; "cosinebell"]%string -> apodizing_kernel data centroid kt a b = Err ValueError).
Proof. exact kernel_total. Qed.
Print Assumptions C110_total.
(** C110.  Each name gives its window, with the parameters it takes. *)
Theorem C110_names : forall data centroid kt a b sh n0 n1 K i j,
  (data = Some sh \/ (data = None /\ centroid = Some sh)) -> (sh = [n0; n1] \/ exists nv, sh = [nv; n0; n1]) ->
  apodizing_kernel data centroid kt a b = Ok K -> (i < n0)%nat -> (j < n1)%nat ->
  (kt = "splitcosinebell"%string /\ at2 0 K i j = window_at (SplitCosineBell a b) n0 n1 i j) \/
  (kt = "hanning"%string /\ at2 0 K i j = window_at Hanning n0 n1 i j) \/
  (kt = "tukey"%string /\ at2 0 K i j = window_at (Tukey a) n0 n1 i j) \/
  (kt = "cosinebell"%string /\ at2 0 K i j = window_at (CosineBell a) n0 n1 i j).
Proof. exact kernel_names. Qed.
Print Assumptions C110_names.
Example C110_nonvacuous : exists K, apodizing_kernel (Some [5; 9; 9]%nat) None "tukey" (1 / 2) 0 = Ok K /\ at2 0 K 0 4 = 0 /\ at2 0 K 4 4 = 1.
Proof. exact ex_kernel. Qed.

(** C111.  The stored angle is in [0, pi) and equal to the fitted one modulo pi; the slope is the fitted one. *)
Theorem C111_theta : forall r s, store_2D r = Ok s ->
  0 <= theta2D s < PI /\ (exists k : Z, theta2D s = p_theta (r_params r) + IZR k * PI) /\ slope2D s = p_gamma (r_params r).
Proof. exact store_theta. Qed.
Print Assumptions C111_theta.
(** C111.  The stored ellipticity is in (0, 1) and its log-odds are the fitted parameter; its error
    is the fitted error carried through the derivative. *)
Theorem C111_ellip : forall r s t, store_2D r = Ok s -> p_ell (r_params r) = Fin t ->
  (exists q, ellip2D s = Fin q /\ 0 < q < 1 /\ interval_transform q 0 1 = t) /\
  (forall e d, nth_error (r_stderrs r) 1 = Some (Fin e) -> is_derive (fun t => inverse_interval_transform t 0 1) t d ->
    ellip2D_err s = Fin (Rabs d * e)).
Proof. exact store_ellip_both. Qed.
Print Assumptions C111_ellip.
Example C111_nonvacuous : exists r s, fit_elliptical_powerlaw solve_flip [[0%nat]] [Fin 0] [1] [0] (mkParams 0 (Fin 0) 0 0) true true (6827 / 10000) false false = Ok r /\
  r_params r = mkParams 0 (Fin 0) 1 0 /\ store_2D r = Ok s /\ ellip2D s = Fin (1 / 2).
Proof. exact ex_fit_flip. Qed.

(** C112.  Of the fits from the two starting angles, the one with the smaller sum of absolute
    residuals is returned. *)
Theorem C112_lowest : forall solve perms vals xs ys p0 bootstrap alpha rw, exists r,
  fit_elliptical_powerlaw solve perms (map Fin vals) xs ys p0 true bootstrap alpha rw false = Ok r /\
  (r_params r = fst (solve p0 false vals (weights_of rw xs ys)) \/ r_params r = fst (solve (flip_p0 p0) false vals (weights_of rw xs ys))) /\
  misfit (surface (r_params r)) xs ys vals <= misfit (surface (fst (solve p0 false vals (weights_of rw xs ys)))) xs ys vals /\
  misfit (surface (r_params r)) xs ys vals <= misfit (surface (fst (solve (flip_p0 p0) false vals (weights_of rw xs ys)))) xs ys vals.
Proof. exact fit_lowest_ok. Qed.
Print Assumptions C112_lowest.
(** C112.  Non-finite values and other methods are refused. *)
Theorem C112_refuses : forall solve perms fvals xs ys p0 levmarq bootstrap alpha rw fx,
  (~ (forall v, In v fvals -> is_fin v = true)) \/ levmarq = false ->
  fit_elliptical_powerlaw solve perms fvals xs ys p0 levmarq bootstrap alpha rw fx = Err ValueError.
Proof. exact fit_refuses. Qed.
Print Assumptions C112_refuses.
Example C112_nonvacuous : ~ (forall v, In v [Fin 1; NaN] -> is_fin v = true).
Proof. exact ex_refuses. Qed.

(** C113, refuted: the resampled data are not the fitted model plus reordered residuals. *)
Theorem C113_bootstrap_refuted : ~ (forall values model perm, length model = length values -> Permutation perm (seq 0 (length values)) ->
  residual_bootstrap values model (resample values model perm) perm).
Proof. exact bootstrap_around_data. Qed.
Print Assumptions C113_bootstrap_refuted.
(** C113.  They are the data plus reordered residuals. *)
Theorem C113_resample_partial : forall values model perm i, length model = length values -> Permutation perm (seq 0 (length values)) -> (i < length values)%nat ->
  nth i (resample values model perm) 0 = nth i values 0 + (nth (nth i perm 0%nat) values 0 - nth (nth i perm 0%nat) model 0).
Proof. exact resample_nth. Qed.
Print Assumptions C113_resample_partial.
(** C113.  The four errors that the bootstrap gives are not negative. *)
Theorem C113_nonneg_partial : forall solve perms vals xs ys p0 alpha rw fx r e, 0 <= alpha <= 1 -> perms <> [] ->
  fit_elliptical_powerlaw solve perms (map Fin vals) xs ys p0 true true alpha rw fx = Ok r ->
  length (r_stderrs r) = 4%nat /\ (In (Fin e) (r_stderrs r) -> 0 <= e).
Proof. exact boot_errors_nonneg. Qed.
Print Assumptions C113_nonneg_partial.
Example C113_nonvacuous : Permutation [1; 0]%nat (seq 0 2) /\ resample [5; 7] [4; 4] [1; 0]%nat = [5 + (7 - 4); 7 + (5 - 4)].
Proof. exact ex_resample. Qed.

(** C114, refuted: a Tukey window with a thin taper does not vanish at the edge of the image. *)
Theorem C114_edge_refuted : ~ (forall a n i j, (3 <= n)%nat -> 0 <= a <= 1 -> half_width n n <= centre_dist n n i j -> window_at (Tukey a) n n i j = 0).
Proof. exact ex_tukey_thin. Qed.
Print Assumptions C114_edge_refuted.
(** C114.  It does when the taper has at least one pixel; the Hanning window does on images of at
    least 3 x 3. *)
Theorem C114_edge_partial : forall a n0 n1 i j, half_width n0 n1 <= centre_dist n0 n1 i j ->
  (1 <= a * half_width n0 n1 -> window_at (Tukey a) n0 n1 i j = 0) /\
  (1 <= half_width n0 n1 -> window_at Hanning n0 n1 i j = 0).
Proof. exact (fun a n0 n1 i j H => conj (fun G => tukey_edge a n0 n1 i j G H) (fun G => hanning_edge n0 n1 i j G H)). Qed.
Print Assumptions C114_edge_partial.
Example C114_nonvacuous : 1 <= 1 / 2 * half_width 9 9 /\ half_width 9 9 <= centre_dist 9 9 0 4 /\ 1 <= half_width 9 9.
Proof. exact ex_edge_hyps. Qed.

(** C115, refuted: what make_3dfield returns with return_fft never has the size of the full map. *)
Theorem C115_fft_refuted : forall N cube, (3 <= N)%nat -> ~ has_shape3 N N N (rfft3 N cube).
Proof. exact rfft3_not_full. Qed.
Print Assumptions C115_fft_refuted.
(** C115.  It is the half map. *)
Theorem C115_half_partial : forall N cube, has_shape3 N N (S (N / 2)) (rfft3 N cube).
Proof. exact rfft3_half. Qed.
Print Assumptions C115_half_partial.
(** C115.  The map that make_3dfield inverts is Hermitian and, for even sizes, is the Fourier
    transform of the cube before it is scaled. *)
Theorem C115_hermitian_partial : forall N p ang o k0 k1 k2, (1 <= N)%nat -> Nat.even N = true -> output3 N p ang = Ok o -> (k0 < N)%nat -> (k1 < N)%nat -> (k2 < N)%nat ->
  hermitian3 N (full3 N o) /\
  dft3 N N N (fun i j k => RtoC (irfftn_at N (S (np1 N)) o i j k)) k0 k1 k2 = full3 N o k0 k1 k2.
Proof. exact cube_fourier. Qed.
Print Assumptions C115_hermitian_partial.
Example C115_nonvacuous : exists o, output3 4 2 (fun _ _ _ => 0) = Ok o.
Proof. exact ex_output3. Qed.

(** C235.  The power of a generated cube of even size is an exact power law of the
    frequency at every mode but those that are their own opposites (all three frequencies
    zero or Nyquist). *)
Theorem C235_power : forall N p amp ang cube, (4 <= N)%nat -> Nat.even N = true -> amp <> 0 -> make_3dfield N p amp ang = Ok cube ->
  exists K, 0 < K /\ forall v a b c fa fb fc,
  (forall i j k, (i < N)%nat -> (j < N)%nat -> (k < N)%nat -> nth k (nth j (nth i cube []) []) NaN = Fin (v i j k)) ->
  (a < N)%nat -> (b < N)%nat -> (c < N)%nat -> is_freq N a fa -> is_freq N b fb -> is_freq N c fc ->
  (opposite N a, opposite N b, opposite N c) <> (a, b, c) ->
  Cnorm2 (dft3 N N N (fun i j k => RtoC (v i j k)) a b c) = K * Rpower (sqrt (fa ^ 2 + fb ^ 2 + fc ^ 2)) (- p).
Proof. exact cube_power. Qed.
Print Assumptions C235_power.
Example C235_nonvacuous : exists cube, make_3dfield 4 3 1 (fun _ _ _ => 0) = Ok cube /\ (opposite 4 1, opposite 4 0, opposite 4 0) <> (1, 0, 0)%nat.
Proof.
  destruct (make_3dfield_even 4 3 1 (fun _ _ _ => 0)) as [cube [E _]]; [repeat constructor|reflexivity|apply R1_neq_R0|].
  exists cube. split; [exact E|]. vm_compute. discriminate.
Qed.
