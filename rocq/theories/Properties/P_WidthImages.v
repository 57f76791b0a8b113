(** Theorems about the four ways to measure spatial widths (C287, C288) *)
From Coq Require Import String Reals List Bool Arith.
From Verif Require Import Lib.PyBase Lib.Fl Model.WidthMethods Model.WidthImages Spec.WidthImages Proofs.WidthImages_Proofs Proofs.WidthImages2_Proofs Proofs.WidthImages3_Proofs.
Import ListNotations.
Local Open Scope R_scope.

(** ** C287 *)
(** With method 'fit' the widths of Gaussians of any two standard deviations and any angle, on any
    noise autocorrelation that is given, are the roots of the sums of their squares *)
Theorem C287_gaussian_partial : forall fit2 spline contours eig leastsq alpha draws n0 n1 noise l, (2 <= n0)%nat -> (2 <= n1)%nat -> l <> [] ->
  (forall A g, In (A, g) l -> 0 < A /\ proper g /\ g_const g = 0 /\ best fit2 A (pixels (gauss_image n0 n1 A g no_noise))) ->
  exists ws, width_2D fit2 spline contours eig leastsq alpha draws "fit" noise false None None (map (fun Ag => gauss_image n0 n1 (fst Ag) (snd Ag) noise) l) = Ok ws /\
    map fst ws = map (fun Ag => Fin (true_width (snd Ag))) l.
Proof. exact fit_images. Qed.
Print Assumptions C287_gaussian_partial.
Example C287_gaussian_case : forall n0 n1, proper (mk_g 2 3 1 0) /\ best (always (mk_g 2 3 1 0)) 5 (pixels (gauss_image n0 n1 5 (mk_g 2 3 1 0) no_noise)).
Proof. intros n0 n1. exact (conj (proj1 ellipse_case) (always_best n0 n1 5 (mk_g 2 3 1 0) (proj1 ellipse_case) eq_refl)). Qed.
(** On a constant they cannot be: the amplitude is held at the maximum of the image, constant
    included, and nothing that can be fitted reproduces the image *)
Theorem C287_constant_refuted : forall n0 n1 A g h, (4 <= n0)%nat -> (4 <= n1)%nat -> 0 < A -> proper g -> 0 < g_const g -> proper h ->
  let px := pixels (gauss_image n0 n1 A g no_noise) in 0 < cost (amax (map snd px)) px h.
Proof. exact pedestal. Qed.
Print Assumptions C287_constant_refuted.
(** Without a covariance matrix the fitted width is returned, with no error *)
Theorem C287_no_covariance : forall fit2 spline contours eig leastsq alpha draws noise g im, fit_2D_gaussian fit2 (pixels (minus_noise noise im)) = (g, None) ->
  width_2D fit2 spline contours eig leastsq alpha draws "fit" noise false None None [im] = Ok [(Fin (true_width g), NaN)].
Proof. exact no_covariance. Qed.
Print Assumptions C287_no_covariance.
(** Multiplying images and noise by a positive number changes nothing for 'interpolate' and
    'contour' *)
Theorem C287_brightness : forall fit2 spline contours eig leastsq alpha draws method c noise b fwhm cdelt images, 0 < c -> method = "interpolate"%string \/ method = "contour"%string ->
  (forall im, In im images -> amax (map snd (pixels (minus_noise noise im))) <> 0) ->
  width_2D fit2 spline contours eig leastsq alpha draws method (fun i j => c * noise i j) b fwhm cdelt (map (scaled c) images) =
  width_2D fit2 spline contours eig leastsq alpha draws method noise b fwhm cdelt images.
Proof. exact brightness. Qed.
Print Assumptions C287_brightness.

(** ** C288 *)
(** Both interpolations refuse every image of less than 200 pixels *)
Theorem C288_small_refuted : forall fit2 spline contours eig leastsq alpha draws method noise b fwhm cdelt im images, fitpack spline -> method = "interpolate"%string \/ method = "xinterpolate"%string ->
  (i_n0 im * i_n1 im < 200)%nat -> width_2D fit2 spline contours eig leastsq alpha draws method noise b fwhm cdelt (im :: images) = Err ValueError.
Proof. exact small_images. Qed.
Print Assumptions C288_small_refuted.
Example C288_fitpack_case : fitpack spline0.
Proof. exact spline0_fitpack. Qed.
(** They refuse every image in which two knots have the same value *)
Theorem C288_ties_refuted : forall fit2 spline contours eig leastsq alpha draws method noise b fwhm cdelt im images v, fitpack spline -> method = "interpolate"%string \/ method = "xinterpolate"%string ->
  let px := pixels (minus_noise noise im) in let dz := (i_n0 im * i_n1 im / 100)%nat in 0 < amax (map snd px) ->
  (dz <= count (fun x => Rltb x v) px)%nat -> (2 * dz <= count (fun x => Reqb x v) px)%nat -> (dz <= count (Rltb v) px)%nat ->
  width_2D fit2 spline contours eig leastsq alpha draws method noise b fwhm cdelt (im :: images) = Err ValueError.
Proof. exact tied_images. Qed.
Print Assumptions C288_ties_refuted.
(** Every circular Gaussian in a square array of less than 30 pixels on a side is such an image *)
Theorem C288_circular_refuted : forall fit2 spline contours eig leastsq alpha draws method n A g noise b fwhm cdelt images, fitpack spline -> method = "interpolate"%string \/ method = "xinterpolate"%string ->
  (1 <= n < 30)%nat -> 0 < A -> circular g -> g_const g = 0 ->
  width_2D fit2 spline contours eig leastsq alpha draws method noise b fwhm cdelt (gauss_image n n A g noise :: images) = Err ValueError.
Proof. exact circular_refused. Qed.
Print Assumptions C288_circular_refuted.
Example C288_circular_case : circular (mk_g 2 2 1 0).
Proof. exact (proj2 ellipse_case). Qed.
(** For circular Gaussians the two agree, whatever the shape of the array *)
Theorem C288_same_partial : forall fit2 spline contours eig leastsq alpha draws n0 n1 noise b fwhm cdelt l, (2 <= n0)%nat -> (2 <= n1)%nat ->
  (forall A g, In (A, g) l -> 0 < A /\ circular g /\ g_const g = 0 /\ best fit2 A (pixels (gauss_image n0 n1 A g no_noise))) ->
  width_2D fit2 spline contours eig leastsq alpha draws "xinterpolate" noise b fwhm cdelt (map (fun Ag => gauss_image n0 n1 (fst Ag) (snd Ag) noise) l) =
  width_2D fit2 spline contours eig leastsq alpha draws "interpolate" noise b fwhm cdelt (map (fun Ag => gauss_image n0 n1 (fst Ag) (snd Ag) noise) l).
Proof. exact circular_same. Qed.
Print Assumptions C288_same_partial.
(** For an elliptical Gaussian, fitted exactly, the radii that 'xinterpolate' uses are not the same at
    the points of one brightness: the ratio of the axes is on the wrong side *)
Theorem C288_ellipse_refuted : forall g, 0 < g_x g -> 0 < g_y g -> g_x g <> g_y g ->
  let t := g_theta g in let a := g_x g * sqrt 2 in let b := g_y g * sqrt 2 in
  gaussian 1 g (a * cos t) (a * sin t) = exp (-1) /\ gaussian 1 g (- b * sin t) (b * cos t) = exp (-1) /\
  rmat_fit g (a * cos t) (a * sin t) = g_x g * sqrt 2 /\ rmat_fit g (- b * sin t) (b * cos t) = g_y g ^ 2 / g_x g * sqrt 2 /\ g_y g ^ 2 / g_x g * sqrt 2 <> g_x g * sqrt 2.
Proof. exact radius_wrong. Qed.
Print Assumptions C288_ellipse_refuted.
