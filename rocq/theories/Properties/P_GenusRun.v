(** C272-C273: Genus objects through runs and new radii; the genus distance of two images. *)
From Coq Require Import Reals List Bool ZArith Arith.
From Verif Require Import Lib.PyBase Lib.Fl Lib.RSum Spec.Regions Spec.GenusSpec Spec.Blank Model.Units Model.StatsUtils Model.Genus Model.GenusRun Spec.GenusRun Proofs.GenusRun_Proofs Proofs.GenusRun2_Proofs Proofs.GenusRun3_Proofs Proofs.GenusRun4_Proofs.
Import ListNotations.
Local Open Scope R_scope.

(** ** C272 *)
(** After a run that returns, whatever came before it: one curve for each radius, whose value at
    each threshold counts the regions of the smoothed image, with the mean and standard deviation
    of that image. *)
Theorem C272_curves_partial : forall pc sm mem im st beam a o h k o', genus_init pc im st beam a = Ok o -> make_curve sm mem (history sm mem o h) k = (o', None) ->
  exists m rows means stds, min_size_of st beam (k_beam k) (k_size k) = Ok m /\
    genus_stats o' = Ok rows /\ g_means o' = Some means /\ g_stds o' = Some stds /\
    length rows = length (widths (g_radii o')) /\ length means = length (widths (g_radii o')) /\ length stds = length (widths (g_radii o')) /\
    (k_keep k = true -> exists imgs, smoothed_images o' = Ok imgs /\ length imgs = length (widths (g_radii o'))) /\
    forall j w, nth_error (widths (g_radii o')) j = Some w ->
      exists s row, smoothed sm im k w = Ok s /\ nth_error rows j = Some row /\
        nth_error means j = Some (nanmean (values s)) /\ nth_error stds j = Some (nanstd (values s)) /\
        (k_keep k = true -> forall imgs, smoothed_images o' = Ok imgs -> nth_error imgs j = Some s) /\
        length row = length (thresholds_fl pc im a) /\
        forall i t, nth_error (thresholds_fl pc im a) i = Some (Fin t) -> exists g, nth_error row i = Some g /\ genus_value s t (k_removal k) m (k_connectivity k) g.
Proof. exact curves_shown. Qed.
Print Assumptions C272_curves_partial.
Example C272_curves_case : genus_init toy_percentile toy_image (mk_stat None None) None one_value = Ok toy_object /\
  snd (make_curve toy_smooth NaN (history toy_smooth NaN toy_object [Run wrong_keyword; SetRadii (RadArray [1; 2])]) keep) = None.
Proof. exact toy_run_ok. Qed.
(** New radii and a run give what they give on the object at its start. *)
Theorem C272_history_partial : forall sm mem o h a k, snd (set_radii (history sm mem o h) a) = None ->
  let later := make_curve sm mem (fst (set_radii (history sm mem o h) a)) k in
  let first := make_curve sm mem (fst (set_radii o a)) k in
  snd later = snd first /\ (snd first = None -> results (fst later) = results (fst first) /\ (k_keep k = true -> smoothed_images (fst later) = smoothed_images (fst first))).
Proof. exact history_forgets. Qed.
Print Assumptions C272_history_partial.
Example C272_history_case : snd (set_radii (history toy_smooth NaN toy_object [Run keep; Run wrong_keyword]) (RadArray [2])) = None /\ results (fst (make_curve toy_smooth NaN (fst (set_radii toy_object (RadArray [2]))) keep)) <> results toy_object.
Proof. exact toy_later. Qed.
(** The smoothed images of an earlier run stay when a later run keeps none. *)
Theorem C272_images_refuted : ~ (forall pc sm mem im st beam a o h k o' imgs, genus_init pc im st beam a = Ok o -> make_curve sm mem (history sm mem o h) k = (o', None) -> smoothed_images o' = Ok imgs ->
  forall j w, nth_error (widths (g_radii o')) j = Some w -> exists s, smoothed sm im k w = Ok s /\ nth_error imgs j = Some s).
Proof. exact stale_images. Qed.
Print Assumptions C272_images_refuted.
(** The curves stay when new radii are set. *)
Theorem C272_radii_refuted : ~ (forall pc sm mem im st beam a o h rows, genus_init pc im st beam a = Ok o -> genus_stats (history sm mem o h) = Ok rows ->
  length rows = length (widths (g_radii (history sm mem o h)))).
Proof. exact radii_differ. Qed.
Print Assumptions C272_radii_refuted.
(** A run that raises leaves what was in memory as the curve and the mean. *)
Theorem C272_failed_refuted : exists sm im o k, genus_init toy_percentile im (mk_stat None None) None one_value = Ok o /\
  forall mem, snd (make_curve sm mem o k) = Some TypeError /\ genus_stats (fst (make_curve sm mem o k)) = Ok [[mem]] /\ g_means (fst (make_curve sm mem o k)) = Some [mem].
Proof. exact garbage. Qed.
Print Assumptions C272_failed_refuted.

(** Radii from 1 pixel to half of the shorter side are accepted, others refused, and then nothing
    changes; so too when the object is made. *)
Theorem C272_accepted : forall pc im st beam o l, g_smoothing o = true ->
  let good n0 n1 := forall v, In v l -> 1 <= v <= INR (Nat.min n0 n1) / 2 in
  (good (i_n0 (g_image o)) (i_n1 (g_image o)) -> set_radii o (RadArray l) = (with_radii o (Radii l), None)) /\
  ((exists v, In v l /\ ~ (1 <= v <= INR (Nat.min (i_n0 (g_image o)) (i_n1 (g_image o))) / 2)) -> set_radii o (RadArray l) = (o, Some ValueError)) /\
  forall a, a_smoothing a = true -> a_radii a = Some (RadArray l) -> (is_ok (genus_init pc im st beam a) = true <-> good (i_n0 im) (i_n1 im)).
Proof. intros pc im st beam o l S. split; [exact (proj1 (radii_accepted o l S))|]. split; [exact (proj2 (radii_accepted o l S))|exact (fun a => init_accepted pc im st beam a l)]. Qed.
Print Assumptions C272_accepted.
(** The smoothed images can be had exactly when some run was asked to keep them, whether it returned
    or not; there are no curves before the first run. *)
Theorem C272_kept : forall pc sm mem im st beam a o h, genus_init pc im st beam a = Ok o ->
  (smoothed_images (history sm mem o h) = Err ValueError <-> forall k, In (Run k) h -> k_keep k = false) /\
  ((exists k, In (Run k) h /\ k_keep k = true) -> exists imgs, smoothed_images (history sm mem o h) = Ok imgs) /\
  ((forall k, ~ In (Run k) h) -> genus_stats (history sm mem o h) = Err AttributeError).
Proof.
  intros pc sm mem im st beam a o h I. split; [exact (proj1 (images_kept pc sm mem im st beam a o h I))|].
  split; [exact (proj2 (images_kept pc sm mem im st beam a o h I))|exact (curves_wait pc im st beam a o h sm mem I)].
Qed.
Print Assumptions C272_kept.
Example C272_kept_case : genus_init toy_percentile toy_image (mk_stat None None) None one_value = Ok toy_object /\
  k_keep keep = true /\ In (Run keep) [SetRadii (RadArray [1; 2]); Run keep].
Proof. split; [exact (proj1 toy_run_ok)|]. split; [reflexivity|]. right. now left. Qed.
Example C272_accepted_case : g_smoothing toy_object = true /\ set_radii toy_object (RadArray [1; 2]) = (with_radii toy_object (Radii [1; 2]), None).
Proof. split; [reflexivity|now apply toy_two]. Qed.
(** The thresholds are those given, or as many as asked for at equal steps from the smallest to the
    largest value of the image, or between the limits given; no call changes them. *)
Theorem C272_thresholds : forall pc sm mem im st beam a o h, genus_init pc im st beam a = Ok o ->
  (forall t, a_thresholds a = Some t -> g_thresholds (history sm mem o h) = map Fin t) /\
  (forall lo hi, readable im -> a_thresholds a = None -> (2 <= a_numpts a)%nat ->
    (match a_min a with Some v => lo = v | None => a_low a = 0 /\ is_min lo (fins (values im)) end) ->
    (match a_max a with Some v => hi = v | None => a_high a = 100 /\ is_max hi (fins (values im)) end) ->
    length (g_thresholds (history sm mem o h)) = a_numpts a /\
    forall i, (i < a_numpts a)%nat -> nth_error (g_thresholds (history sm mem o h)) i = Some (Fin (lo + INR i * ((hi - lo) / INR (a_numpts a - 1))))).
Proof. intros pc sm mem im st beam a o h I. split; [exact (fun t => thresholds_given pc sm mem im st beam a o h t I)|exact (fun lo hi B => thresholds_shown pc sm mem im st beam a o h lo hi B I)]. Qed.
Print Assumptions C272_thresholds.
Example C272_thresholds_case : (exists o, genus_init toy_percentile toy_image (mk_stat None None) None defaults = Ok o) /\ readable toy_image /\
  is_min 0 (fins (values toy_image)) /\ is_max 3 (fins (values toy_image)).
Proof. exact toy_default. Qed.

(** ** C273 *)
(** A factor and an offset of the brightness of either image change nothing. *)
Theorem C273_brightness_partial : forall pc sm mem interp tol d im1 im2 h1 h2 a1 b1 a2 b2, 0 < a1 -> 0 < a2 -> readable im1 -> readable im2 ->
  genus_distance_of pc sm mem interp tol d (recalibrated a1 b1 im1) (recalibrated a2 b2 im2) h1 h2 = genus_distance_of pc sm mem interp tol d im1 im2 h1 h2.
Proof. exact distance_units. Qed.
Print Assumptions C273_brightness_partial.
Example C273_brightness_case : forall interp, readable toy_image /\ exists r, genus_distance_of toy_percentile toy_smooth NaN interp (1 / 100) toy_options (recalibrated 3 (-7) toy_image) toy_image toy_grid toy_grid = Ok r.
Proof. intros interp. split; [exact toy_readable|]. now apply toy_distance. Qed.
(** An image is at no distance from itself. *)
Theorem C273_self_partial : forall pc sm mem interp tol im h d r, 0 < scale0 h -> d_kwargs2 d = None ->
  (exists mn, d_min d = Both mn) -> (exists mx, d_max d = Both mx) -> (exists lo, d_low d = Both lo) -> (exists hi, d_high d = Both hi) ->
  genus_distance_of pc sm mem interp tol d im im h h = Ok r -> r = 0.
Proof. exact distance_self. Qed.
Print Assumptions C273_self_partial.
Example C273_self_case : forall interp, exists r, genus_distance_of toy_percentile toy_smooth NaN interp (1 / 100) toy_options toy_image toy_image toy_grid toy_grid = Ok r.
Proof. intros interp. now apply toy_distance. Qed.
(** Each image gets its own options: the first or second item of a list. *)
Theorem C273_options_partial : forall pc sm mem tol d im1 im2 h1 h2 o1 o2 s, genus_pair pc sm mem tol d im1 im2 h1 h2 = Ok (o1, o2, s) ->
  exists mn mx lo hi g mn' mx' lo' hi' g',
    for_image (d_min d) 0 mn /\ for_image (d_max d) 0 mx /\ for_image (d_low d) 0 lo /\ for_image (d_high d) 0 hi /\
    for_image (d_min d) 1 mn' /\ for_image (d_max d) 1 mx' /\ for_image (d_low d) 1 lo' /\ for_image (d_high d) 1 hi' /\
    genus_init pc (standardized im1) (mk_stat None None) None (mk_ga mn mx lo hi 100 None true (d_radii d)) = Ok g /\
    genus_init pc (standardized im2) (mk_stat None None) None (mk_ga mn' mx' lo' hi' 100 None true (d_radii d)) = Ok g' /\
    make_curve sm mem g (d_kwargs d) = (o1, None) /\
    make_curve sm mem g' (match d_kwargs2 d with Some k => k | None => d_kwargs d end) = (o2, None) /\
    common_scale h1 h2 tol = Ok s.
Proof. exact pair_ok. Qed.
Print Assumptions C273_options_partial.
Example C273_options_case : for_image (Each [Some 1; Some 2]) 1 (Some 2) /\ for_image (Both (Some 3)) 1 (Some 3).
Proof. split; reflexivity. Qed.
Theorem C273_short_list : forall pc sm mem interp tol d im1 im2 h1 h2,
  (exists l, (d_min d = Each l \/ d_max d = Each l) /\ (length l < 2)%nat) \/ (exists l, (d_low d = Each l \/ d_high d = Each l) /\ (length l < 2)%nat) ->
  is_ok (genus_distance_of pc sm mem interp tol d im1 im2 h1 h2) = false.
Proof. exact short_list. Qed.
Print Assumptions C273_short_list.
(** A flat image has no standardized values: no distance. *)
Theorem C273_flat : forall pc sm mem interp tol d im1 im2 h1 h2, readable im1 -> flat im1 ->
  for_image (d_min d) 0 None -> for_image (d_low d) 0 0 -> is_ok (genus_distance_of pc sm mem interp tol d im1 im2 h1 h2) = false.
Proof. exact flat_refused. Qed.
Print Assumptions C273_flat.
Example C273_flat_case : flat (mk_im 3 4 (fun p => if Nat.eqb (fst p) 0 then NaN else Fin 5)) /\ readable (mk_im 3 4 (fun p => if Nat.eqb (fst p) 0 then NaN else Fin 5)).
Proof. split; [exists 5|]; intros p; cbn; destruct (Nat.eqb (fst p) 0); eauto. Qed.
(** Angles and beams need the header, which the two Genus objects are not given. *)
Theorem C273_header_refuted : forall pc sm mem interp tol d im1 im2 h1 h2,
  (exists sc q, d_radii d = Some (RadQuantity sc q) /\ angular q) \/ k_beam (d_kwargs d) = true \/ (exists q, k_size (d_kwargs d) = SizeArea q /\ (forall r, q_sqrt q = Ok r -> angular r)) ->
  is_ok (genus_distance_of pc sm mem interp tol d im1 im2 h1 h2) = false.
Proof. exact header_needed. Qed.
Print Assumptions C273_header_refuted.
Example C273_header_case : angular (mk_q [2; 4] deg).
Proof. exact deg_angular. Qed.
(** The radii are documented as a list; a list is refused. *)
Theorem C273_list_refuted : forall pc sm mem interp tol d im1 im2 h1 h2 l, d_radii d = Some (RadList l) ->
  is_ok (genus_distance_of pc sm mem interp tol d im1 im2 h1 h2) = false.
Proof. exact list_refused. Qed.
Print Assumptions C273_list_refuted.
(** Of several radii only the first counts. *)
Theorem C273_radii_refuted : forall pc sm mem interp tol d d' im1 im2 h1 h2 r l v, d_radii d = Some (RadArray (r :: l)) -> d_radii d' = Some (RadArray [r]) ->
  d_min d' = d_min d -> d_max d' = d_max d -> d_low d' = d_low d -> d_high d' = d_high d -> d_kwargs d' = d_kwargs d -> d_kwargs2 d' = d_kwargs2 d ->
  genus_distance_of pc sm mem interp tol d im1 im2 h1 h2 = Ok v -> genus_distance_of pc sm mem interp tol d' im1 im2 h1 h2 = Ok v.
Proof. exact first_radius. Qed.
Print Assumptions C273_radii_refuted.
(** The distance: the root of the summed squares of the differences of the two splines, through
    the curves divided by the numbers of pixels, at equal steps over the thresholds they share; the
    number of pixels of the first image counts in pixels of the second (by the ratio of the sides,
    see C103). *)
Theorem C273_value_partial : forall pc sm mem interp tol d im1 im2 h1 h2 r, genus_distance_of pc sm mem interp tol d im1 im2 h1 h2 = Ok r ->
  exists o1 o2 s t1 t2 row1 rows1 row2 rows2,
    genus_pair pc sm mem tol d im1 im2 h1 h2 = Ok (o1, o2, s) /\
    g_thresholds o1 = map Fin t1 /\ g_thresholds o2 = map Fin t2 /\ genus_stats o1 = Ok (row1 :: rows1) /\ genus_stats o2 = Ok (row2 :: rows2) /\
    forall a1 b1 a2 b2, is_min a1 t1 -> is_max b1 t1 -> is_min a2 t2 -> is_max b2 t2 ->
      let n := (2 * ((length t1 + length t2) / 2))%nat in let lo := Rmax a1 a2 in let hi := Rmin b1 b2 in
      let area1 := INR (i_n0 im1 * i_n1 im1) / (Rabs (scale0 h2) / Rabs (scale0 h1)) in let area2 := INR (i_n0 im2 * i_n1 im2) in
      r ^ 2 = rsum n (fun k => let p := lo + INR k * ((hi - lo) / INR (n - 1)) in
        (interp t1 (map (fun g => g / area1) (fins row1)) p - interp t2 (map (fun g => g / area2) (fins row2)) p) ^ 2).
Proof. exact distance_value. Qed.
Print Assumptions C273_value_partial.
Example C273_value_case : forall interp, exists r, genus_distance_of toy_percentile toy_smooth NaN interp (1 / 100) toy_options (recalibrated 2 0 toy_image) toy_image toy_grid toy_grid = Ok r.
Proof. intros interp. now apply toy_distance. Qed.
