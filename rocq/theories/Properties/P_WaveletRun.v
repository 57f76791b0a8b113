(** Properties C276, C277: Wavelet objects through a history of calls; the slope of the transform. *)
From Coq Require Import Reals List ZArith Arith Bool Lia Lra.
From Verif Require Import Lib.PyBase Lib.Fl Spec.Segmented Spec.BreakFit Spec.MexHat Model.Units Model.DeltaVar Model.BaseStat Model.Wavelet Model.FitState Model.DeltaVarRun Model.LmSeg Model.BreakFit Model.WaveletRun
  Spec.WaveletRun Proofs.Ols_Proofs Proofs.WaveletRun_Proofs Proofs.WaveletRun4_Proofs Proofs.WaveletRun5_Proofs Proofs.WaveletRun6_Proofs.
Import ListNotations.
Local Open Scope R_scope.

(** ** C276 *)
(** A run depends on the scales of the object only, not on what was called before. *)
Theorem C276_run : forall e o o2 norm a, reached e o -> w_scales o2 = w_scales o ->
  snd (run e o norm a) = snd (run e o2 norm a) /\
  (snd (run e o norm a) = None -> same_results (fst (run e o norm a)) (fst (run e o2 norm a)) /\ transform_of e (fst (run e o norm a)) norm /\ w_planes (fst (run e o norm a)) = Some None).
Proof. intros e o o2 norm a RE F. exact (run_fresh e o o2 norm a F (reached_valid e o RE)). Qed.
Print Assumptions C276_run.
Example C276_run_case : reached sky (sky_object scales2) /\ exists o, run sky (sky_object scales2) true plain = (o, None) /\ one_slope o (-2) /\ w_range o = Some (99 / 100, 202 / 100).
Proof. split; [exact (proj1 (proj2 (sky_case true)))|exact (sky_run true)]. Qed.
(** Without new scales the values always are the transform at the scales. *)
Theorem C276_values_partial : forall e s num o l, new_wavelet e s num = Ok o -> Forall keeps_scales l ->
  w_scales (history e o l) = w_scales o /\ (w_curve (history e o l) = None \/ exists n, transform_of e (history e o l) n).
Proof. exact history_new. Qed.
Print Assumptions C276_values_partial.
Example C276_values_case : new_wavelet sky (given scales2) 50 = Ok (sky_object scales2) /\ w_curve (history sky (sky_object scales2) [Fit plain; Run true plain; Fit narrow]) <> None.
Proof.
  split; [exact (sky_new scales2 50 scales2_ok)|]. destruct (sky_run true) as (o&R&_). unfold history. cbn [fold_left do_call]. destruct (fit_frame sky (sky_object scales2) plain) as (F1&_&_).
  set (o1 := fst (fit_transform sky (sky_object scales2) plain)) in *. destruct (run_fresh sky (sky_object scales2) o1 true plain F1 (reached_valid _ _ (sky_reached _ scales2_ok))) as [_ H].
  rewrite R in H. destruct (H eq_refl) as ((C&_)&(l&_&CL)&_). cbn [fst] in *. destruct (fit_frame sky (fst (run sky o1 true plain)) narrow) as (_&F2&_). rewrite F2, C, CL. discriminate.
Qed.
(** New scales leave the old values; a fit then belongs to neither: at scales that are the squares
    of those of the values it finds half the slope, and with another number of scales it raises. *)
Theorem C276_scales_refuted : forall e o norm q p a l A s, regression (e_ols e) -> (3 <= e_ny e)%nat -> (3 <= e_nx e)%nat -> reached e o -> scales_are e o l ->
  w_curve o = Some (compute_transform (e_half e) (e_ny e) (e_nx e) (e_img e) norm l) ->
  limits_are e a None None -> a_brk a = None -> 0 < A -> to_pixel (e_stat e) q = Ok p -> lags_ok (side e) (q_vals p) = true -> q_vals p = map (fun v => v ^ 2) l ->
  two_usable (a_weighted a) None None l (compute_transform (e_half e) (e_ny e) (e_nx e) (e_img e) norm l) ->
  power_law A s None None l (compute_transform (e_half e) (e_ny e) (e_nx e) (e_img e) norm l) ->
  exists o1 o2, do_call e o (SetScales (LagQuantity q)) = (o1, None) /\ do_call e o1 (Fit a) = (o2, None) /\ scales_are e o2 (map (fun v => v ^ 2) l) /\ one_slope o2 (s / 2).
Proof. exact stale_slope. Qed.
Print Assumptions C276_scales_refuted.
Example C276_scales_case : exists o o1 o2, run sky (sky_object scales2) true plain = (o, None) /\ do_call sky o (SetScales (LagQuantity (mk_q [1; 4] pix))) = (o1, None) /\ do_call sky o1 (Fit plain) = (o2, None) /\ one_slope o2 (-1).
Proof. exact (sky_stale true). Qed.
Theorem C276_number_refuted : forall e o norm q p a l, transform_of e o norm -> to_pixel (e_stat e) q = Ok p -> lags_ok (side e) (q_vals p) = true ->
  scales_are e o l -> length (q_vals p) <> length l -> a_xlow a = None -> a_xhigh a = None ->
  exists o1 o2, do_call e o (SetScales (LagQuantity q)) = (o1, None) /\ w_curve o1 = w_curve o /\ do_call e o1 (Fit a) = (o2, Some IndexError) /\ w_state o2 = w_state o /\ w_range o2 = Some (fit_range (q_vals p) None None).
Proof. intros e o norm q p a l T E K S N X1 X2. destruct (stale_values e o norm q p a T E K) as (o1&A1&_&A2&_&_&A3&_). destruct (A3 l S N X1 X2) as (o2&B1&B2&B3). exists o1, o2. auto. Qed.
Print Assumptions C276_number_refuted.
Example C276_number_case : exists o, fst (run sky (sky_object scales2) true plain) = o /\ transform_of sky o true /\ lags_ok (side sky) (q_vals (mk_q [1; 2; 3] pix)) = true.
Proof.
  eexists. split; [reflexivity|]. split.
  - destruct (run_fresh sky (sky_object scales2) (sky_object scales2) true plain eq_refl (reached_valid _ _ (sky_reached _ scales2_ok))) as [_ H]. destruct (sky_run true) as (o&R&_). rewrite R in *. exact (proj1 (proj2 (H eq_refl))).
  - apply DeltaVarRun_Proofs.lags_ok_toy. change (side sky) with 8%nat. cbn [INR q_vals]. repeat constructor; lra.
Qed.
(** A break outside the limits is refused; the new limits stay beside the old fit. *)
Theorem C276_range_refuted : forall e o norm lo hi b m w bt, transform_of e o norm -> b < lo \/ hi < b ->
  exists o', do_call e o (Fit (mk_wa (Some (mk_q [lo] pix)) (Some (mk_q [hi] pix)) (Some (mk_q [b] pix)) m w bt)) = (o', Some ValueError) /\
    w_range o' = Some (lo, hi) /\ w_state o' = w_state o /\ w_curve o' = w_curve o.
Proof. exact refused_break. Qed.
Print Assumptions C276_range_refuted.
Example C276_range_case : exists o, fst (run sky (sky_object scales2) true plain) = o /\ transform_of sky o true.
Proof. destruct C276_number_case as (o&E&T&_). exists o. auto. Qed.
(** Limits that leave a single scale, not one pixel: the fit raises; the break is None beside the
    old slopes. *)
Theorem C276_single_refuted : forall e o a l curve lo hi s v er, regression (e_ols e) -> reached e o -> scales_are e o l -> w_curve o = Some curve -> length curve = length l ->
  limits_are e a lo hi -> a_brk a = None -> a_weighted a = false -> s <> 1 -> 0 < v -> only_scale lo hi l curve s v er ->
  exists o', do_call e o (Fit a) = (o', Some IndexError) /\ t_brk (w_state o') = Some None /\ t_slope (w_state o') = t_slope (w_state o) /\ t_slope_err (w_state o') = t_slope_err (w_state o) /\ w_range o' = Some (fit_range l lo hi).
Proof. exact single_scale. Qed.
Print Assumptions C276_single_refuted.
Example C276_single_case : limits_are sky narrow (Some (3 / 2)) None /\ exists o v er, run sky (sky_object scales2) true plain = (o, None) /\ reached sky o /\ scales_are sky o scales2 /\
  w_curve o = Some (compute_transform (e_half sky) (e_ny sky) (e_nx sky) (e_img sky) true scales2) /\
  only_scale (Some (3 / 2)) None scales2 (compute_transform (e_half sky) (e_ny sky) (e_nx sky) (e_img sky) true scales2) 2 v er /\ 0 < v.
Proof. split; [exact narrow_limits|exact (sky_single true)]. Qed.

(** ** C277 *)
(** A power law gives its slope, and the fitted model is that power law. *)
Theorem C277_power_law : forall e o norm a l lo hi A p, regression (e_ols e) -> (3 <= e_ny e)%nat -> (3 <= e_nx e)%nat -> reached e o -> scales_are e o l -> limits_are e a lo hi -> a_brk a = None -> 0 < A ->
  two_usable (a_weighted a) lo hi l (compute_transform (e_half e) (e_ny e) (e_nx e) (e_img e) norm l) ->
  power_law A p lo hi l (compute_transform (e_half e) (e_ny e) (e_nx e) (e_img e) norm l) ->
  exists o', run e o norm a = (o', None) /\ one_slope o' p /\ w_range o' = Some (fit_range l lo hi) /\ model_is o' (ln A / ln 10) p.
Proof. exact slope_power_law. Qed.
Print Assumptions C277_power_law.
Example C277_power_law_case : regression (e_ols sky) /\ reached sky (sky_object scales2) /\ scales_are sky (sky_object scales2) scales2 /\ limits_are sky plain None None /\
  two_usable (a_weighted plain) None None scales2 (compute_transform (e_half sky) (e_ny sky) (e_nx sky) (e_img sky) true scales2) /\
  power_law 1 (-2) None None scales2 (compute_transform (e_half sky) (e_ny sky) (e_nx sky) (e_img sky) true scales2).
Proof. exact (sky_case true). Qed.
(** A brighter image has the same slope. *)
Theorem C277_brightness : forall e o o2 norm a k l lo hi, regression (e_ols e) -> (3 <= e_ny e)%nat -> (3 <= e_nx e)%nat -> reached e o -> scales_are e o l -> w_scales o2 = w_scales o -> 0 < k ->
  limits_are e a lo hi -> a_brk a = None -> two_usable (a_weighted a) lo hi l (compute_transform (e_half e) (e_ny e) (e_nx e) (e_img e) norm l) ->
  exists o' o2' s b, run e o norm a = (o', None) /\ run (brighter k e) o2 norm a = (o2', None) /\ one_slope o' s /\ one_slope o2' s /\ w_range o2' = w_range o' /\
    (exists curve, w_curve o' = Some curve /\ w_curve o2' = Some (map (fun ve => (fmul (Fin k) (fst ve), fmul (Fin k) (snd ve))) curve)) /\
    model_is o' b s /\ model_is o2' (b + ln k / ln 10) s.
Proof. exact slope_brighter. Qed.
Print Assumptions C277_brightness.
Example C277_brightness_case : exists o' o2' s b, run sky (sky_object scales2) true plain = (o', None) /\ run (brighter 3 sky) (sky_object scales2) true plain = (o2', None) /\ one_slope o' s /\ one_slope o2' s /\ model_is o' b s /\ model_is o2' (b + ln 3 / ln 10) s.
Proof.
  destruct (sky_case true) as (A&B&C&D&E&F). destruct (slope_brighter sky (sky_object scales2) (sky_object scales2) true plain 3 scales2 None None A sky_ny sky_nx B C eq_refl ltac:(lra) D eq_refl E) as (o'&o2'&s&b&R1&R2&R3&R4&_&_&R5&R6).
  exists o', o2', s, b. repeat (split; [assumption|]). assumption.
Qed.
(** Without the normalization by the scale the slope is larger by 2. *)
Theorem C277_normalization : forall e o o2 a l lo hi, regression (e_ols e) -> (3 <= e_ny e)%nat -> (3 <= e_nx e)%nat -> reached e o -> scales_are e o l -> w_scales o2 = w_scales o ->
  limits_are e a lo hi -> a_brk a = None -> two_usable (a_weighted a) lo hi l (compute_transform (e_half e) (e_ny e) (e_nx e) (e_img e) true l) ->
  exists o' o2' s b, run e o true a = (o', None) /\ run e o2 false a = (o2', None) /\ one_slope o' s /\ one_slope o2' (s + 2) /\ w_range o2' = w_range o' /\ model_is o' b s /\ model_is o2' b (s + 2).
Proof. exact slope_unnormalized. Qed.
Print Assumptions C277_normalization.
Example C277_normalization_case : exists o o2, run sky (sky_object scales2) true plain = (o, None) /\ run sky (sky_object scales2) false plain = (o2, None) /\ one_slope o (-2) /\ one_slope o2 0.
Proof. destruct (sky_run true) as (o&R1&R2&_). destruct (sky_run false) as (o2&R3&R4&_). exists o, o2. auto. Qed.
(** The orientation of the image does not matter, with or without a break. *)
Theorem C277_orientation : forall e o norm a, reached e o -> run (transposed e) o norm a = run e o norm a /\ run (mirrored e) o norm a = run e o norm a.
Proof. exact run_oriented. Qed.
Print Assumptions C277_orientation.
Example C277_orientation_case : reached sky (sky_object scales2) /\ e_img (mirrored sky) 7 0 = Fin PI /\ e_img sky 7 0 = NaN.
Proof. split; [exact (sky_reached _ scales2_ok)|split; reflexivity]. Qed.
(** An image is at no distance from itself made brighter (or the errors are zero: 0/0). *)
Theorem C277_distance : forall e k scales a o l lo hi, regression (e_ols e) -> (3 <= e_ny e)%nat -> (3 <= e_nx e)%nat -> 0 < k ->
  new_wavelet e scales 50 = Ok o -> scales_are e o l -> limits_are e a lo hi -> a_brk a = None ->
  two_usable (a_weighted a) lo hi l (compute_transform (e_half e) (e_ny e) (e_nx e) (e_img e) true l) ->
  exists d, image_distance e (brighter k e) scales a a = Ok [d] /\ (d = Fin 0 \/ d = NaN).
Proof. exact brighter_distance. Qed.
Print Assumptions C277_distance.
Example C277_distance_case : exists d, image_distance sky (brighter 3 sky) (given scales2) plain plain = Ok [d] /\ (d = Fin 0 \/ d = NaN).
Proof.
  destruct (sky_case true) as (A&B&C&D&E&F). exact (brighter_distance sky 3 (given scales2) plain (sky_object scales2) scales2 None None A sky_ny sky_nx ltac:(lra) (sky_new scales2 50 scales2_ok) C D eq_refl E).
Qed.
(** A broken power law within the limits gives its two slopes when the start of the break and its
    mirror image lie between the same two scales as the break. Missing: the break; other starts. *)
Theorem C277_broken_partial : forall e o a l curve lo hi A s1 s2 B B0, scales_are e o l -> Forall (fun s => 0 < s) l -> w_curve o = Some curve -> length curve = length l -> limits_are e a lo hi -> in_pixels (e_stat e) (a_brk a) = Ok (Some B0) ->
  regression (e_ols e) -> s1 <> s2 -> 0 < A -> 0 < B -> 0 < B0 ->
  (forall s ve, In (s, ve) (combine l curve) -> inside lo hi s -> fst ve = Fin (broken_plaw A s1 s2 B s) /\ (a_weighted a = true -> exists r, snd ve = Fin r /\ 0 < r)) ->
  two_sided B (scales_within lo hi l) -> same_gap B B0 (scales_within lo hi l) -> same_gap B (B * B / B0) (scales_within lo hi l) -> (a_min_pts a <= count_below B (scales_within lo hi l))%nat ->
  exists o' C, do_call e o (Fit a) = (o', None) /\ t_slope (w_state o') = Some [Fin s1; Fin s2] /\ t_brk (w_state o') = Some (Some C) /\ (C = B0 \/ C = B * B / B0) /\ w_range o' = Some (fit_range l lo hi).
Proof. exact fit_broken. Qed.
Print Assumptions C277_broken_partial.
Example C277_broken_case : forall weighted, exists o' C, do_call sky bent (Fit (at9 weighted)) = (o', None) /\ t_slope (w_state o') = Some [Fin 1; Fin 2] /\ t_brk (w_state o') = Some (Some C) /\ (C = 9 \/ C = 64 / 9) /\ w_range o' = Some (99 / 100, 2424 / 100).
Proof. exact bent_fit. Qed.
(** The break itself is missed. *)
Theorem C277_break_refuted : forall weighted, w_curve bent = Some (map (fun s => (Fin (broken_plaw 1 1 2 8 s), Fin (1 / 10))) scales5) /\
  exists o' C, do_call sky bent (Fit (at9 weighted)) = (o', None) /\ t_slope (w_state o') = Some [Fin 1; Fin 2] /\ t_brk (w_state o') = Some (Some C) /\ C <> 8.
Proof. intros weighted. split; [reflexivity|]. destruct (bent_fit weighted) as (o'&C&E&S&K&H&_). exists o', C. repeat (split; [assumption|]). destruct H; lra. Qed.
Print Assumptions C277_break_refuted.
