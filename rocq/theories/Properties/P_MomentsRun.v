(** C274-C275: StatMoments objects through any history; the moment distance of two images. *)
From Coq Require Import Reals List Bool ZArith Arith Lra Lia.
From Verif Require Import Lib.PyBase Lib.Fl Spec.Blank Spec.Distrib Model.Units Model.StatsUtils Model.StatMoments Model.MomentsRun Spec.MomentsRun Proofs.MomentsRun3_Proofs Proofs.MomentsRun7_Proofs Proofs.MomentsRun8_Proofs.
Import ListNotations.
Local Open Scope R_scope.

(** ** C274 *)
(** After a call of compute_spatial_distrib that returns, whatever came before it: the radius is the
    last acceptable one, and the maps hold at every pixel the moments of the region around it. *)
Theorem C274_maps : forall memory p w q nb o0 cs r per mf o, moments_init p w q nb = Ok o0 -> spatial memory (session memory o0 cs) r per mf = (o, None) ->
  exists k m, m_radius o = in_force p q (cs ++ [Spatial r per mf]) /\ rounded_up p (m_radius o) k /\ m_maps o = Some m /\ forall y x, m y x = around p (weights_of w) k per mf y x.
Proof. exact maps_session. Qed.
Print Assumptions C274_maps.
(** After make_spatial_histograms returns: the histograms are those of the maps of the object. *)
Theorem C274_histograms : forall memory p w q nb o0 cs b o, moments_init p w q nb = Ok o0 -> spatial_hists (session memory o0 cs) b = (o, None) ->
  exists m h1 h2 h3 h4, m_maps (session memory o0 cs) = Some m /\ m_mean_hist o = Some h1 /\ m_variance_hist o = Some h2 /\ m_skewness_hist o = Some h3 /\ m_kurtosis_hist o = Some h4 /\
    let n := match nb with None => floor_sqrt (pic_n0 p * pic_n1 p) | Some n => n end in
    recorded (values_of p m mean_of) n (b_mean b) h1 /\ recorded (values_of p m variance_of) n (b_variance b) h2 /\
    recorded (values_of p m skewness_of) n (b_skewness b) h3 /\ recorded (values_of p m kurtosis_of) n (b_kurtosis b) h4.
Proof. exact hists_session. Qed.
Print Assumptions C274_histograms.
(** After run returns: all of it belongs together, but with the share 0.8 and not with the one given. *)
Theorem C274_run_partial : forall memory p w q nb o0 cs r per mf b o, moments_init p w q nb = Ok o0 -> moments_run memory (session memory o0 cs) r per mf b = (o, None) ->
  exists k m h1 h2 h3 h4, m_radius o = in_force p q (cs ++ [Run r per mf b]) /\ rounded_up p (m_radius o) k /\ m_maps o = Some m /\
    (forall y x, m y x = around p (weights_of w) k per (8 / 10) y x) /\
    m_whole o = Some (array_moments (pic_n0 p) (pic_n1 p) (pic_data p) w) /\
    m_mean_hist o = Some h1 /\ m_variance_hist o = Some h2 /\ m_skewness_hist o = Some h3 /\ m_kurtosis_hist o = Some h4 /\
    let n := match nb with None => floor_sqrt (pic_n0 p * pic_n1 p) | Some n => n end in
    recorded (values_of p m mean_of) n (b_mean b) h1 /\ recorded (values_of p m variance_of) n (b_variance b) h2 /\
    recorded (values_of p m skewness_of) n (b_skewness b) h3 /\ recorded (values_of p m kurtosis_of) n (b_kurtosis b) h4.
Proof. exact run_session. Qed.
Print Assumptions C274_run_partial.
(** A radius that is too small, too large or has no pixel size raises and keeps the radius; a share
    outside of (0, 1] raises and changes nothing. *)
Theorem C274_refused : forall memory p w q nb o0 cs, moments_init p w q nb = Ok o0 -> let o := session memory o0 cs in
  (forall q', acceptable p q' = false -> (exists e, assign_radius o q' = (o, Some e)) /\
     forall per mf, 0 < mf <= 1 -> exists e o', spatial memory o (Some q') per mf = (o', Some e) /\ m_maps o' = Some memory /\ m_radius o' = m_radius o) /\
  (forall r per mf, ~ 0 < mf <= 1 -> spatial memory o r per mf = (o, Some ValueError)).
Proof. exact refused. Qed.
Print Assumptions C274_refused.
(** A call that raises does change the object: the maps are then what was in memory. *)
Theorem C274_failed_refuted : ~ (forall memory p w q nb o0 cs c e o', moments_init p w q nb = Ok o0 -> do_mcall memory (session memory o0 cs) c = (o', Some e) -> o' = session memory o0 cs).
Proof. exact failed_refuted. Qed.
Print Assumptions C274_failed_refuted.
(** New maps leave the old histograms in place. *)
Theorem C274_stale_refuted : ~ (forall memory p w q n o0 cs m h, moments_init p w q (Some n) = Ok o0 -> (forall b, In (Hists b) cs -> b = no_bins) -> (forall r per mf b, In (Run r per mf b) cs -> b = no_bins) ->
  m_maps (session memory o0 cs) = Some m -> m_skewness_hist (session memory o0 cs) = Some h -> recorded (values_of p m skewness_of) n None h).
Proof. exact stale_refuted. Qed.
Print Assumptions C274_stale_refuted.
Example C274_instance : moments_init plain None two_pix (Some 3%nat) = Ok plain_three /\ forall memory, spatial memory (session memory plain_three []) None false 1 = (other_maps, None).
Proof. split; [exact plain_init_three|exact plain_made]. Qed.
Example C274_run_instance : forall memory, exists o, moments_run memory (session memory plain_obj []) None true 1 no_bins = (o, None).
Proof. exact plain_run. Qed.

(** ** C275 *)
(** The brightness scale does not count; an offset does not where no pixel is blank. *)
Theorem C275_brightness : forall memory tol p1 p2 w1 w2 a nbins a1 b1 a2 b2, readable p1 -> readable p2 -> weighted p1 w1 -> weighted p2 w2 -> 0 < a1 -> 0 < a2 ->
  b1 = 0 \/ complete p1 -> b2 = 0 \/ complete p2 ->
  moments_distance memory tol (Data (recalibrated a1 b1 p1) w1) (Data (recalibrated a2 b2 p2) w2) a nbins = moments_distance memory tol (Data p1 w1) (Data p2 w2) a nbins.
Proof. exact distance_bright. Qed.
Print Assumptions C275_brightness.
(** Periodic images may be moved. *)
Theorem C275_moved : forall memory tol p1 p2 w1 w2 a nbins s1 t1 s2 t2, (0 < pic_n0 p1)%nat -> (0 < pic_n1 p1)%nat -> (0 < pic_n0 p2)%nat -> (0 < pic_n1 p2)%nat ->
  readable p1 -> readable p2 -> weighted p1 w1 -> weighted p2 w2 -> ma_periodic1 a = true -> ma_periodic2 a = true ->
  moments_distance memory tol (Data (moved s1 t1 p1) (moved_weights p1 s1 t1 w1)) (Data (moved s2 t2 p2) (moved_weights p2 s2 t2 w2)) a nbins = moments_distance memory tol (Data p1 w1) (Data p2 w2) a nbins.
Proof. exact distance_moved. Qed.
Print Assumptions C275_moved.
(** The regions cover the same angle in both images; the distance is at most the square root of
    the width of the bins; it is zero if the second image has no valid region and blank if the first has none. *)
Theorem C275_range : forall memory tol p1 p2 w1 w2 a nbins k s, readable p1 -> readable p2 -> weighted p1 w1 -> weighted p2 w2 -> sized p1 -> sized p2 ->
  moments_distance memory tol (Data p1 w1) (Data p2 w2) a nbins = Ok (k, s) ->
  exists q1 q2 k1 k2, let nb := match nbins with None => nbins_of p1 p2 (ma_nbins a) | Some n => n end in
    matched p1 p2 (ma_radius a) q1 q2 /\ rounded_up p1 q1 k1 /\ rounded_up p2 q2 k2 /\ (3 <= nb)%nat /\
    forall f d, (f, d) = (skewness_of, s) \/ (f, d) = (kurtosis_of, k) ->
      let x1 := fins (local_values p1 w1 k1 (ma_periodic1 a) (ma_min_frac a) f) in let x2 := fins (local_values p2 w2 k2 (ma_periodic2 a) (ma_min_frac a) f) in
      (x1 <> [] -> x2 <> [] -> exists lo hi v, is_min lo (x1 ++ x2) /\ is_max hi (x1 ++ x2) /\ d = Fin v /\ 0 <= v <= sqrt ((hi - lo) / INR (nb - 1))) /\
      (x1 <> [] -> x2 = [] -> d = Fin 0) /\ (x1 = [] -> d = NaN).
Proof. exact distance_value. Qed.
Print Assumptions C275_range.
Theorem C275_self : forall memory tol p w a nbins k s, readable p -> weighted p w -> sized p -> ma_periodic1 a = ma_periodic2 a ->
  moments_distance memory tol (Data p w) (Data p w) a nbins = Ok (k, s) ->
  exists kk, rounded_up p (ma_radius a) kk /\
    (k = Fin 0 /\ fins (local_values p w kk (ma_periodic1 a) (ma_min_frac a) kurtosis_of) <> [] \/ k = NaN /\ fins (local_values p w kk (ma_periodic1 a) (ma_min_frac a) kurtosis_of) = []) /\
    (s = Fin 0 /\ fins (local_values p w kk (ma_periodic1 a) (ma_min_frac a) skewness_of) <> [] \/ s = NaN /\ fins (local_values p w kk (ma_periodic1 a) (ma_min_frac a) skewness_of) = []).
Proof. exact distance_self. Qed.
Print Assumptions C275_self.
(** The order counts only where one of the two distances is blank. *)
Theorem C275_order_partial : forall memory tol p1 p2 w1 w2 a nbins k s, readable p1 -> readable p2 -> weighted p1 w1 -> weighted p2 w2 -> sized p1 -> sized p2 ->
  moments_distance memory tol (Data p1 w1) (Data p2 w2) a nbins = Ok (k, s) ->
  (exists x y, k = Fin x /\ s = Fin y) -> (exists x y, moments_distance memory tol (Data p2 w2) (Data p1 w1) (other_order a) nbins = Ok (Fin x, Fin y)) ->
  moments_distance memory tol (Data p2 w2) (Data p1 w1) (other_order a) nbins = Ok (k, s).
Proof. exact distance_other. Qed.
Print Assumptions C275_order_partial.
Theorem C275_order_refuted : ~ (forall memory tol p1 p2 w1 w2 a nbins, readable p1 -> readable p2 -> weighted p1 w1 -> weighted p2 w2 -> sized p1 -> sized p2 ->
  moments_distance memory tol (Data p2 w2) (Data p1 w1) (other_order a) nbins = moments_distance memory tol (Data p1 w1) (Data p2 w2) a nbins).
Proof. exact order_refuted. Qed.
Print Assumptions C275_order_refuted.
(** A distance of zero does not even tell that the second image has a pixel that is a number. *)
Theorem C275_zero_refuted : ~ (forall memory tol p1 p2 w1 w2 a nbins, readable p1 -> readable p2 -> weighted p1 w1 -> weighted p2 w2 -> sized p1 -> sized p2 ->
  moments_distance memory tol (Data p1 w1) (Data p2 w2) a nbins = Ok (Fin 0, Fin 0) -> exists i j v, (i < pic_n0 p2)%nat /\ (j < pic_n1 p2)%nat /\ pic_data p2 i j = Fin v).
Proof. exact zero_refuted. Qed.
Print Assumptions C275_zero_refuted.
(** An object with the maps of the same options gives what its image gives. *)
Theorem C275_objects_partial : forall memory tol g1 g2 p1 p2 w1 w2 a nbins, readable p1 -> readable p2 -> weighted p1 w1 -> weighted p2 w2 -> sized p1 ->
  stands_for memory g1 p1 w1 (ma_radius a) (ma_periodic1 a) (ma_min_frac a) -> stands_for memory g2 p2 w2 (ma_radius a) (ma_periodic2 a) (ma_min_frac a) ->
  is_equivalent (q_unit (ma_radius a)) pix = false \/ Rabs (scale0 (pic_grid p1)) = Rabs (scale0 (pic_grid p2)) -> (0 < nbins_of p1 p2 (ma_nbins a))%nat ->
  moments_distance memory tol g1 g2 a nbins = moments_distance memory tol (Data p1 w1) (Data p2 w2) a nbins.
Proof. exact objects_agree. Qed.
Print Assumptions C275_objects_partial.
(** One with the maps of other boundaries or another share does not, and is not refused. *)
Theorem C275_options_refuted : ~ (forall memory tol p1 p2 w1 w2 o0 o1 per mf a n nbins, readable p1 -> readable p2 -> weighted p1 w1 -> weighted p2 w2 -> sized p1 -> (0 < n)%nat ->
  moments_init p1 w1 (ma_radius a) (Some n) = Ok o0 -> spatial memory o0 None per mf = (o1, None) ->
  moments_distance memory tol (Object o1) (Data p2 w2) a nbins = moments_distance memory tol (Data p1 w1) (Data p2 w2) a nbins).
Proof. exact options_refuted. Qed.
Print Assumptions C275_options_refuted.
Example C275_instance : forall memory, moments_distance memory 1 (Data plain None) (Data plain None) (with_three true (8 / 10)) None = Ok (Fin 0, Fin 0) /\
  moments_distance memory 1 (Data plain None) (Data void None) (with_three true (8 / 10)) None = Ok (Fin 0, Fin 0) /\ moments_distance memory 1 (Data void None) (Data plain None) (with_three true (8 / 10)) None = Ok (NaN, NaN).
Proof. intros. split; [apply plain_plain|]. split; [apply void_second|apply void_first]. Qed.
Example C275_hypotheses : readable plain /\ complete plain /\ weighted plain None /\ sized plain /\ stands_for (fun _ _ => (NaN, NaN, NaN, NaN)) (Object other_maps) plain None two_pix false 1.
Proof.
  split; [apply plain_readable|]. split; [intros i j _ _; reflexivity|]. split; [exact I|]. split; [unfold sized; cbn; lra|]. right. exists 3%nat, plain_three, other_maps. split; [reflexivity|]. split; [lia|]. split; [apply plain_init_three|apply plain_made].
Qed.
