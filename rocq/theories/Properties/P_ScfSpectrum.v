(** The spectrum of the SCF surface, its fits and the order of the calls: C223-C227. *)
From Coq Require Import String Reals List ZArith Arith Bool Lia Lra.
From Verif Require Import Lib.PyBase Lib.Arr Lib.Fl Spec.Bins Spec.Annulus Spec.Blank Spec.Freq Spec.EllipFit Spec.ScfSpectrum
  Model.Psds Model.Scf Model.EllipPlaw Model.ScfSpectrum Proofs.Psds_Proofs Proofs.ScfSpectrum_Proofs Proofs.ScfSpectrum2_Proofs Proofs.ScfSpectrum3_Proofs.
Import ListNotations.
Local Open Scope R_scope.

(** ** C223.  For lags in equal steps around zero each value of the SCF spectrum is the
    mean of the surface over the lags whose length lies in the bin, and the lag axis holds
    the centres of the bins, in the units of the lags. *)
Theorem C223_uniform_partial : forall tppf o o' kw d n, do_spectrum tppf o kw = Ok o' ->
  s_roll_lags o = uniform_lags d n -> d <> 0 -> (2 <= n)%nat -> (forall s, s_surface o = Some s -> square_array n s) ->
  k_max_bin kw = None -> k_min_bin kw = None -> match k_nbins kw with Some k => (1 <= k)%nat | None => 0 < k_binsize kw end ->
  exists surface edges lags spec sd,
    s_surface o' = Some surface /\ s_lags o' = Some lags /\ s_spectrum o' = Some spec /\ s_stddev o' = Some sd /\
    increasing edges /\ (2 <= length edges)%nat /\ nth 0 edges 0 = Rabs d / 2 /\
    is_max (last edges 0) (map (fun p => lag_length (s_roll_lags o) (fst p) (snd p)) (pixels n n)) /\
    length lags = (length edges - 1)%nat /\ length spec = (length edges - 1)%nat /\
    forall b, (S b < length edges)%nat ->
      nth b lags 0 = (nth b edges 0 + nth (S b) edges 0) / 2 /\
      exists px, NoDup px /\
        (forall j i, In (j, i) px <->
           (j < n)%nat /\ (i < n)%nat /\ is_fin (at2 NaN surface j i) = true /\
           (forall t dt, k_theta_0 kw = Some (Some t) -> k_delta_theta kw = Some dt -> azim_mask n n t dt j i = true) /\
           in_bin edges b (lag_length (s_roll_lags o) j i)) /\
        ((length px <= 1)%nat -> nth b spec NaN = NaN /\ nth b sd NaN = NaN) /\
        ((2 <= length px)%nat ->
           nth b spec NaN = Fin (rmean (map (pixel_value surface) px)) /\
           forall t, tppf (length px) = Fin t ->
             nth b sd NaN = Fin (sample_std (map (pixel_value surface) px) * Rmax 1 (t / sqrt (INR (length px))))).
Proof. exact spectrum_values. Qed.
Print Assumptions C223_uniform_partial.

(** An object with a finite surface, whatever the lags. *)
Definition flat (n : nat) : list (list fl) := tab2 n n (fun j i => Fin (1 / (1 + INR (j + i)))).
Definition with_surface (lags : list R) (n : nat) : scf_obj := mk_scf 1 1 1 (fun _ _ _ => Fin 1) lags (Some (flat n)) None None None None None None.
Lemma flat_square n : square_array n (flat n).
Proof.
  split; [apply tab1_length|]. intros r Hr. unfold flat, tab2, tab1 in Hr. apply in_map_iff in Hr. destruct Hr as [j [<- _]]. apply tab1_length.
Qed.
Lemma flat_fin n j i : (j < n)%nat -> (i < n)%nat -> is_fin (at2 NaN (flat n) j i) = true.
Proof. intros Hj Hi. unfold at2, flat, tab2. rewrite (nth_indep _ [] (tab1 n (fun i => Fin (1 / (1 + INR (0 + i)))))) by now rewrite tab1_length. rewrite tab1_nth by assumption. now rewrite tab1_nth by assumption. Qed.
Example C223_instance : s_roll_lags (with_surface five 5) = uniform_lags 1 5 /\ (forall s, s_surface (with_surface five 5) = Some s -> square_array 5 s) /\
  exists o', do_spectrum (fun _ => Fin 1) (with_surface five 5) no_kwargs = Ok o'.
Proof.
  split; [exact five_uniform|]. split; [intros s [= <-]; apply flat_square|].
  destruct (spectrum5 (fun _ => Fin 1) (with_surface five 5) (flat 5) no_kwargs eq_refl eq_refl (flat_square 5) (or_introl eq_refl)) as [o' [E _]]. eauto.
Qed.

(** The lag axis is made from the first two lags only: for other spacings the reported lag is
    not that of the points averaged. *)
Theorem C223_skewed_refuted : forall tppf, exists o surface o' lags spec px,
  s_roll_lags o = [-4; -1; 0; 1; 4] /\ s_surface o = Some surface /\
  do_spectrum tppf o no_kwargs = Ok o' /\ s_lags o' = Some lags /\ s_spectrum o' = Some spec /\
  2 < nth 0 lags 0 /\ (2 <= length px)%nat /\ (forall j i, In (j, i) px -> lag_length (s_roll_lags o) j i = 1) /\
  nth 0 spec NaN = Fin (rmean (map (pixel_value surface) px)).
Proof.
  intros tppf. destruct (skewed_lags tppf (with_surface skewed 5) (flat 5) eq_refl eq_refl (flat_square 5) (flat_fin 5)) as [o' [lags [spec [px H]]]].
  exists (with_surface skewed 5), (flat 5), o', lags, spec, px. repeat (split; [reflexivity|]). exact H.
Qed.
Print Assumptions C223_skewed_refuted.
Theorem C223_one_sided_refuted : forall tppf, exists o surface o' lags spec px,
  s_roll_lags o = [0; 1; 2] /\ s_surface o = Some surface /\
  do_spectrum tppf o no_kwargs = Ok o' /\ s_lags o' = Some lags /\ s_spectrum o' = Some spec /\
  lag_length (s_roll_lags o) 0 0 = 0 /\ In (0, 0)%nat px /\ 1 < nth 1 lags 0 /\
  nth 1 spec NaN = Fin (rmean (map (pixel_value surface) px)).
Proof.
  intros tppf. destruct (one_sided_lags tppf (with_surface one_sided 3) (flat 3) eq_refl eq_refl (flat_square 3) (flat_fin 3)) as [o' [lags [spec [px H]]]].
  exists (with_surface one_sided 3), (flat 3), o', lags, spec, px. repeat (split; [reflexivity|]). exact H.
Qed.
Print Assumptions C223_one_sided_refuted.

(** ** C224.  What a run returns does not depend on what the object was used for before. *)
Theorem C224_run_again_partial : forall tppf wls solve perms o1 o2, same_data o1 o2 -> forall a,
  a_fit_2D a = false \/ a_use_azimmask a = false \/ k_theta_0 (a_spec a) <> None ->
  same_outcome (fun p1 p2 => same_1D p1 p2 /\ (a_fit_2D a = true -> s_fit2D p1 = s_fit2D p2))
    (do_run tppf wls solve perms o1 a) (do_run tppf wls solve perms o2 a).
Proof. exact run_again. Qed.
Print Assumptions C224_run_again_partial.
Example C224_instance : same_data (with_surface five 5) (with_surface five 3) /\ s_surface (with_surface five 5) <> s_surface (with_surface five 3).
Proof. split; [now repeat split|]. intros C. cbn [s_surface with_surface] in C. injection C as C. discriminate. Qed.

(** With use_azimmask, a spectrum without azimuthal limits still uses the limits of an
    earlier one in the 2D fit. *)
Theorem C224_stale_mask_refuted : forall tppf, exists o surface o1 o2 o3 lags sel2 sel3,
  s_surface o = Some surface /\ s_azim_mask o = None /\
  do_spectrum tppf o (kw_theta 0 (PI / 8)) = Ok o1 /\ do_spectrum tppf o1 no_kwargs = Ok o2 /\
  do_spectrum tppf o no_kwargs = Ok o3 /\ s_lags o2 = Some lags /\ s_lags o3 = Some lags /\
  pixels_2D o2 surface lags None None true = Ok sel2 /\ pixels_2D o3 surface lags None None true = Ok sel3 /\
  In (3, 3)%nat sel3 /\ ~ In (3, 3)%nat sel2.
Proof.
  intros tppf. destruct (stale_mask tppf (with_surface five 5) (flat 5) eq_refl eq_refl (flat_square 5) eq_refl) as [o1 [o2 [o3 [lags [s2 [s3 H]]]]]].
  exists (with_surface five 5), (flat 5), o1, o2, o3, lags, s2, s3. repeat (split; [reflexivity|]). exact H.
Qed.
Print Assumptions C224_stale_mask_refuted.
(** theta_0=None, the documented default, raises ValueError when it is written out. *)
Theorem C224_theta_none_refuted : forall tppf o surface nb bs dt, s_surface o = Some surface -> surface <> [] -> hd [] surface <> [] ->
  do_spectrum tppf o (mk_kw nb bs None None (Some None) dt) = Err ValueError.
Proof. exact theta_none. Qed.
Print Assumptions C224_theta_none_refuted.
Example C224_theta_instance : flat 3 <> [] /\ hd [] (flat 3) <> [].
Proof. split; discriminate. Qed.

(** ** C225.  The fit of the SCF spectrum *)
Theorem C225_recovers : forall wls o lags spec sd xlow xhigh,
  s_lags o = Some lags -> s_spectrum o = Some spec -> s_stddev o = Some sd -> good_limit xlow -> good_limit xhigh ->
  forall A s, 0 < A -> least_squares wls -> answers wls ->
  (forall b, In b (spectrum_bins lags spec sd) -> 0 < fst (fst b)) ->
  (forall b, In b (spectrum_bins lags spec sd) -> above xlow (fst (fst b)) -> below xhigh (fst (fst b)) -> on_power_law A s b) ->
  (exists b1 b2, In b1 (spectrum_bins lags spec sd) /\ In b2 (spectrum_bins lags spec sd) /\ fst (fst b1) <> fst (fst b2) /\
     (forall b, b = b1 \/ b = b2 -> measured b /\ above xlow (fst (fst b)) /\ below xhigh (fst (fst b)))) ->
  exists o', do_fit wls o xlow xhigh = Ok o' /\ s_fit o' = Some (Fin (log10 A), Fin s) /\
    forall x, 0 < x -> fitted_model (log10 A, s) x = A * Rpower x s.
Proof. exact fit_recovers. Qed.
Print Assumptions C225_recovers.
Theorem C225_nothing_left : forall wls o lags spec sd xlow xhigh,
  s_lags o = Some lags -> s_spectrum o = Some spec -> s_stddev o = Some sd -> good_limit xlow -> good_limit xhigh ->
  (forall b, In b (spectrum_bins lags spec sd) -> 0 < fst (fst b)) ->
  (do_fit wls o xlow xhigh = Err ValueError <->
   forall b, In b (spectrum_bins lags spec sd) -> above xlow (fst (fst b)) -> below xhigh (fst (fst b)) -> False).
Proof. exact fit_nothing_left. Qed.
Print Assumptions C225_nothing_left.
Theorem C225_wrong_type : forall wls o xlow xhigh, s_lags o <> None -> s_spectrum o <> None -> s_stddev o <> None ->
  xlow = NotQuantity \/ xhigh = NotQuantity -> do_fit wls o xlow xhigh = Err TypeError.
Proof. exact fit_wrong_type. Qed.
Print Assumptions C225_wrong_type.
(** a solver as supposed, and *)
Example C225_solver : least_squares solver_1D /\ answers solver_1D.
Proof. exact solver_exists. Qed.
(** four bins on 3 / l, the first outside the limits and the third blank *)
Example C225_instance : let lags := [1; 2; 3; 4] in let spec := [Fin 7; Fin (3 * Rpower 2 (-1)); NaN; Fin (3 * Rpower 4 (-1))] in
  let sd := [Fin 1; Fin (1 / 2); NaN; Fin (1 / 3)] in
  good_limit (Limit 2) /\ (forall b, In b (spectrum_bins lags spec sd) -> 0 < fst (fst b)) /\
  (forall b, In b (spectrum_bins lags spec sd) -> above (Limit 2) (fst (fst b)) -> below NoLimit (fst (fst b)) -> on_power_law 3 (-1) b) /\
  (exists b1 b2, In b1 (spectrum_bins lags spec sd) /\ In b2 (spectrum_bins lags spec sd) /\ fst (fst b1) <> fst (fst b2) /\
     (forall b, b = b1 \/ b = b2 -> measured b /\ above (Limit 2) (fst (fst b)) /\ below NoLimit (fst (fst b)))).
Proof.
  cbv zeta. unfold spectrum_bins. cbn [combine]. split; [cbn; lra|]. split.
  { intros b [<-|[<-|[<-|[<-|[]]]]]; cbn; lra. }
  split.
  { intros b [<-|[<-|[<-|[<-|[]]]]]; cbn [fst snd above below]; intros L _; [lra| | |].
    - right. right. split; [reflexivity|]. exists (1 / 2). split; [reflexivity|lra].
    - left. reflexivity.
    - right. right. split; [reflexivity|]. exists (1 / 3). split; [reflexivity|lra]. }
  exists (2, Fin (3 * Rpower 2 (-1)), Fin (1 / 2)), (4, Fin (3 * Rpower 4 (-1)), Fin (1 / 3)).
  split; [cbn; tauto|]. split; [cbn; tauto|]. split; [cbn; lra|]. intros b [->| ->]; cbn; repeat split; lra.
Qed.

(** ** C226.  The limits of the 2D fit.  A point is used when its lag times [bin_ratio n], the
    width of the bins of the spectrum in steps of the lags, is within the limits. *)
Theorem C226_rule_partial : forall tppf o o' kw d n, do_spectrum tppf o kw = Ok o' ->
  s_roll_lags o = uniform_lags d n -> d <> 0 -> (2 <= n)%nat -> Nat.odd n = true -> (forall s, s_surface o = Some s -> square_array n s) ->
  k_max_bin kw = None -> k_min_bin kw = None -> k_nbins kw = None -> k_binsize kw = 1 ->
  0 < bin_ratio n < 1 /\ exists surface lags, s_surface o' = Some surface /\ s_lags o' = Some lags /\
  forall xlow xhigh sel, pixels_2D o' surface lags (Some xlow) (Some xhigh) false = Ok sel ->
  forall j i, In (j, i) sel <-> (j < n)%nat /\ (i < n)%nat /\
    xlow < bin_ratio n * lag_length (s_roll_lags o) j i /\ bin_ratio n * lag_length (s_roll_lags o) j i <= xhigh.
Proof. intros tppf o o' kw d n H1 H2 H3 H4 H5 H6 H7 H8 H9 H10. split; [now apply bin_ratio_range|]. exact (limits_2D tppf o o' kw d n H1 H2 H4 H5 H6 H7 H8 H9 H10). Qed.
Print Assumptions C226_rule_partial.
Theorem C226_limits_refuted : forall tppf, exists o surface o' lags sel,
  s_roll_lags o = [-2; -1; 0; 1; 2] /\ s_surface o = Some surface /\ do_spectrum tppf o no_kwargs = Ok o' /\ s_lags o' = Some lags /\
  pixels_2D o' surface lags (Some (9 / 10)) (Some 2) false = Ok sel /\
  lag_length (s_roll_lags o) 2 3 = 1 /\ ~ In (2, 3)%nat sel /\
  2 < lag_length (s_roll_lags o) 0 0 /\ In (0, 0)%nat sel.
Proof.
  intros tppf. destruct (limits_2D_cex tppf (with_surface five 5) (flat 5) eq_refl eq_refl (flat_square 5)) as [o' [lags [sel H]]].
  exists (with_surface five 5), (flat 5), o', lags, sel. repeat (split; [reflexivity|]). cbn [s_roll_lags with_surface]. tauto.
Qed.
Print Assumptions C226_limits_refuted.
(** In a run both fits take the limits that are given, and only those. *)
Theorem C226_run : forall tppf wls solve perms o a o', do_run tppf wls solve perms o a = Ok o' -> a_fit_2D a = true ->
  exists o0 o1 low high, do_fit wls o0 (a_xlow a) (a_xhigh a) = Ok o1 /\
    do_fit2D solve perms o1 (a_p0 a) low high (a_levmarq a) (a_bootstrap a) (a_use_azimmask a) = Ok o' /\
    (forall r, low = Some r <-> a_xlow a = Limit r) /\ (forall r, high = Some r <-> a_xhigh a = Limit r).
Proof. exact run_limits. Qed.
Print Assumptions C226_run.

(** ** C227.  The angle of the elliptical model is measured as that of the azimuthal mask: in
    the polar coordinates [r, phi] of the mask the model has its major axis at [theta]. *)
Theorem C227_scf_partial : forall n i j A t theta gamma r phi, Nat.odd n = true -> (i < n)%nat -> (j < n)%nat -> 0 < r ->
  radial_x n j = r * cos phi -> radial_y n i = r * sin phi ->
  evaluate (radial_x n j) (radial_y n (n - 1 - i)) A (Fin t) theta gamma = Fin (A + gamma / 2 * log10 (ellipse_radius2 (q_of t) r (phi - theta))).
Proof. exact angle_scf. Qed.
Print Assumptions C227_scf_partial.
(** And these are the coordinates that the fit of the surface uses: x to the right, y upwards while
    the rows go down, from the middle of a surface with an odd number of lags.  The fit starts from
    the slope and amplitude of the spectrum if there are any. *)
Theorem C227_scf_fit_partial : forall solve perms o p0 xlow xhigh lm bs az lags surface n, s_lags o = Some lags -> s_surface o = Some surface -> square_array n surface -> Nat.odd n = true ->
  forall o', do_fit2D solve perms o p0 xlow xhigh lm bs az = Ok o' ->
  exists sel start r f, pixels_2D o surface lags xlow xhigh az = Ok sel /\
    (p0 = Some start \/ (p0 = None /\ exists a b, s_fit o = Some (a, b) /\ start = mkParams (fl_real a) (Fin 0) (PI / 2) (fl_real b)) \/
     (p0 = None /\ s_fit o = None /\ start = mkParams 1 (Fin 0) (PI / 2) (- (2 / 10)))) /\
    (let xs := map (fun p => INR (snd p) - INR (n / 2)) sel in
     let ys := map (fun p => INR (n / 2) - INR (fst p)) sel in
     fit_elliptical_powerlaw (solve xs ys) perms (map (fun p => flog10 (nth (snd p) (nth (fst p) surface []) NaN)) sel) xs ys start lm bs (6827 / 10000) false false = Ok r) /\
    store_2D r = Ok f /\ s_fit2D o' = Some f.
Proof. exact fit2D_points. Qed.
Print Assumptions C227_scf_fit_partial.
Example C227_scf_fit_instance : exists solve o o', s_lags o = Some lags5 /\ s_surface o = Some (flat 5) /\ square_array 5 (flat 5) /\
  do_fit2D solve [] o None (Some 0) (Some 10) true false false = Ok o'.
Proof.
  pose (o := mk_scf 1 1 1 (fun _ _ _ => Fin 1) five (Some (flat 5)) (Some lags5) None None None None None).
  destruct (pixels5_ok o (flat 5) (Some 0) (Some 10) false 2 3 (flat_square 5)) as [sel [E _]]; [lia|lia| |reflexivity|].
  { rewrite (d5 2 3 1); [rewrite sqrt_1; pose proof h5_range; lra|]. unfold radial_y, radial_x. replace (5 / 2)%nat with 2%nat by reflexivity. cbn [INR]. ring. }
  exists (fun _ _ p _ _ _ => (p, None)), o.
  enough (X : exists o', do_fit2D (fun _ _ p _ _ _ => (p, None)) [] o None (Some 0) (Some 10) true false false = Ok o').
  { destruct X as [o' X]. exists o'. split; [reflexivity|]. split; [reflexivity|]. split; [apply flat_square|exact X]. }
  unfold do_fit2D. cbn [s_lags s_surface o]. fold o. rewrite E. cbn [bind]. unfold fit_elliptical_powerlaw.
  replace (forallb is_fin _) with true; [cbn [negb bind]; destruct (fltb _ _); eexists; reflexivity|]. symmetry. apply forallb_forall. intros v Hv. apply in_map_iff in Hv. destruct Hv as [[j i] [<- Hp]].
  destruct (proj1 (pixels5 o (flat 5) (Some 0) (Some 10) false (flat_square 5) sel E j i) Hp) as [Hj [Hi _]]. cbn [fst snd].
  unfold flat. rewrite Psds_Proofs.at2_tab by assumption. rewrite flog10_pos; [reflexivity|]. apply Rdiv_lt_0_compat; [lra|]. pose proof (pos_INR (j + i)). lra.
Qed.
Theorem C227_pspec_partial : forall n i j A t theta gamma r phi, Nat.odd n = true -> (i < n)%nat -> (j < n)%nat -> 0 < r ->
  radial_x n j = r * cos phi -> radial_y n i = r * sin phi ->
  evaluate (at2 0 (xx_freq n n) i j) (at2 0 (yy_freq n n) i j) A (Fin t) theta gamma =
  Fin (A + gamma / 2 * log10 (ellipse_radius2 (q_of t) (r / INR n) (phi - theta))).
Proof. exact angle_pspec. Qed.
Print Assumptions C227_pspec_partial.
Example C227_instance : radial_x 5 4 = 2 * cos 0 /\ radial_y 5 2 = 2 * sin 0 /\ 0 < 2.
Proof. rewrite cos_0, sin_0. unfold radial_x, radial_y. replace (5 / 2)%nat with 2%nat by reflexivity. cbn [INR]. lra. Qed.
(** For a rectangular map the mask is in pixels and the model in frequencies; with an even
    number of rows they are a row apart. *)
Theorem C227_rectangle_refuted : exists i j, (i < 3)%nat /\ (j < 9)%nat /\ radial_y 3 i = radial_x 9 j /\ 0 < radial_x 9 j /\
  at2 0 (yy_freq 3 9) i j <> - at2 0 (xx_freq 3 9) i j /\ at2 0 (xx_freq 3 9) i j <> 0.
Proof. exact angle_rect. Qed.
Print Assumptions C227_rectangle_refuted.
Theorem C227_even_refuted : exists i j, (i < 4)%nat /\ (j < 4)%nat /\ radial_y 4 i = 0 /\ 0 < radial_x 4 j /\
  radial_y 4 (4 - 1 - i) = - radial_x 4 j /\ at2 0 (yy_freq 4 4) i j = - at2 0 (xx_freq 4 4) i j /\ 0 < at2 0 (xx_freq 4 4) i j.
Proof. exact angle_even. Qed.
Print Assumptions C227_even_refuted.
