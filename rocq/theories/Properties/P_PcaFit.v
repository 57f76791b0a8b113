(** Properties C194-C205: size-line width relation from principal components. *)
From Coq Require Import String Reals List ZArith Arith Lra Lia.
From Verif Require Import Lib.PyBase Lib.RSum Lib.Fl Lib.Arr Spec.MexHat Spec.Units Spec.Components Spec.SizeWidth
  Model.Units Model.BaseStat Model.Pca Model.EllipPlaw Model.PcaFit
  Proofs.PcaFit_Proofs Proofs.PcaFit2_Proofs Proofs.PcaFit3_Proofs Proofs.PcaFit4_Proofs.
Import ListNotations.
Local Open Scope R_scope.

(** C194 fails: the autocorrelation spectrum of a unit vector is zero at zero lag. *)
Theorem C194_refuted : exists nz eigvecs n l, autocorr_spec nz eigvecs n = Ok l /\ (2 <= n <= Z.of_nat nz)%Z /\
  (forall i, (i < nz)%nat -> rsum nz (fun c => eigvecs c i * eigvecs c i) = 1) /\
  nth 0 (nth 0 l []) 0 = 0 /\ spectrum_acf nz (fun channel => eigvecs channel 0%nat) 0 = 1.
Proof. exact spec_refuted. Qed.
Print Assumptions C194_refuted.

(** C194, what holds: every spectrum is the autocorrelation of its eigenvector with the
    first channel set to zero; so it is the wanted one when that channel is zero. *)
Theorem C194_values_partial : forall nz eigvecs n, (2 <= n <= Z.of_nat nz)%Z ->
  exists l, autocorr_spec nz eigvecs n = Ok l /\ length l = Z.to_nat n /\
    forall idx, (idx < Z.to_nat n)%nat -> length (nth idx l []) = nz /\
      forall d, (d < nz)%nat -> nth d (nth idx l []) 0 = spectrum_acf nz (drop_first (fun channel => eigvecs channel idx)) d.
Proof. exact spec_values. Qed.
Print Assumptions C194_values_partial.

Theorem C194_true_partial : forall n v d, v 0%nat = 0 -> spectrum_acf n (drop_first v) d = spectrum_acf n v d.
Proof. exact drop_first_id. Qed.
Print Assumptions C194_true_partial.

(** C194, what holds: symmetric in the lag, and nowhere above its value at zero lag. *)
Theorem C194_shape_partial : forall nz eigvecs n l, (2 <= n <= Z.of_nat nz)%Z -> autocorr_spec nz eigvecs n = Ok l ->
  forall idx, (idx < Z.to_nat n)%nat -> let a := nth idx l [] in
    (forall d, (1 <= d < nz)%nat -> nth d a 0 = nth (nz - d) a 0) /\ (forall d, (d < nz)%nat -> Rabs (nth d a 0) <= nth 0 a 0).
Proof.
  intros nz eigvecs n l Hn H idx Hi. destruct (spec_values nz eigvecs n Hn) as [l' [H' [_ K]]]. rewrite H in H'. injection H' as <-.
  destruct (K idx Hi) as [_ E]. cbv zeta. split; intros d Hd.
  - rewrite !E by lia. apply spectrum_acf_sym. lia.
  - rewrite !E by lia. apply spectrum_acf_peak.
Qed.
Print Assumptions C194_shape_partial.

Example C194_nonvacuous : exists l, autocorr_spec 4 ex_ramp 2 = Ok l /\ nth 0 (nth 0 l []) 0 = 1 /\ nth 1 (nth 0 l []) 0 = 0.
Proof.
  destruct (spec_values 4 ex_ramp 2 ltac:(cbn; lia)) as [l [H [_ K]]]. exists l. split; [exact H|].
  destruct (K 0%nat ltac:(cbn; lia)) as [_ E]. rewrite !E by lia. unfold spectrum_acf. cbn. split; ring.
Qed.

(** C195 fails: with a single component there is no width. *)
Theorem C195_refuted : forall nz eigvecs, (1 <= nz)%nat ->
  autocorr_spec nz eigvecs 1 = Err ValueError /\ find_spectral_widths nz eigvecs 1 = Err ValueError.
Proof. exact spec_single. Qed.
Print Assumptions C195_refuted.

(** C195, what holds from two components on: the width of every component is where its
    autocorrelation spectrum, interpolated, first falls to 1/e of its peak; it is positive
    and at most half the number of channels; NaN only without such a place. *)
Theorem C195_partial : forall nz eigvecs n, (2 <= n <= Z.of_nat nz)%Z ->
  exists l, find_spectral_widths nz eigvecs n = Ok l /\ length l = Z.to_nat n /\
  forall idx, (idx < Z.to_nat n)%nat ->
    let acf := spectrum_acf nz (drop_first (fun channel => eigvecs channel idx)) in
    ((acf 0%nat = 0 \/ forall d, (d < nz)%nat -> exp (-1) * acf 0%nat <= acf d) /\ nth idx l (NaN, NaN) = (NaN, NaN)) \/
    exists d w, (1 <= d)%nat /\ (2 * d <= nz)%nat /\ acf d < exp (-1) * acf 0%nat /\ (forall j, (j < d)%nat -> exp (-1) * acf 0%nat <= acf j) /\
      nth idx l (NaN, NaN) = (Fin w, Fin (1 / 2)) /\ 0 < w /\ INR d - 1 <= w < INR d /\
      acf (d - 1)%nat + (w - (INR d - 1)) * (acf d - acf (d - 1)%nat) = exp (-1) * acf 0%nat.
Proof. exact widths_each. Qed.
Print Assumptions C195_partial.

Example C195_nonvacuous : exists l w, find_spectral_widths 4 ex_ramp 2 = Ok l /\ nth 0 l (NaN, NaN) = (Fin w, Fin (1 / 2)) /\ 0 < w < 1.
Proof. exact ex_width. Qed.

(** C196 fails: a negative number never gives the last spectra. *)
Theorem C196_refuted : forall nz eigvecs n, (n < 0)%Z -> autocorr_spec nz eigvecs n = Err UnboundLocalError.
Proof. exact spec_negative. Qed.
Print Assumptions C196_refuted.

(** C196, what holds: a positive number (two or more) gives the first spectra. *)
Theorem C196_positive_partial : forall nz eigvecs n m, (2 <= n <= m)%Z -> (m <= Z.of_nat nz)%Z ->
  exists l l', autocorr_spec nz eigvecs n = Ok l /\ autocorr_spec nz eigvecs m = Ok l' /\ l = firstn (Z.to_nat n) l'.
Proof.
  intros nz eigvecs n m H K. eexists. eexists. split; [apply spec_ok; lia|]. split; [apply spec_ok; lia|].
  rewrite firstn_map. f_equal. replace (Z.to_nat m) with (Z.to_nat n + (Z.to_nat m - Z.to_nat n))%nat by lia. rewrite seq_app.
  rewrite firstn_app, seq_length, Nat.sub_diag. rewrite firstn_all2 by now rewrite seq_length. cbn. now rewrite app_nil_r.
Qed.
Print Assumptions C196_positive_partial.

Example C196_nonvacuous : autocorr_spec 4 ex_ramp (-2) = Err UnboundLocalError /\ exists l, autocorr_spec 4 ex_ramp 3 = Ok l /\ length l = 3%nat.
Proof. split; [reflexivity|]. eexists. split; [apply spec_ok; cbn; lia|]. reflexivity. Qed.

(** C197.  The components that are fitted are those whose size lies between the limits and
    whose widths and errors are numbers; limits may be given in pixels, as angles or as
    lengths.  With fewer than two of them the call raises and the last fit stays. *)
Theorem C197_fit : forall s rows odr bayes st c lo hi pts, known_method (c_method c) -> limit_is s (c_xlow c) lo -> limit_is s (c_xhigh c) hi ->
  Forall (fun r => size_like (w_spat r)) rows -> only (fun r => between lo hi r /\ usable r) rows pts ->
  ((2 <= length pts)%nat -> snd (fit_plaw s rows odr bayes st c) = None /\
     p_fit (fst (fit_plaw s rows odr bayes st c)) = Some (if String.eqb (c_method c) "odr" then odr pts else fst (bayes pts))) /\
  ((length pts < 2)%nat -> exists e, snd (fit_plaw s rows odr bayes st c) = Some e /\ p_fit (fst (fit_plaw s rows odr bayes st c)) = p_fit st).
Proof. exact fit_selects. Qed.
Print Assumptions C197_fit.

(** C197.  Other names for the method are refused and change nothing. *)
Theorem C197_method : forall s rows odr bayes st c, ~ known_method (c_method c) -> fit_plaw s rows odr bayes st c = (st, Some TypeError).
Proof.
  intros s rows odr bayes st c H. unfold fit_plaw. destruct (_ && _)%bool eqn:E; [reflexivity|]. apply known_test in E. contradiction.
Qed.
Print Assumptions C197_method.

Example C197_nonvacuous : Forall (fun r => size_like (w_spat r)) ex_rows /\ only (fun r => between None None r /\ usable r) ex_rows (firstn 2 ex_rows) /\
  snd (fit_plaw ex_stat ex_rows ex_odr ex_bayes unfit ex_ok) = None /\ exists e, snd (fit_plaw ex_stat ex_rows ex_odr ex_bayes unfit ex_bad) = Some e.
Proof. split; [apply ex_sizes|]. split; [apply ex_selected|]. split; [apply ex_accept|apply ex_reject]. Qed.

(** C198 fails: a fit that is refused changes the method by which the last fit's sonic
    length is computed, so the sonic length is lost. *)
Theorem C198_refuted : exists s rows odr bayes c c', snd (fit_plaw s rows odr bayes unfit c) = None /\ snd (fit_plaw s rows odr bayes unfit c') <> None /\
  (exists r, sonic_length (fit_all s rows odr bayes unfit [c]) 1 false = Ok r) /\
  sonic_length (fit_all s rows odr bayes unfit [c; c']) 1 false = Err AttributeError.
Proof. exact rejected_changes. Qed.
Print Assumptions C198_refuted.

(** C198, what holds in every history: index, intercept, their errors and the samples are
    those of the last call that went through. *)
Theorem C198_partial : forall s rows odr bayes st l1 c l2, snd (fit_plaw s rows odr bayes unfit c) = None ->
  (forall c', In c' l2 -> snd (fit_plaw s rows odr bayes unfit c') <> None) ->
  let after := fit_all s rows odr bayes st (l1 ++ c :: l2) in
  let then_ := fst (fit_plaw s rows odr bayes (fit_all s rows odr bayes st l1) c) in
  p_fit after = p_fit then_ /\ p_samps after = p_samps then_.
Proof. exact last_fit. Qed.
Print Assumptions C198_partial.

Example C198_nonvacuous : snd (fit_plaw ex_stat ex_rows ex_odr ex_bayes unfit ex_ok) = None /\ snd (fit_plaw ex_stat ex_rows ex_odr ex_bayes unfit ex_bad) <> None.
Proof. split; [apply ex_accept|]. destruct (ex_reject unfit) as [e E]. rewrite E. discriminate. Qed.

(** C199.  At the sonic length the fitted line width is the sound speed. *)
Theorem C199_on_line : forall c_s g f, 0 < c_s -> 0 < f_intercept f -> used_index g f <> 0 ->
  line_width (f_intercept f) (used_index g f) (sonic_value c_s g f) = c_s.
Proof. exact sonic_on_line. Qed.
Print Assumptions C199_on_line.

(** C199.  It does not depend on the channel width in which line widths are measured. *)
Theorem C199_channels : forall c_s w slope icept es ei g, 0 < c_s -> 0 < w ->
  sonic_value (sound_channels c_s w) g (odr_fitted slope (icept - log10 w) es ei) = sonic_value c_s g (odr_fitted slope icept es ei).
Proof. exact sonic_channels. Qed.
Print Assumptions C199_channels.

(** C199.  It grows with the temperature, for a positive exponent. *)
Theorem C199_temperature : forall kB mp T T' mu w g f, 0 < kB -> 0 < mp -> 0 < T -> T < T' -> 0 < mu -> w <> 0 -> 0 < f_intercept f -> 0 < used_index g f ->
  sonic_value (sound_channels (sound_speed kB mp T mu) w) g f < sonic_value (sound_channels (sound_speed kB mp T' mu) w) g f.
Proof.
  intros kB mp T T' mu w g f H1 H2 H3 H4 H5 H6 H7 H8. pose proof (Rabs_pos_lt w H6).
  apply sonic_increasing; auto; unfold sound_channels.
  - apply Rdiv_lt_0_compat; auto. now apply sound_pos.
  - unfold Rdiv. apply Rmult_lt_compat_r; [now apply Rinv_0_lt_compat|]. now apply sound_increasing.
Qed.
Print Assumptions C199_temperature.

Example C199_nonvacuous : 0 < f_intercept ex_fitted /\ used_index false ex_fitted = 1 /\ 0 < used_index true ex_fitted.
Proof. split; [apply exp_pos|]. split; [reflexivity|]. cbn. unfold brunt_index_correct. lra. Qed.

(** C200 fails: for a negative exponent the upper bound lies below the sonic length, and the
    range depends on the channel width. *)
Theorem C200_order_refuted : exists c_s f, 0 < c_s /\ 0 < f_intercept f /\ f_index f < 0 /\ snd (sonic_range_odr c_s false f) < sonic_value c_s false f.
Proof. exact odr_negative. Qed.
Print Assumptions C200_order_refuted.

Theorem C200_channels_refuted : exists c_s w slope icept es ei, 0 < c_s /\ 0 < w /\ 0 < slope /\
  sonic_range_odr (sound_channels c_s w) false (odr_fitted slope (icept - log10 w) es ei) <> sonic_range_odr c_s false (odr_fitted slope icept es ei).
Proof. exact odr_channels. Qed.
Print Assumptions C200_channels_refuted.

(** C200, what holds: for a positive exponent the range contains the sonic length. *)
Theorem C200_partial : forall c_s g f, 0 < c_s -> 0 < f_intercept f -> 0 < used_index g f ->
  let r := sonic_range_odr c_s g f in fst r <= sonic_value c_s g f <= snd r.
Proof. exact odr_bracket. Qed.
Print Assumptions C200_partial.

Example C200_nonvacuous : 0 < f_intercept ex_fitted /\ 0 < used_index false ex_fitted.
Proof. split; [apply exp_pos|]. cbn. lra. Qed.

(** C201 fails: the spread of the slopes does not enter the range. *)
Theorem C201_refuted : exists c_s f samps, 0 < c_s /\ 0 < f_index f /\ (forall sm, In sm samps -> 0 < fst sm) /\
  (let r := sonic_range_bayes c_s false f samps in fst r = snd r) /\
  percentile (sort_r (map (fun sm => sonic_of c_s (fst sm) (snd sm)) samps)) 15 < percentile (sort_r (map (fun sm => sonic_of c_s (fst sm) (snd sm)) samps)) 85.
Proof. exact bayes_refuted. Qed.
Print Assumptions C201_refuted.

(** C201 fails in general: samples that share their intercept give an empty range, whatever
    their slopes. *)
Theorem C201_blind_refuted : forall c_s g f (samps : list (R * R)) i0, samps <> [] -> (forall sm, In sm samps -> snd sm = i0) ->
  let r := sonic_range_bayes c_s g f samps in fst r = snd r.
Proof. exact bayes_blind. Qed.
Print Assumptions C201_blind_refuted.

(** C201, what holds: the range is that of the samples' sonic lengths when every sample has
    the fitted slope; and its bounds are always in order. *)
Theorem C201_same_slope_partial : forall c_s (g : bool) f (samps : list (R * R)),
  (forall sm, In sm samps -> (if g then brunt_index_correct (fst sm) else fst sm) = used_index g f) ->
  sonic_range_bayes c_s g f samps =
  (percentile (sort_r (map (fun sm => sonic_of c_s (if g then brunt_index_correct (fst sm) else fst sm) (snd sm)) samps)) 15,
   percentile (sort_r (map (fun sm => sonic_of c_s (if g then brunt_index_correct (fst sm) else fst sm) (snd sm)) samps)) 85).
Proof. exact bayes_same_slope. Qed.
Print Assumptions C201_same_slope_partial.

Theorem C201_ordered_partial : forall c_s g f samps, samps <> [] -> fst (sonic_range_bayes c_s g f samps) <= snd (sonic_range_bayes c_s g f samps).
Proof. exact bayes_ordered. Qed.
Print Assumptions C201_ordered_partial.

Example C201_nonvacuous : forall sm, In sm [(1, 0); (1, 1)] -> fst sm = used_index false ex_fitted.
Proof. intros sm [<-|[<-|[]]]; reflexivity. Qed.

(** C202 fails: the range of gamma need not contain gamma, and gamma is not the solution of
    the relations it is documented to be derived from. *)
Theorem C202_refuted : exists lo a hi, lo <= a <= hi /\ ~ fst (brunt_index_correct_range lo hi) <= brunt_index_correct a.
Proof. exact gamma_outside. Qed.
Print Assumptions C202_refuted.

Theorem C202_relation_refuted : forall beta gamma alpha, alpha = 33 / 100 * beta - 5 / 100 -> beta = 2 * gamma + 1 ->
  0 <= alpha <= 2 -> 22 / 100 < brunt_index_correct alpha - gamma < 26 / 100.
Proof. exact gamma_relation. Qed.
Print Assumptions C202_relation_refuted.

(** C202, what holds: gamma lies in its range unless the lower bound of the index is below
    -10/9; and it grows with the index. *)
Theorem C202_partial : forall lo a hi, - (10 / 9) <= lo -> lo <= a <= hi ->
  fst (brunt_index_correct_range lo hi) <= brunt_index_correct a <= snd (brunt_index_correct_range lo hi).
Proof. exact gamma_bracket. Qed.
Print Assumptions C202_partial.

Theorem C202_increasing_partial : forall a b, a < b -> brunt_index_correct a < brunt_index_correct b.
Proof. intros a b H. unfold brunt_index_correct. lra. Qed.
Print Assumptions C202_increasing_partial.

Example C202_nonvacuous : - (10 / 9) <= 1 / 2 /\ 1 / 2 <= 6 / 10 <= 7 / 10 /\ 0 < brunt_index_correct (6 / 10).
Proof. unfold brunt_index_correct. lra. Qed.

(** C203.  The error of the combined width lies between the errors along the two axes. *)
Theorem C203_between : forall t y x ey ex, 0 <= ey -> 0 <= ex -> (y <> t \/ x <> t) ->
  exists w e, combine_widths (Fin t) (Fin y) (Fin x) (Fin ey) (Fin ex) = (Fin w, Fin e) /\
    w = sqrt ((y - t) ^ 2 + (x - t) ^ 2) /\ 0 < w /\ Rmin ey ex <= e <= Rmax ey ex.
Proof. exact combined_error. Qed.
Print Assumptions C203_between.

(** C203.  Widths that equal the beam's contribution have no error, so they are not fitted. *)
Theorem C203_zero : forall t ey ex, combine_widths (Fin t) (Fin t) (Fin t) (Fin ey) (Fin ex) = (Fin 0, NaN).
Proof. exact combined_zero. Qed.
Print Assumptions C203_zero.

Example C203_nonvacuous : (3 <> 1 \/ 1 <> 1) /\ exists w e, combine_widths (Fin 1) (Fin 3) (Fin 1) (Fin 1) (Fin 2) = (Fin w, Fin e) /\ 1 <= e <= 2.
Proof.
  split; [left; lra|]. destruct (combined_error 1 3 1 1 2) as [w [e [E [_ [_ H]]]]]; [lra|lra|left; lra|].
  exists w, e. split; [exact E|]. rewrite Rmin_left, Rmax_right in H by lra. exact H.
Qed.

(** C204 fails: the fitted model can never be evaluated. *)
Theorem C204_refuted : forall f x, model f x = Err TypeError.
Proof. reflexivity. Qed.
Print Assumptions C204_refuted.

(** C205.  Eigenvectors are only defined up to their sign: the autocorrelations, the noise
    autocorrelation and the spectral widths do not depend on it. *)
Theorem C205_images : forall nz ny nx data ms eps eigvals eigvecs s n, sign_choice s ->
  autocorr_images nz ny nx data ms eps eigvals (signed s eigvecs) n = autocorr_images nz ny nx data ms eps eigvals eigvecs n.
Proof. exact images_sign. Qed.
Print Assumptions C205_images.

Theorem C205_noise : forall nz ny nx data ms eps eigvals eigvecs s n, sign_choice s ->
  noise_ACF nz ny nx data ms eps eigvals (signed s eigvecs) n = noise_ACF nz ny nx data ms eps eigvals eigvecs n.
Proof. exact noise_sign. Qed.
Print Assumptions C205_noise.

Theorem C205_widths : forall nz eigvecs s n, sign_choice s ->
  autocorr_spec nz (signed s eigvecs) n = autocorr_spec nz eigvecs n /\ find_spectral_widths nz (signed s eigvecs) n = find_spectral_widths nz eigvecs n.
Proof. intros nz eigvecs s n H. split; [now apply spec_sign|now apply widths_sign]. Qed.
Print Assumptions C205_widths.

Example C205_nonvacuous : sign_choice (fun idx => if Nat.even idx then 1 else -1) /\ signed (fun idx => if Nat.even idx then 1 else -1) ex_basis 1%nat 1%nat = -1.
Proof. split; [intros idx; destruct (Nat.even idx); auto|]. unfold signed, ex_basis. cbn. ring. Qed.
