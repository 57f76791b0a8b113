From Coq Require Import String Reals List ZArith Arith Bool Lia Lra Permutation.
From Coquelicot Require Import Complex.
From Verif Require Import Lib.PyBase Lib.Arr Lib.DFT Lib.Fl Lib.RSum Lib.Bins Spec.Bins Spec.Blank Spec.Freq Spec.Velocity Spec.ScfSpectrum Spec.PspecFit
  Model.StatsUtils Model.Psds Model.EllipPlaw Model.FitState Model.ScfSpectrum Model.PspecFit
  Proofs.Fl_Proofs Proofs.StatsUtils2_Proofs Proofs.Psds_Proofs Proofs.Psds2_Proofs Proofs.Azim_Proofs Proofs.Beam_Proofs Proofs.ScfSpectrum2_Proofs Proofs.PspecFit_Proofs Proofs.PspecFit2_Proofs Proofs.PspecFit3_Proofs Proofs.PspecFit4_Proofs.
Import ListNotations.
Local Open Scope R_scope.

(** ** What was done with the object before *)
Definition same_1Dfit (a : fit_args) (p1 p2 : pobj) : Prop :=
  o_ps2D p1 = o_ps2D p2 /\ o_freqs p1 = o_freqs p2 /\ o_ps1D p1 = o_ps1D p2 /\ o_stddev p1 = o_stddev p2 /\ o_low p1 = o_low p2 /\ o_high p1 = o_high p2 /\
  t_brk (o_state p1) = t_brk (o_state p2) /\ t_slope (o_state p1) = t_slope (o_state p2) /\
  t_slope_err (o_state p1) = t_slope_err (o_state p2) /\ o_amp p1 = o_amp p2 /\ (f_brk a = None -> t_brk_err (o_state p1) = t_brk_err (o_state p2)).

Lemma fit_again line err seg o1 o2 a : o_ps2D o1 = o_ps2D o2 -> o_freqs o1 = o_freqs o2 -> o_ps1D o1 = o_ps1D o2 -> o_stddev o1 = o_stddev o2 ->
  same_run (fun p1 p2 => same_1Dfit a p1 p2 /\ o_azim p1 = o_azim o1 /\ o_azim p2 = o_azim o2) (do_fit line err seg o1 a) (do_fit line err seg o2 a).
Proof.
  intros E1 E2 E3 E4. unfold do_fit. assert (ER : fit_rows o1 a = fit_rows o2 a) by (unfold fit_rows; now rewrite E1, E2, E3, E4). rewrite ER.
  destruct (fit_rows o2 a) as [[[low high] rows]|e]; [|reflexivity]. cbn [bind].
  assert (ST : forall oc, (f_brk a = None -> oc = None) -> same_run (fun p1 p2 => same_1Dfit a p1 p2 /\ o_azim p1 = o_azim o1 /\ o_azim p2 = o_azim o2)
    (l <- straight_line line rows ;; Ok (mk_p (o_ps2D o1) (o_freqs o1) (o_ps1D o1) (o_stddev o1) (o_azim o1) (Some low) (Some high)
        (fit_step true (f_min_pts a) (f_bootstrap a) (snd l, err (f_bootstrap a) rows) (o_state o1) oc) (Some (fst l)) (o_fit2D o1)))
    (l <- straight_line line rows ;; Ok (mk_p (o_ps2D o2) (o_freqs o2) (o_ps1D o2) (o_stddev o2) (o_azim o2) (Some low) (Some high)
        (fit_step true (f_min_pts a) (f_bootstrap a) (snd l, err (f_bootstrap a) rows) (o_state o2) oc) (Some (fst l)) (o_fit2D o2)))).
  { intros oc HO. destruct (straight_line line rows) as [l|e]; [|reflexivity]. cbn [bind same_run]. split; [|split; reflexivity].
    unfold same_1Dfit. cbn [o_ps2D o_freqs o_ps1D o_stddev o_low o_high o_state o_amp]. unfold fit_step.
    repeat split; try assumption; try (destruct oc as [[b be sl er bo be'|]|]; try destruct (Nat.ltb _ _); reflexivity).
    intros HB. rewrite (HO HB). reflexivity. }
  destruct (f_brk a) as [b|] eqn:EB; [|now apply ST]. destruct (seg rows _) as [[[[[[[b' be] sl] er] bo] amp]|]|e]; cbn [bind]; [|apply ST; discriminate|reflexivity].
  destruct (Nat.ltb (below_break b' rows) (f_min_pts a)) eqn:EL; [apply ST; discriminate|]. cbn [same_run]. split; [|split; reflexivity].
  unfold same_1Dfit. cbn [o_ps2D o_freqs o_ps1D o_stddev o_low o_high o_state o_amp]. unfold fit_step. rewrite EL. repeat split; try assumption.
Qed.

Lemma radial_again tppf o1 o2 logs kw : o_ps2D o1 = o_ps2D o2 ->
  same_run (fun p1 p2 => o_ps2D p1 = o_ps2D p2 /\ o_freqs p1 = o_freqs p2 /\ o_ps1D p1 = o_ps1D p2 /\ o_stddev p1 = o_stddev p2 /\ (k_theta_0 kw <> None -> o_azim p1 = o_azim p2))
    (do_radial tppf o1 logs kw) (do_radial tppf o2 logs kw).
Proof.
  intros E. unfold do_radial. rewrite E. destruct (o_ps2D o2) as [ps|]; [|reflexivity].
  match goal with |- same_run _ (bind ?m _) _ => destruct m as [out|e]; [|reflexivity] end. cbn [bind]. destruct (k_theta_0 kw) as [t|]; [|cbn; repeat split; congruence].
  destruct (prof_mask out); [|reflexivity]. cbn. repeat split; congruence.
Qed.

Lemma fit2D_again solve perms a o1 o2 g : same_1Dfit a o1 o2 -> (g_azim g = false \/ o_azim o1 = o_azim o2) ->
  same_run (fun p1 p2 => same_1Dfit a p1 p2 /\ o_fit2D p1 = o_fit2D p2) (do_fit2D solve perms o1 g) (do_fit2D solve perms o2 g).
Proof.
  intros [F1 [F2 [F3 [F4 [F5 [F6 [F7 [F8 [F9 [F10 F11]]]]]]]]]] HA. unfold do_fit2D. rewrite F1. destruct (o_ps2D o2) as [ps|] eqn:EPS; [|reflexivity].
  assert (EP : pixels_2Dpspec o1 ps (g_low g) (g_high g) (g_azim g) = pixels_2Dpspec o2 ps (g_low g) (g_high g) (g_azim g)).
  { unfold pixels_2Dpspec. rewrite F2. destruct (match g_high g, o_freqs o2 with Some r, _ => Ok r | None, Some f => Ok (rmax_list f) | None, None => Err AttributeError end) as [hi|e]; [|reflexivity]. cbn [bind].
    destruct HA as [->|HA]; [|now rewrite HA].
    rewrite (filter_ext (fun p => clip (match g_low g with Some r => r | None => default_low ps end) hi (freqs_raw (rows_of ps) (cols_of ps) (fst p) (snd p)) && match o_azim o1 with Some m => true | None => true end)
      (fun p => clip (match g_low g with Some r => r | None => default_low ps end) hi (freqs_raw (rows_of ps) (cols_of ps) (fst p) (snd p)) && match o_azim o2 with Some m => true | None => true end)); [reflexivity|].
    intros p. now destruct (o_azim o1), (o_azim o2). }
  rewrite EP. destruct (pixels_2Dpspec o2 ps (g_low g) (g_high g) (g_azim g)) as [[[lo hi] sel]|e]; [|reflexivity]. cbn [bind].
  assert (ES : start_2D o1 ps = start_2D o2 ps) by (unfold start_2D; now rewrite F8, F10). rewrite ES.
  match goal with |- same_run _ (bind ?m _) _ => destruct m as [r|e]; [|reflexivity] end. cbn [bind]. destruct (store_2D r) as [f|e]; [|reflexivity]. cbn [bind same_run].
  split; [|reflexivity]. unfold same_1Dfit. cbn [o_ps2D o_freqs o_ps1D o_stddev o_low o_high o_state o_amp]. repeat split; try assumption.
Qed.

Theorem run_history : forall tppf line err seg solve perms o1 o2 ps a,
  r_fit_2D a = false \/ g_azim (r_2D a) = false \/ k_theta_0 (r_radial a) <> None ->
  same_run (same_after a) (do_prun tppf line err seg solve perms o1 ps a) (do_prun tppf line err seg solve perms o2 ps a).
Proof.
  intros tppf line err seg solve perms o1 o2 ps a HA. unfold do_prun, do_pspec. destruct ps as [ps|e]; [|reflexivity]. cbn [bind].
  set (p1 := mk_p _ _ _ _ _ _ _ _ _ _). set (p2 := mk_p _ _ _ _ _ _ _ _ _ _).
  pose proof (radial_again tppf p1 p2 (r_log a) (r_radial a) eq_refl) as RA.
  destruct (do_radial tppf p1 (r_log a) (r_radial a)) as [q1|e1], (do_radial tppf p2 (r_log a) (r_radial a)) as [q2|e2]; cbn [same_run] in RA; try contradiction; [|now subst]. cbn [bind].
  destruct RA as [R1 [R2 [R3 [R4 R5]]]]. pose proof (fit_again line err seg q1 q2 (r_fit a) R1 R2 R3 R4) as FA.
  destruct (do_fit line err seg q1 (r_fit a)) as [s1|e1], (do_fit line err seg q2 (r_fit a)) as [s2|e2]; cbn [same_run] in FA; try contradiction; [|now subst]. cbn [bind].
  destruct FA as [F [Z1 Z2]]. destruct (r_fit_2D a) eqn:E2.
  - set (g := mk_f2 _ _ _ _ _ _ _ _). assert (HZ : g_azim g = false \/ o_azim s1 = o_azim s2).
    { destruct HA as [HA|[HA|HA]]; [discriminate|now left|]. right. rewrite Z1, Z2. now apply R5. }
    pose proof (fit2D_again solve perms (r_fit a) s1 s2 g F HZ) as FG.
    destruct (do_fit2D solve perms s1 g) as [t1|e1], (do_fit2D solve perms s2 g) as [t2|e2]; cbn [same_run] in *; try contradiction; [|assumption].
    destruct FG as [[G1 [G2 [G3 [G4 [G5 [G6 [G7 [G8 [G9 [G10 G11]]]]]]]]]] G12]. unfold same_after. repeat split; auto.
  - cbn [same_run]. destruct F as [G1 [G2 [G3 [G4 [G5 [G6 [G7 [G8 [G9 [G10 G11]]]]]]]]]]. unfold same_after. repeat split; auto. congruence.
Qed.

(** ** A mask left over *)
Lemma pspec_ok tppf ps nbins binsize maxb minb (th : option (R * R)) ny nx : length ps = ny -> length (hd [] ps) = nx -> (1 <= ny)%nat -> (1 <= nx)%nat -> (2 <= Nat.max ny nx)%nat ->
  exists out, pspec tppf ps nbins true binsize false maxb minb true (match th with Some p => Some (fst p) | None => None end) (match th with Some p => Some (snd p) | None => None end) nanmean = Ok out /\
    prof_mask out = match th with Some p => Some (azim_mask ny nx (fst p) (snd p)) | None => None end.
Proof.
  intros E1 E2 Hy Hx HM. unfold pspec. rewrite E1, E2. cbv zeta. pose proof (one_in_nonzero ny nx Hy Hx HM) as NZ.
  assert (L1 : Nat.eqb (length (pixels ny nx)) 0 = false).
  { apply Nat.eqb_neq. intros C. apply length_zero_iff_nil in C. assert (I : In (0, 0)%nat (pixels ny nx)) by (apply in_pixels; lia). now rewrite C in I. }
  assert (L2 : Nat.eqb (length (nonzero_freqs ny nx)) 0 = false).
  { apply Nat.eqb_neq. intros C. apply length_zero_iff_nil in C. now rewrite C in NZ. }
  destruct th as [[t d]|]; cbn [bind fst snd]; rewrite L1, L2; cbn [orb andb negb]; eexists; split; reflexivity.
Qed.

Definition kw_limits (t d : R) : spec_kwargs := mk_kw None 1 None None (Some (Some t)) (Some d).
Definition kw_none : spec_kwargs := mk_kw None 1 None None None None.
Lemma freq5 : freqs_raw 5 5 3 3 = sqrt (8 / 100).
Proof.
  rewrite freqs_raw_mode by lia. unfold mode_at, mode_freq, unshift. cbn [fst snd Nat.sub Nat.div Nat.modulo Nat.divmod Nat.add]. unfold axis_freq. cbn -[INR].
  f_equal. cbn [INR]. field.
Qed.
Lemma freq5' : freqs_raw 5 5 1 1 = sqrt (8 / 100).
Proof.
  rewrite freqs_raw_mode by lia. unfold mode_at, mode_freq, unshift. cbn [fst snd Nat.sub Nat.div Nat.modulo Nat.divmod Nat.add]. unfold axis_freq. cbn -[INR].
  f_equal. cbn [INR]. field.
Qed.
Lemma sqrt8_range : 1 / 10 < sqrt (8 / 100) <= 1 / 2.
Proof.
  split.
  - replace (1 / 10) with (sqrt (1 / 10 * (1 / 10))) by (apply sqrt_square; lra). apply sqrt_lt_1; lra.
  - replace (1 / 2) with (sqrt (1 / 2 * (1 / 2))) by (apply sqrt_square; lra). apply sqrt_le_1; lra.
Qed.

Theorem stale_mask_pspec : forall tppf o ps, o_ps2D o = Some ps -> length ps = 5%nat -> length (hd [] ps) = 5%nat -> o_azim o = None ->
  exists o1 o2 o3 lo hi sel2 sel3, do_radial tppf o false (kw_limits 0 (PI / 8)) = Ok o1 /\ do_radial tppf o1 false kw_none = Ok o2 /\ do_radial tppf o false kw_none = Ok o3 /\
    pixels_2Dpspec o2 ps (Some (1 / 10)) (Some (1 / 2)) true = Ok (lo, hi, sel2) /\ pixels_2Dpspec o3 ps (Some (1 / 10)) (Some (1 / 2)) true = Ok (lo, hi, sel3) /\
    In (3, 3)%nat sel3 /\ ~ In (3, 3)%nat sel2.
Proof.
  intros tppf o ps EP E1 E2 EA. destruct azim_block_cex as [T1 [T2 _]].
  assert (RAD : forall o' th, o_ps2D o' = Some ps -> exists o'', do_radial tppf o' false (match th with Some p => kw_limits (fst p) (snd p) | None => kw_none end) = Ok o'' /\ o_ps2D o'' = Some ps /\
     o_azim o'' = match th with Some p => Some (azim_mask 5 5 (fst p) (snd p)) | None => o_azim o' end).
  { intros o' th EO. destruct (pspec_ok tppf ps None 1 None None th 5 5 E1 E2 ltac:(lia) ltac:(lia) ltac:(cbn; lia)) as [out [EQ EM]]. unfold do_radial. rewrite EO.
    destruct th as [[t d]|]; unfold kw_limits, kw_none; cbn [fst snd k_nbins k_binsize k_max_bin k_min_bin k_theta_0 k_delta_theta] in *; rewrite EQ; cbn [bind]; rewrite ?EM; cbn [bind]; eexists; repeat split. }
  destruct (RAD o (Some (0, PI / 8)) EP) as [o1 [R1 [P1 A1]]]. destruct (RAD o1 None P1) as [o2 [R2 [P2 A2]]]. destruct (RAD o None EP) as [o3 [R3 [P3 A3]]].
  cbn [fst snd] in *. rewrite A1 in A2. rewrite EA in A3. pose proof sqrt8_range as RG.
  assert (PX : forall o' m, o_azim o' = m -> (match m with Some f => f 1%nat 1%nat | None => true end) = true ->
    exists sel, pixels_2Dpspec o' ps (Some (1 / 10)) (Some (1 / 2)) true = Ok (1 / 10, 1 / 2, sel) /\ (In (3, 3)%nat sel <-> (match m with Some f => f 3%nat 3%nat | None => true end) = true)).
  { intros o' m EM M1. unfold pixels_2Dpspec. cbn [bind]. unfold rows_of, cols_of. rewrite E1, E2, EM.
    set (f := fun p => clip (1 / 10) (1 / 2) (freqs_raw 5 5 (fst p) (snd p)) && match m with Some m0 => m0 (fst p) (snd p) | None => true end).
    assert (I1 : In (1, 1)%nat (filter f (pixels 5 5))).
    { apply filter_In. split; [apply in_pixels; lia|]. unfold f. cbn [fst snd]. rewrite M1, freq5'. rewrite clip_within. replace (within _ _ _) with true; [reflexivity|]. symmetry. apply within_iff. lra. }
    destruct (Nat.eqb_spec (length (filter f (pixels 5 5))) 0) as [Z|_]; [apply length_zero_iff_nil in Z; now rewrite Z in I1|].
    exists (filter f (pixels 5 5)). split; [reflexivity|]. rewrite filter_In. unfold f. cbn [fst snd]. rewrite freq5, clip_within. replace (within _ _ _) with true by (symmetry; apply within_iff; lra).
    rewrite in_pixels. cbn [andb]. split; [tauto|]. intros H. split; [lia|exact H]. }
  destruct (PX o2 _ A2 T1) as [sel2 [S2 I2]]. destruct (PX o3 _ A3 eq_refl) as [sel3 [S3 I3]].
  exists o1, o2, o3, (1 / 10), (1 / 2), sel2, sel3. split; [exact R1|]. split; [exact R2|]. split; [exact R3|]. split; [exact S2|]. split; [exact S3|]. split; [now apply I3|].
  intros C. apply I2 in C. rewrite T2 in C. discriminate.
Qed.

Theorem theta_none_pspec : forall tppf o ps logs nb bs mx mn dt, o_ps2D o = Some ps -> is_ok (do_radial tppf o logs (mk_kw nb bs mx mn (Some None) dt)) = false /\
  (do_radial tppf o logs (mk_kw nb bs mx mn (Some None) dt) = Err ValueError).
Proof.
  intros tppf o ps logs nb bs mx mn dt EP. assert (E : do_radial tppf o logs (mk_kw nb bs mx mn (Some None) dt) = Err ValueError); [|now rewrite E].
  unfold do_radial. rewrite EP. cbn [k_nbins k_binsize k_max_bin k_min_bin k_theta_0 k_delta_theta].
  destruct (pspec _ _ _ _ _ _ _ _ _ _ _ _) as [prof|e] eqn:E; cbn [bind].
  - destruct (pspec_shape _ _ _ _ _ _ _ _ _ _ _ _ E) as [_ [_ [P3 _]]]. rewrite (P3 eq_refl). reflexivity.
  - unfold pspec in E. cbv zeta in E. cbn [bind] in E. destruct (_ || _)%bool; [now injection E as <-|]. match type of E with (if ?c then _ else _) = _ => destruct c; [now injection E as <-|discriminate] end.
Qed.

(** ** The points of the 2D fit *)
Theorem points_2D : forall solve perms o ny nx image g freqs, (1 <= ny)%nat -> (1 <= nx)%nat -> holds_spectrum o ny nx image -> o_freqs o = Some freqs -> freqs <> [] -> g_azim g = false ->
  forall low high,
  (g_low g = Some low \/ (g_low g = None /\ low = 2 / INR (Nat.max ny nx))) -> (g_high g = Some high \/ (g_high g = None /\ is_max high freqs)) ->
  (exists k, In k (modes ny nx) /\ low < mode_freq ny nx k <= high) ->
  exists pts p0, Permutation pts (filter (fun k => within low high (mode_freq ny nx k)) (modes ny nx)) /\
    (g_p0 g = Some p0 \/ (g_p0 g = None /\
       ((exists s l amp, t_slope (o_state o) = Some (s :: l) /\ o_amp o = Some amp /\ p0 = mkParams (fl_real amp) (Fin 0) (PI / 2) (fl_real s)) \/
        ((t_slope (o_state o) = None \/ t_slope (o_state o) = Some [] \/ o_amp o = None) /\ p_gamma p0 = -2)))) /\
    do_fit2D solve perms o g =
      (r <- fit_elliptical_powerlaw (solve (map (fun k => axis_freq nx (snd k)) pts) (map (fun k => axis_freq ny (fst k)) pts)) perms
             (map (fun k => flog10 (Fin (mode_power ny nx image k))) pts) (map (fun k => axis_freq nx (snd k)) pts) (map (fun k => axis_freq ny (fst k)) pts) p0
             (g_levmarq g) (g_bootstrap g) (6827 / 10000) (g_radial g) (g_fix g) ;;
       f <- store_2D r ;;
       Ok (mk_p (o_ps2D o) (o_freqs o) (o_ps1D o) (o_stddev o) (o_azim o) (Some low) (Some high) (o_state o) (o_amp o) (Some f))).
Proof.
  intros solve perms o ny nx image g freqs Hy Hx HS HF NF HZ low high HL HH [k0 [K0 W0]]. destruct (power_shape ny nx image Hy Hx) as [E1 E2]. unfold do_fit2D. rewrite HS.
  set (ps := map (map Fin) (power_ps2D ny nx image)) in *.
  assert (EL : match g_low g with Some r => r | None => default_low ps end = low).
  { destruct HL as [->|[-> ->]]; [reflexivity|]. now apply default_low_val. }
  assert (EH : match g_high g, o_freqs o with Some r, _ => Ok r | None, Some f => Ok (rmax_list f) | None, None => Err AttributeError end = Ok high).
  { rewrite HF. destruct HH as [->|[-> M]]; [reflexivity|]. f_equal. eapply is_max_unique; [apply rmax_list_spec; exact NF|exact M]. }
  set (sel := filter (fun p => clip low high (freqs_raw ny nx (fst p) (snd p)) && match o_azim o with Some m => if g_azim g then m (fst p) (snd p) else true | None => true end) (pixels ny nx)).
  assert (ESEL : map (mode_at ny nx) sel = filter (fun k => within low high (mode_freq ny nx k)) (map (mode_at ny nx) (pixels ny nx))).
  { rewrite filter_map_comm. f_equal. apply filter_ext_in. intros [i j] Hp. apply in_pixels in Hp. cbn [fst snd]. rewrite clip_within, freqs_raw_mode by tauto. rewrite HZ. destruct (o_azim o); apply andb_true_r. }
  set (pts := map (mode_at ny nx) sel).
  assert (PP : Permutation pts (filter (fun k => within low high (mode_freq ny nx k)) (modes ny nx))) by (unfold pts; rewrite ESEL; apply Permutation_filter', modes_perm).
  assert (NE : Nat.eqb (length sel) 0 = false).
  { apply Nat.eqb_neq. intros C. apply length_zero_iff_nil in C. assert (I : In k0 pts) by (apply (Permutation_in _ (Permutation_sym PP)), filter_In; split; [exact K0|now apply within_iff]). unfold pts in I. now rewrite C in I. }
  assert (EPX : pixels_2Dpspec o ps (g_low g) (g_high g) (g_azim g) = Ok (low, high, sel)).
  { unfold pixels_2Dpspec. cbv zeta. rewrite EL, EH. cbn [bind]. rewrite E1, E2. fold sel. now rewrite NE. }
  exists pts, (match g_p0 g with Some p => p | None => start_2D o ps end). split; [exact PP|]. split.
  - destruct (g_p0 g) as [p|]; [now left|]. right. split; [reflexivity|]. unfold start_2D. destruct (t_slope (o_state o)) as [[|s l]|]; [right; split; [auto|reflexivity]| |right; split; [auto|reflexivity]].
    destruct (o_amp o) as [amp|]; [left; exists s, l, amp; auto|right; split; [auto|reflexivity]].
  - rewrite EPX. cbn [bind]. rewrite E1, E2.
    assert (BD : forall p, In p sel -> (fst p < ny)%nat /\ (snd p < nx)%nat) by (intros [i j] H; apply filter_In in H; destruct H as [H _]; now apply in_pixels in H).
    assert (EX : map (fun p => at2 0 (xx_freq ny nx) (fst p) (snd p)) sel = map (fun k => axis_freq nx (snd k)) pts).
    { unfold pts. rewrite map_map. apply map_ext_in. intros p Hp. destruct (BD p Hp). rewrite xx_freq_at by assumption. unfold mode_at. cbn [snd]. apply axis_freq_is. apply unshift_lt. lia. }
    assert (EY : map (fun p => at2 0 (yy_freq ny nx) (fst p) (snd p)) sel = map (fun k => axis_freq ny (fst k)) pts).
    { unfold pts. rewrite map_map. apply map_ext_in. intros p Hp. destruct (BD p Hp). rewrite yy_freq_at by assumption. unfold mode_at. cbn [fst]. apply axis_freq_is. apply unshift_lt. lia. }
    assert (EV : map (fun p => flog10 (at2 NaN ps (fst p) (snd p))) sel = map (fun k => flog10 (Fin (mode_power ny nx image k))) pts).
    { unfold pts. rewrite map_map. apply map_ext_in. intros [i j] Hp. destruct (BD _ Hp). cbn [fst snd]. unfold ps. now rewrite power_at by assumption. }
    rewrite EX, EY, EV. reflexivity.
Qed.
