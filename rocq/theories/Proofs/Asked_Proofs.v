(** A break asked for of a spectrum or a delta variance that is a plain power law. *)
From Coq Require Import String Reals List ZArith Arith Bool Lia Lra Permutation.
From Verif Require Import Lib.PyBase Lib.Arr Lib.Fl Lib.RSum Spec.Blank Spec.Segmented Spec.BreakFit Spec.PspecFit Spec.ScfSpectrum
  Model.Psds Model.Units Model.EllipPlaw Model.LmSeg Model.BreakFit Model.PspecFit Model.DeltaVar Model.FitState Model.DeltaVarRun Model.WaveletRun Spec.Asked
  Proofs.Fl_Proofs Proofs.Psds_Proofs Proofs.Psds2_Proofs Proofs.Beam_Proofs Proofs.ScfSpectrum2_Proofs Proofs.PspecFit_Proofs Proofs.PspecFit2_Proofs Proofs.PspecFit3_Proofs Proofs.DeltaVar2_Proofs Proofs.Wavelet3_Proofs Proofs.LmSeg_Proofs
  Proofs.BreakFit_Proofs Proofs.BreakFit2_Proofs Proofs.BreakFit3_Proofs Proofs.Straight_Proofs.
Import ListNotations.
Local Open Scope R_scope.

Lemma plain_broken A s B f : 0 < B -> 0 < f -> broken_plaw A s s B f = A * Rpower f s.
Proof.
  intros HB Hf. unfold broken_plaw. destruct (Rlt_dec f B); [reflexivity|]. rewrite Rmult_assoc. rewrite Rpower_mult_distr by (try apply Rdiv_lt_0_compat; assumption).
  replace (B * (f / B)) with f by (field; lra). reflexivity.
Qed.
Lemma read_straight boot g p0 m : g_fail g = true -> g_params g = [Fin p0; Fin m] -> length (g_errs g) = 2%nat -> read_break boot g = Ok None.
Proof.
  intros F P L. unfold read_break, get_slopes. rewrite F. unfold params, param_errs. rewrite P. destruct (g_errs g) as [|e1 [|e2 [|]]]; try discriminate. cbn. reflexivity.
Qed.
(** The segmented fit of rows on a straight line keeps no break *)
Lemma seg_plain ols boot weighted A s B B0 fs : regression ols -> 0 < A -> 0 < B -> 0 < B0 ->
  (forall f, In f fs -> 0 < fst f /\ 0 < snd f) -> two_sided B0 (map fst fs) ->
  pspec_seg ols boot weighted (map (broken_row A s s B) fs) (Fin (EllipPlaw.log10 B0)) = Ok None.
Proof.
  intros REG HA HB HB0 HP T. assert (HP' : forall f, In f (map fst fs) -> 0 < f) by (intros f Hf; apply in_map_iff in Hf; destruct Hf as [z [<- Hz]]; now apply HP).
  set (w := if weighted then Some (map snd fs) else None).
  destruct (lm_straight ols (map EllipPlaw.log10 (map fst fs)) w (EllipPlaw.log10 A) s (EllipPlaw.log10 B0) REG (log_sided _ _ HB0 HP' T)) as (g & E & _ & F & P & L & _).
  { unfold w. destruct weighted; [|exact I]. rewrite !map_length. split; [reflexivity|]. intros v Hv. apply in_map_iff in Hv. destruct Hv as [z [<- Hz]]. now apply HP. }
  unfold pspec_seg. rewrite !map_map in *. cbn [broken_row as_row fst snd] in *.
  replace (map (fun f => Fin (EllipPlaw.log10 (broken_plaw A s s B (fst f)))) fs) with (map (fun f => Fin (EllipPlaw.log10 A + s * EllipPlaw.log10 (fst f))) fs).
  2:{ apply map_ext_in. intros f Hf. apply f_equal. rewrite plain_broken by (try exact HB; now apply HP). symmetry. now apply log10_plaw. }
  replace (if weighted then Some (map (fun f => Fin (snd f)) fs) else None) with (option_map (map Fin) w) by (unfold w; destruct weighted; cbn; [now rewrite map_map|reflexivity]).
  rewrite E. cbn [bind]. exact (read_straight boot g _ _ F P L).
Qed.

(** The fit of rows on a straight line is that without a break *)
Lemma asked_same ols boot line err seg o a low high A s B B0 fs o2 : regression ols -> 0 < A -> 0 < B -> 0 < B0 ->
  start_at B0 (PspecFit.f_brk a) (f_log_break a) -> fit_rows o a = Ok (low, high, map (broken_row A s s B) fs) ->
  (forall f, In f fs -> 0 < fst f /\ 0 < snd f) -> two_sided B0 (map fst fs) ->
  do_fit line err seg o (without_break a) = Ok o2 ->
  exists o1, do_fit line err (pspec_seg ols boot (f_weighted a)) o a = Ok o1 /\ same_but_error o1 o2 /\
    t_brk_err (o_state o1) = t_brk_err (o_state o) /\ t_brk_err (o_state o2) = Some None.
Proof.
  intros REG HA HB HB0 ST ER HP T. unfold do_fit. change (fit_rows o (without_break a)) with (fit_rows o a). rewrite ER. cbn [bind].
  assert (EB : exists b, PspecFit.f_brk a = Some b /\ (if f_log_break a then Fin b else EllipPlaw.flog10 (Fin b)) = Fin (EllipPlaw.log10 B0)).
  { unfold start_at in ST. destruct (f_log_break a); (eexists; split; [exact ST|]); [reflexivity|now apply flog10_pos]. }
  destruct EB as [b [EB1 EB2]]. cbn [without_break PspecFit.f_brk f_min_pts f_bootstrap]. rewrite EB1, EB2, (seg_plain ols boot (f_weighted a) A s B B0 fs REG HA HB HB0 HP T). cbn [bind].
  destruct (PspecFit.straight_line line _) as [l|x]; [|discriminate]. cbn [bind]. intros E. injection E as <-.
  eexists. split; [reflexivity|]. split; [repeat split|]. split; reflexivity.
Qed.

Theorem binned_asked : forall ols boot line err seg o a ps freqs ps1D sd low high A s B0,
  o_ps2D o = Some ps -> o_freqs o = Some freqs -> o_ps1D o = Some ps1D -> o_stddev o = Some sd -> f_unbinned a = false ->
  (f_low a = Some low \/ (f_low a = None /\ low = 2 / INR (Nat.max (length ps) (length (hd [] ps))) /\ (0 < Nat.max (length ps) (length (hd [] ps)))%nat)) ->
  (f_high a = Some high \/ (f_high a = None /\ is_max high freqs)) -> 0 <= low ->
  regression ols -> least_squares line -> answers line -> 0 < A -> 0 < B0 -> start_at B0 (PspecFit.f_brk a) (f_log_break a) ->
  let used := filter (fun b => within low high (fst (fst b))) (bins_of freqs ps1D sd) in
  (forall b, In b used -> counted (f_weighted a) b /\ power_is (A * Rpower (fst (fst b)) s) b) -> two_sided B0 (map (fun b => fst (fst b)) used) ->
  exists o1 o2, do_fit line err (pspec_seg ols boot (f_weighted a)) o a = Ok o1 /\ do_fit line err seg o (without_break a) = Ok o2 /\ same_but_error o1 o2 /\
    t_brk (o_state o1) = Some None /\ t_slope (o_state o1) = Some [Fin s] /\ o_amp o1 = Some (Fin (EllipPlaw.log10 A)) /\
    t_brk_err (o_state o1) = t_brk_err (o_state o) /\ t_brk_err (o_state o2) = Some None.
Proof.
  intros ols boot line err seg o a ps freqs ps1D sd low high A s B0 E1 E2 E3 E4 HU HL HH L0 REG LS AN HA HB0 ST used HP T.
  assert (W : forall b, In b used <-> In b (bins_of freqs ps1D sd) /\ low < fst (fst b) <= high) by (intros b; unfold used; rewrite filter_In, within_iff; reflexivity).
  destruct (binned_recovers line err seg o (without_break a) ps freqs ps1D sd low high A s E1 E2 E3 E4 HU eq_refl HL HH L0 LS AN HA) as (o2 & F2 & K1 & K2 & K3).
  { intros b Hb Hw. right. apply HP. now apply W. }
  { destruct T as [(u & v & Hu & Hv & N & _) _]. apply in_map_iff in Hu. apply in_map_iff in Hv. destruct Hu as [b1 [<- Hb1]], Hv as [b2 [<- Hb2]].
    exists b1, b2. split; [now apply W|]. split; [now apply W|]. split; [exact N|]. intros b [->| ->]; (split; [now apply W|now apply HP]). }
  pose proof (binned_rows o a ps freqs ps1D sd E1 E2 E3 E4 HU) as ER. cbv zeta in ER.
  assert (EL : match f_low a with Some r => r | None => default_low ps end = low).
  { destruct HL as [->|[-> [-> P]]]; [reflexivity|]. unfold default_low, rows_of, cols_of. apply lt_0_INR in P. field. lra. }
  assert (EH : match f_high a with Some r => r | None => Psds.rmax_list freqs end = high).
  { destruct HH as [->|[-> M]]; [reflexivity|]. eapply is_max_unique; [apply rmax_list_spec|exact M]. destruct M as [M _]. now destruct freqs. }
  rewrite EL, EH in ER. fold used in ER.
  assert (PF : forall b, In b used -> 0 < fst (fst b)) by (intros b Hb; apply W in Hb; lra).
  destruct (bins_rows (f_weighted a) A s s 1 used HA PF) as [gs [R1 [R2 R3]]].
  { intros b Hb. destruct (HP b Hb) as [C P]. split; [exact C|]. rewrite plain_broken by (try lra; now apply PF). exact P. }
  rewrite R1 in ER. rewrite <- R2 in T. destruct (asked_same ols boot line err seg o a low high A s 1 B0 gs o2 REG HA Rlt_0_1 HB0 ST ER R3 T F2) as (o1 & F1 & SM & J1 & J2).
  exists o1, o2. split; [exact F1|]. split; [exact F2|]. split; [exact SM|]. destruct SM as (_ & _ & _ & _ & _ & _ & _ & M1 & _ & M2 & M3 & _). rewrite M1, M2, M3. auto.
Qed.

Theorem unbinned_asked : forall ols boot line err seg o a ny nx image low high A s B0, (1 <= ny)%nat -> (1 <= nx)%nat -> holds_spectrum o ny nx image ->
  f_unbinned a = true -> f_weighted a = false ->
  (f_low a = Some low \/ (f_low a = None /\ low = 2 / INR (Nat.max ny nx))) ->
  (f_high a = Some high \/ (f_high a = None /\ is_max high (map (mode_freq ny nx) (modes ny nx)))) -> 0 <= low ->
  regression ols -> least_squares line -> answers line -> 0 < A -> 0 < B0 -> start_at B0 (PspecFit.f_brk a) (f_log_break a) ->
  (forall k, In k (modes ny nx) -> low < mode_freq ny nx k <= high -> mode_power ny nx image k = A * Rpower (mode_freq ny nx k) s) ->
  two_sided B0 (map (mode_freq ny nx) (filter (fun k => within low high (mode_freq ny nx k)) (modes ny nx))) ->
  exists o1 o2, do_fit line err (pspec_seg ols boot false) o a = Ok o1 /\ do_fit line err seg o (without_break a) = Ok o2 /\ same_but_error o1 o2 /\
    t_brk (o_state o1) = Some None /\ t_slope (o_state o1) = Some [Fin s] /\ o_amp o1 = Some (Fin (EllipPlaw.log10 A)) /\
    t_brk_err (o_state o1) = t_brk_err (o_state o) /\ t_brk_err (o_state o2) = Some None.
Proof.
  intros ols boot line err seg o a ny nx image low high A s B0 Hy Hx HS HU HW HL HH L0 REG LS AN HA HB0 ST HP T.
  set (fs := map (mode_freq ny nx) (filter (fun k => within low high (mode_freq ny nx k)) (modes ny nx))) in *.
  destruct (unbinned_recovers line err seg o ny nx image (without_break a) low high A s Hy Hx HS HU HW eq_refl HL HH L0 LS AN HA HP) as (o2 & F2 & K1 & K2 & K3).
  { destruct T as [(u & v & Hu & Hv & N & _) _]. unfold fs in Hu, Hv. apply in_map_iff in Hu. apply in_map_iff in Hv. destruct Hu as [k1 [<- H1]], Hv as [k2 [<- H2]].
    rewrite filter_In, within_iff in H1. rewrite filter_In, within_iff in H2. exists k1, k2. tauto. }
  pose proof (unbinned_rows o ny nx image a low high Hy Hx HS HU HW HL HH L0) as ER.
  set (ks := filter (fun k => within low high (mode_freq ny nx k)) (map (mode_at ny nx) (pixels ny nx))) in *.
  assert (IN : forall v, In v (map (mode_freq ny nx) ks) <-> In v fs).
  { intros v. unfold ks, fs. rewrite !in_map_iff. split; intros [k [Ek Hk]]; exists k; (split; [exact Ek|]); rewrite filter_In in *; (split; [|tauto]); destruct Hk as [Hk _]; revert Hk; apply Permutation_in; [|apply Permutation_sym]; apply modes_perm. }
  set (gs := map (fun k => (mode_freq ny nx k, 1)) ks).
  assert (E : map (mode_row ny nx image) ks = map (broken_row A s s 1) gs).
  { unfold gs. rewrite map_map. apply map_ext_in. intros k Hk. unfold ks in Hk. rewrite filter_In, within_iff in Hk. destruct Hk as [Hk Hw]. apply in_modes_at in Hk.
    unfold mode_row, broken_row, as_row. cbn [fst snd]. rewrite plain_broken by lra. rewrite (HP k Hk Hw). rewrite !flog10_pos by (try (apply Rmult_lt_0_compat; [exact HA|apply exp_pos]); lra). reflexivity. }
  assert (M1 : map fst gs = map (mode_freq ny nx) ks) by (unfold gs; now rewrite map_map).
  rewrite E in ER.
  destruct (asked_same ols boot line err seg o a low high A s 1 B0 gs o2 REG HA Rlt_0_1 HB0 ST ER) as (o1 & F1 & SM & J1 & J2).
  - intros f Hf. unfold gs in Hf. apply in_map_iff in Hf. destruct Hf as [k [<- Hk]]. unfold ks in Hk. rewrite filter_In, within_iff in Hk. cbn [fst snd]. lra.
  - rewrite M1. destruct T as [(u&v&Hu&Hv&T1) (p&q&Hp&Hq&T2)]. split; [exists u, v|exists p, q]; rewrite !IN; auto.
  - exact F2.
  - rewrite HW in F1. exists o1, o2. split; [exact F1|]. split; [exact F2|]. split; [exact SM|]. destruct SM as (_ & _ & _ & _ & _ & _ & _ & N1 & _ & N2 & N3 & _). rewrite N1, N2, N3. auto.
Qed.

(** Delta variance *)
Theorem dv_asked : forall ols boot e o a lv A s B0, v_seg e = dv_seg ols boot ->
  d_lags o = map fst lv -> d_curve o = Some (map (fun p => (Fin (A * Rpower (fst p) s), Fin (snd p))) lv) ->
  (forall p, In p lv -> 0 < fst p /\ snd p <> 0) -> f_xlow a = None -> f_xhigh a = None -> DeltaVarRun.in_pixels (v_stat e) (DeltaVarRun.f_brk a) = Ok (Some B0) ->
  regression ols -> 0 < A -> 0 < B0 -> two_sided B0 (map fst lv) ->
  fit_plaw e o a = fit_plaw e o (dv_without_break a) /\ snd (fit_plaw e o a) = None.
Proof.
  intros ols boot e o a lv A s B0 ES EL EC HP XL XH XB REG HA HB0 T. unfold fit_plaw. cbn [dv_without_break f_xlow f_xhigh DeltaVarRun.f_brk f_boot]. rewrite EC, XL, XH. cbn [DeltaVarRun.in_pixels]. cbn [d_lags d_curve d_kept d_range d_fit].
  rewrite EL. rewrite !map_length, Nat.eqb_refl. cbn [negb]. rewrite XB. cbn [given_or fst snd].
  pose proof T as T0. destruct T0 as [(u&_&Hu&_&_&U&_) (q&_&Hq&_&_&Q&_)].
  assert (NN : map fst lv <> []) by (intros Z; rewrite Z in Hu; destruct Hu).
  assert (POS : forall l, In l (map fst lv) -> 0 < l) by (intros l Hl; apply in_map_iff in Hl; destruct Hl as [p [<- Hp]]; now apply HP).
  pose proof (min_list_le _ _ Hu) as MN. pose proof (max_list_ge _ _ Hq) as MX. assert (MP0 : 0 < DeltaVar.rmin_list (map fst lv)) by (apply rmin_pos; [exact NN|now apply Forall_forall]).
  unfold default_range. cbn [fst snd]. destruct (Rltb_spec B0 (99 / 100 * DeltaVar.rmin_list (map fst lv))); [lra|]. destruct (Rltb_spec (101 / 100 * DeltaVar.rmax_list (map fst lv)) B0); [lra|]. cbn [orb].
  assert (EP : map (fun p : R * R => (Fin (A * Rpower (fst p) s), Fin (snd p))) lv = map (fun p => (Fin (broken_plaw A s s 1 (fst p)), Fin (snd p))) lv).
  { apply map_ext_in. intros p Hp. rewrite plain_broken by (try lra; now apply HP). reflexivity. }
  destruct (points_rows A s s 1 lv HA HP) as [fs [R1 [R2 R3]]]. rewrite <- EP in R1.
  rewrite ES, dv_seg_rows, R1. rewrite <- R2 in T. change (DeltaVarRun.log10 B0) with (EllipPlaw.log10 B0). rewrite (seg_plain ols boot true A s 1 B0 fs REG HA Rlt_0_1 HB0 R3 T). cbn [bind fit_step]. split; reflexivity.
Qed.
Theorem dv_run_asked : forall ols boot e o c a ers A s B0, v_seg e = dv_seg ols boot -> known (c_boundary c) = true ->
  (forall l c', In l (d_lags o) -> c_boundary c' = c_boundary c -> c_others c' = c_others c -> v_value e c' l = (Fin (A * Rpower l s), Fin (ers l))) ->
  (forall l, In l (d_lags o) -> 0 < l /\ ers l <> 0) -> f_xlow a = None -> f_xhigh a = None -> DeltaVarRun.in_pixels (v_stat e) (DeltaVarRun.f_brk a) = Ok (Some B0) ->
  regression ols -> 0 < A -> 0 < B0 -> two_sided B0 (d_lags o) ->
  DeltaVarRun.run e o c a = DeltaVarRun.run e o c (dv_without_break a) /\ snd (DeltaVarRun.run e o c a) = None.
Proof.
  intros ols boot e o c a ers A s B0 ES K V P XL XH XB REG HA HB0 T. unfold DeltaVarRun.run, DeltaVarRun.compute.
  destruct (d_lags o) as [|l0 ls] eqn:EL; [destruct T as [(u & _ & [] & _) _]|]. cbn [c_boundary c_keep]. rewrite K. cbn [DeltaVarRun.also]. rewrite <- EL in *.
  assert (E1 : map fst (map (fun l => (l, ers l)) (d_lags o)) = d_lags o) by (rewrite map_map; cbn [fst]; apply map_id).
  apply (dv_asked ols boot e _ a (map (fun l => (l, ers l)) (d_lags o)) A s B0); rewrite ?E1; auto.
  - cbn [d_curve]. apply f_equal. rewrite map_map. cbn [fst snd]. apply map_ext_in. intros l Hl. now apply V.
  - intros p Hp. apply in_map_iff in Hp. destruct Hp as [l [<- Hl]]. cbn [fst snd]. now apply P.
Qed.
