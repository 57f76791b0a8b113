(** A break asked for of a transform that is a plain power law; examples. *)
From Coq Require Import String Reals List ZArith Arith Bool Lia Lra.
From Verif Require Import Lib.PyBase Lib.Fl Lib.RSum Spec.Blank Spec.Segmented Spec.BreakFit Spec.PspecFit Spec.MexHat Spec.ScfSpectrum Model.Units Model.EllipPlaw Model.PspecFit Model.DeltaVar Model.BaseStat Model.Wavelet Model.FitState Model.DeltaVarRun Model.LmSeg Model.BreakFit Model.WaveletRun Model.Psds
  Spec.WaveletRun Spec.Asked Proofs.Fl_Proofs Proofs.ScfSpectrum2_Proofs Proofs.Ols_Proofs Proofs.DeltaVarRun_Proofs Proofs.PspecFit2_Proofs Proofs.BreakFit_Proofs Proofs.BreakFit2_Proofs Proofs.BreakFit4_Proofs Proofs.BreakFit5_Proofs Proofs.BreakFit6_Proofs Proofs.WaveletRun_Proofs Proofs.WaveletRun3_Proofs Proofs.WaveletRun4_Proofs Proofs.WaveletRun5_Proofs Proofs.WaveletRun6_Proofs Proofs.Asked_Proofs.
Import ListNotations.
Local Open Scope R_scope.

Lemma segmented_none e weighted pts b : pspec_seg (e_ols e) (e_boot e) weighted (map (any_row weighted) pts) (DeltaVar.flog10 (Fin b)) = Ok None ->
  exists g, segmented e weighted pts b = Ok (g, Unbroken).
Proof.
  unfold pspec_seg, segmented. rewrite !map_map. cbn [any_row fst snd].
  replace (if weighted then Some (map (fun x : point => if weighted then snd x else Fin 1) pts) else None) with (if weighted then Some (map snd pts) else None) by (destruct weighted; reflexivity).
  intros E. match goal with |- context [bind ?L _] => match L with lm_seg_fit _ _ _ _ _ => change (bind L (read_break (e_boot e)) = Ok None) in E; destruct L as [g|x]; [|discriminate E] end end. cbn [bind] in *. rewrite E. cbn [bind]. exists g. reflexivity.
Qed.
Lemma finish_same e o ps a pts o2 : finish_line e o a pts None = (o2, None) ->
  finish_line e (mk_w (w_scales o) (w_curve o) (w_planes o) (w_range o) (w_state o) ps (w_model o)) a pts (Some Unbroken) = (o2, None).
Proof.
  unfold finish_line. destruct (straight_line _ _ _) as [f|x]; [|discriminate]. destruct (index (f_params f) 1) as [s|x]; [|discriminate]. destruct (index (f_bse f) 1) as [er|x]; [|discriminate]. cbn. auto.
Qed.
Lemma wavelet_fit_asked e o a l curve lo hi A p B0 o2 : scales_are e o l -> Forall (fun s => 0 < s) l -> w_curve o = Some curve -> length curve = length l -> limits_are e a lo hi -> in_pixels (e_stat e) (a_brk a) = Ok (Some B0) ->
  regression (e_ols e) -> 0 < A -> 0 < B0 ->
  (forall s ve, In (s, ve) (combine l curve) -> inside lo hi s -> fst ve = Fin (A * Rpower s p) /\ (a_weighted a = true -> exists r, snd ve = Fin r /\ 0 < r)) ->
  two_sided B0 (scales_within lo hi l) -> fit_transform e o (w_without_break a) = (o2, None) -> fit_transform e o a = (o2, None).
Proof.
  intros (q&EP&<-) PL EC L (X1&X2&X3&X4) XB REG HA HB0 H T. unfold fit_transform. cbn [w_without_break a_xlow a_xhigh a_brk]. rewrite EP, EC, X1, X2. cbv zeta. rewrite L, Nat.eqb_refl. cbn [negb]. rewrite XB. cbn [in_pixels].
  pose proof T as T0. destruct T0 as [(u&_&Hu&_&_&U&_) (z&_&Hq&_&_&Q&_)].
  pose proof (within_bounds lo hi _ _ Hu PL) as WU. pose proof (within_bounds lo hi _ _ Hq PL) as WQ.
  destruct (Rltb_spec B0 (fst (fit_range (q_vals q) lo hi))); [lra|]. destruct (Rltb_spec (snd (fit_range (q_vals q) lo hi)) B0); [lra|]. cbn [orb].
  destruct (broken_points (a_weighted a) A p p 1 lo hi HA X3 X4 _ curve L PL) as (fs&R1&R2&R3).
  { intros s ve I1 I2. destruct (H s ve I1 I2) as [V W]. split; [|exact W]. rewrite plain_broken; [exact V|lra|]. rewrite Forall_forall in PL. apply PL. eapply in_combine_l; exact I1. }
  rewrite <- R2 in T. pose proof (seg_plain (e_ols e) (e_boot e) (a_weighted a) A p 1 B0 fs REG HA Rlt_0_1 HB0 R3 T) as E.
  assert (EB : DeltaVar.flog10 (Fin B0) = Fin (EllipPlaw.log10 B0)). { unfold DeltaVar.flog10. destruct (Rltb_spec 0 B0); [reflexivity|lra]. }
  rewrite <- R1, <- EB in E. destruct (segmented_none e (a_weighted a) _ B0 E) as (g&SG). rewrite SG. cbn [kept w_scales w_curve w_planes w_range w_state w_model]. intros F.
  apply (finish_same e (mk_w (w_scales o) (Some curve) (w_planes o) (Some (fit_range (q_vals q) lo hi)) (w_state o) (w_params o) (w_model o)) (Some (g_params g)) a _ o2). exact F.
Qed.

Theorem wavelet_asked : forall e o norm a l lo hi A p B0, regression (e_ols e) -> (3 <= e_ny e)%nat -> (3 <= e_nx e)%nat -> reached e o -> scales_are e o l -> limits_are e a lo hi -> in_pixels (e_stat e) (a_brk a) = Ok (Some B0) ->
  0 < A -> 0 < B0 -> two_sided B0 (scales_within lo hi l) ->
  (forall s ve, In (s, ve) (combine l (compute_transform (e_half e) (e_ny e) (e_nx e) (e_img e) norm l)) -> inside lo hi s -> fst ve = Fin (A * Rpower s p) /\ (a_weighted a = true -> exists r, snd ve = Fin r /\ 0 < r)) ->
  exists o', run e o norm a = (o', None) /\ run e o norm (w_without_break a) = (o', None) /\ one_slope o' p /\ model_is o' (ln A / ln 10) p.
Proof.
  intros e o norm a l lo hi A p B0 REG Y X RE S LI XB HA HB0 T H. pose proof (reached_valid _ _ RE) as V. pose proof (scales_valid _ _ _ V S) as K. unfold side in K. pose proof (lags_positive _ _ K) as PL.
  assert (CI : forall u, In u (scales_within lo hi l) -> In u l /\ inside lo hi u).
  { intros u Hu. unfold scales_within in Hu. apply filter_In in Hu. destruct Hu as [I1 B]. split; [exact I1|]. apply andb_prop in B. destruct B as [B1 B2]. split; [destruct lo as [v|]; [|exact I]; destruct (Rle_dec v u); [assumption|discriminate]|destruct hi as [v|]; [|exact I]; destruct (Rle_dec u v); [assumption|discriminate]]. }
  set (curve := compute_transform (e_half e) (e_ny e) (e_nx e) (e_img e) norm l) in *.
  assert (LC : length curve = length l) by apply transform_length.
  assert (IC : forall u, In u l -> exists ve, In (u, ve) (combine l curve)).
  { intros u Hu. apply In_nth_error in Hu. destruct Hu as [k Hk]. destruct (nth_error curve k) as [ve|] eqn:E; [|apply nth_error_None in E; assert (Z : nth_error l k <> None) by congruence; apply nth_error_Some in Z; lia].
    exists ve. assert (NC : forall (l : list R) (c : list (fl * fl)) k, nth_error l k = Some u -> nth_error c k = Some ve -> In (u, ve) (combine l c)); [|exact (NC l curve k Hk E)].
    clear. induction l as [|x l IH]; intros [|c curve] [|k] Hk E; try discriminate; cbn in *; [injection Hk as ->; injection E as ->; now left|right; eapply IH; eassumption]. }
  destruct (slope_power_law e o norm (w_without_break a) l lo hi A p REG Y X RE S LI eq_refl HA) as (o' & R1 & R2 & _ & R3).
  { destruct T as [(u&v&Hu&Hv&N&_) _]. destruct (CI u Hu) as [U1 U2], (CI v Hv) as [V1 V2]. destruct (IC u U1) as [uv UV], (IC v V1) as [vv VV]. exists u, v, uv, vv. repeat (split; [assumption|]).
    destruct (H _ _ UV U2) as [A1 A2], (H _ _ VV V2) as [B1 B2]. split; (split; [eauto|]); cbn [w_without_break a_weighted]; intros W; [destruct (A2 W) as (r&Er&Pr)|destruct (B2 W) as (r&Er&Pr)]; exists r; (split; [exact Er|lra]). }
  { intros s ve v I1 I2 EV. destruct (H s ve I1 I2) as [V1 _]. rewrite V1 in EV. now injection EV. }
  exists o'. split; [|split; [exact R1|split; assumption]].
  destruct (compute_ok e o norm false l S) as (m1&M1&M2&M3). unfold run in *. rewrite M1 in *. cbn [also] in *.
  assert (S1 : scales_are e m1 l) by (unfold scales_are in *; now rewrite M3).
  exact (wavelet_fit_asked e m1 a l curve lo hi A p B0 o' S1 PL M2 LC LI XB REG HA HB0 H T R1).
Qed.

(** Four scales of the star, a break asked for at 5/2 pixels *)
Definition scales4 : list R := [1; 2; 3; 4].
Definition asked : wargs := mk_wa None None (Some (mk_q [5 / 2] pix)) 3 false false.
Lemma scales4_ok : Forall (fun v => 1 <= v <= 4) scales4.
Proof. repeat constructor; lra. Qed.
Theorem sky_asked (norm : bool) : exists o', run sky (sky_object scales4) norm asked = (o', None) /\ run sky (sky_object scales4) norm (w_without_break asked) = (o', None) /\ one_slope o' (if norm then -2 else 0).
Proof.
  destruct (wavelet_asked sky (sky_object scales4) norm asked scales4 None None 1 (if norm then -2 else 0) (5 / 2) regression_ols0 sky_ny sky_nx (sky_reached _ scales4_ok) (sky_scales _)) as (o'&R1&R2&R3&_); try lra.
  - repeat split; intros v; discriminate.
  - reflexivity.
  - unfold scales_within, scales4. cbn. split; [exists 1, 2|exists 3, 4]; cbn; lra.
  - intros s ve I1 _. split; [|discriminate]. change (e_half sky) with (fun _ : R => 0%nat) in I1. change (e_ny sky) with 8%nat in I1. change (e_nx sky) with 8%nat in I1. change (e_img sky) with star in I1.
    rewrite (sky_value norm scales4 s ve scales4_ok I1). apply f_equal, sky_ratio. pose proof scales4_ok as K. rewrite Forall_forall in K. specialize (K s (in_combine_l _ _ _ _ I1)). lra.
  - exists o'. auto.
Qed.
(** Four bins of a spectrum, one of them noisier *)
Definition plain4 : pobj := mk_p (Some [[Fin 1]]) (Some freqs4) (Some (map (fun f => Fin (1 * Rpower f (-2))) freqs4)) (Some [Fin 1; Fin 1; Fin 1; Fin 1]) None None None unfitted None None.
Lemma used_plain4 : filter (fun b => within (1 / 64) (1 / 2) (fst (fst b))) (bins_of freqs4 (map (fun f => Fin (1 * Rpower f (-2))) freqs4) [Fin 1; Fin 1; Fin 1; Fin 1]) =
  map (fun f => (f, Fin (1 * Rpower f (-2)), Fin 1)) freqs4.
Proof.
  unfold freqs4, bins_of. cbn [map combine filter fst snd]. unfold within.
  repeat match goal with |- context [Rlt_dec ?a ?b] => destruct (Rlt_dec a b); [|lra] end. repeat match goal with |- context [Rle_dec ?a ?b] => destruct (Rle_dec a b); [|lra] end. reflexivity.
Qed.
Lemma counted_plain4 weighted b : In b (map (fun f => (f, Fin (1 * Rpower f (-2)), Fin 1)) freqs4) -> counted weighted b /\ power_is (1 * Rpower (fst (fst b)) (-2)) b.
Proof. intros H. apply in_map_iff in H. destruct H as [f [<- _]]. cbn [fst snd counted power_is]. split; [|reflexivity]. split; [eauto|]. intros _. exists 1. split; [reflexivity|lra]. Qed.
Theorem fit_plain4 err seg boot weighted : exists o1 o2, do_fit solver_1D err (pspec_seg ols0 boot weighted) plain4 (ask4 (1 / 8) false weighted) = Ok o1 /\
  do_fit solver_1D err seg plain4 (without_break (ask4 (1 / 8) false weighted)) = Ok o2 /\ same_but_error o1 o2 /\ t_slope (o_state o1) = Some [Fin (-2)] /\ t_brk_err (o_state o1) = None /\ t_brk_err (o_state o2) = Some None.
Proof.
  destruct solver_exists as [LS AN].
  destruct (binned_asked ols0 boot solver_1D err seg plain4 (ask4 (1 / 8) false weighted) _ _ _ _ (1 / 64) (1 / 2) 1 (-2) (1 / 8) eq_refl eq_refl eq_refl eq_refl eq_refl
    (or_introl eq_refl) (or_intror (conj eq_refl max4)) ltac:(lra) regression_ols0 LS AN ltac:(lra) ltac:(lra) eq_refl) as (o1&o2&F1&F2&SM&_&S&_&J1&J2).
  - rewrite used_plain4. exact (counted_plain4 weighted).
  - rewrite used_plain4. exact sided4.
  - exists o1, o2. split; [exact F1|]. split; [exact F2|]. split; [exact SM|]. split; [exact S|]. split; [exact J1|exact J2].
Qed.
(** A row of nine pixels *)
Definition plain_image9 : nat -> nat -> R := row_of 9 (fun k => sqrt (1 * Rpower (freq9 k) (-2))).
Definition plain9 : pobj := mk_p (Some (map (map Fin) (Psds.power_ps2D 1 9 plain_image9))) None None None None None None unfitted None None.
Theorem fit_plain9 err seg boot : holds_spectrum plain9 1 9 plain_image9 /\ exists o1 o2, do_fit solver_1D err (pspec_seg ols0 boot false) plain9 (ask9 (2 / 7)) = Ok o1 /\
  do_fit solver_1D err seg plain9 (without_break (ask9 (2 / 7))) = Ok o2 /\ same_but_error o1 o2 /\ t_slope (o_state o1) = Some [Fin (-2)].
Proof.
  split; [reflexivity|]. destruct solver_exists as [LS AN].
  destruct (unbinned_asked ols0 boot solver_1D err seg plain9 (ask9 (2 / 7)) 1 9 plain_image9 (1 / 10) (1 / 2) 1 (-2) (2 / 7) (le_n 1) ltac:(lia) eq_refl eq_refl eq_refl
    (or_introl eq_refl) (or_introl eq_refl) ltac:(lra) regression_ols0 LS AN ltac:(lra) ltac:(lra) eq_refl) as (o1&o2&F1&F2&SM&_&S&_).
  - intros k Hk _. rewrite modes9 in Hk. apply in_map_iff in Hk. destruct Hk as [j [<- Hj]]. apply in_seq in Hj. rewrite freq9_mode by lia. unfold plain_image9.
    rewrite row_power; [|lia| |lia]; [|intros i Hi; now rewrite sym9]. apply Rsqr_sqrt. left. apply Rmult_lt_0_compat; [lra|apply exp_pos].
  - rewrite fs9. split; [exists (1 / 9), (2 / 9)|exists (3 / 9), (4 / 9)]; cbn [In].
    + split; [now left|]. split; [right; now left|]. lra.
    + split; [right; right; now left|]. split; [right; right; right; now left|]. lra.
  - exists o1, o2. split; [exact F1|]. split; [exact F2|]. split; [exact SM|exact S].
Qed.
(** Five lags of a delta variance *)
Definition env_plain (boot : LmSeg.seg_fit -> list fl) : dv_env :=
  mk_dv (mk_stat (Some 1) None) 48 (fun _ l => (Fin (3 * Rpower l (1 / 2)), Fin (1 / 10))) (fun _ _ => []) (fun _ => (NaN, NaN)) (fun _ _ => (Fin (1 / 2), Fin 0)) (dv_seg ols0 boot).
Theorem dv_plain5 : forall boot, exists o o', new_dv (env_plain boot) (LNumbers lags5) 25 = Ok o /\ DeltaVarRun.run (env_plain boot) o wrap BreakFit6_Proofs.at9 = (o', None) /\ DeltaVarRun.run (env_plain boot) o wrap (dv_without_break BreakFit6_Proofs.at9) = (o', None) /\ t_slope (d_fit o') <> None.
Proof.
  intros boot. unfold new_dv, lags_of. cbn [bind]. change (v_side (env_plain boot)) with 48%nat. rewrite lags_ok_toy by (unfold lags5; cbn; repeat constructor; lra). cbn [bind].
  set (o := mk_dvo lags5 None _ None unfitted). exists o.
  destruct (dv_run_asked ols0 boot (env_plain boot) o wrap BreakFit6_Proofs.at9 (fun _ => 1 / 10) 3 (1 / 2) 9) as [E N]; try reflexivity; try exact regression_ols0; try lra.
  - intros l Hl. split; [|lra]. change (d_lags o) with lags5 in Hl. unfold lags5 in Hl. repeat (destruct Hl as [<-|Hl]; [lra|]). destruct Hl.
  - change (d_lags o) with lags5. split; [exists 3, 4|exists 12, 24]; unfold lags5; cbn [In]; (split; [tauto|]); (split; [tauto|]); lra.
  - destruct (DeltaVarRun.run (env_plain boot) o wrap BreakFit6_Proofs.at9) as [o' x] eqn:R. cbn [snd] in N. subst x. exists o'. split; [reflexivity|]. split; [reflexivity|]. split; [now rewrite <- E|].
    symmetry in E. unfold DeltaVarRun.run, DeltaVarRun.compute in E. change (d_lags o) with lags5 in E. unfold lags5 in E at 1. cbn [c_boundary wrap known String.eqb Ascii.eqb Bool.eqb orb DeltaVarRun.also] in E.
    unfold fit_plaw in E. cbn [d_curve] in E. cbn [dv_without_break BreakFit6_Proofs.at9 f_xlow f_xhigh DeltaVarRun.f_brk DeltaVarRun.in_pixels d_lags] in E. rewrite map_length in E. rewrite Nat.eqb_refl in E. cbn [negb fit_step] in E. injection E as <-. cbn. discriminate.
Qed.
