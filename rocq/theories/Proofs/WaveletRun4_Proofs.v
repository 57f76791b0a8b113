(** Proofs about Model/WaveletRun.v: power laws, single scales, orientation, distances. *)
From Coq Require Import Reals List ZArith Arith Bool Lia Lra.
From Verif Require Import Lib.PyBase Lib.Fl Lib.RSum Spec.Segmented Spec.BreakFit Spec.MexHat Model.Units Model.DeltaVar Model.BaseStat Model.Wavelet Model.FitState Model.DeltaVarRun Model.LmSeg Model.BreakFit Model.WaveletRun
  Spec.WaveletRun Proofs.Fl_Proofs Proofs.Ols_Proofs Proofs.BreakFit_Proofs Proofs.DeltaVar2_Proofs Proofs.DeltaVarRun3_Proofs Proofs.Wavelet_Proofs Proofs.Wavelet2_Proofs Proofs.Wavelet3_Proofs Proofs.WaveletRun_Proofs Proofs.WaveletRun2_Proofs Proofs.WaveletRun3_Proofs.
From Verif Require Model.Distances.
Import ListNotations.
Local Open Scope R_scope.

Lemma ln10_pos : 0 < ln 10.
Proof. rewrite <- ln_1. apply ln_increasing; lra. Qed.
Lemma log10_plaw A s p : 0 < A -> 0 < s -> DeltaVarRun.log10 (A * Rpower s p) = DeltaVarRun.log10 A + p * DeltaVarRun.log10 s.
Proof. intros HA HS. unfold DeltaVarRun.log10. rewrite ln_mult; [|assumption|apply exp_pos]. unfold Rpower. rewrite ln_exp. pose proof ln10_pos. field. lra. Qed.

Lemma limits_inside lo hi s : 0 < s -> (forall v, lo = Some v -> 0 < v) -> (forall v, hi = Some v -> 0 < v) -> above_limit lo s && below_limit hi s = true -> inside lo hi s.
Proof.
  intros P L H E. apply andb_prop in E. destruct E as [A B]. split.
  - destruct lo as [v|]; [|exact I]. cbn [above above_limit] in *. specialize (L v eq_refl). destruct (Rltb_spec 0 v); [|lra]. rewrite log10_order in A by assumption. destruct (Rleb_spec v s); [assumption|discriminate].
  - destruct hi as [v|]; [|exact I]. cbn [below below_limit] in *. specialize (H v eq_refl). destruct (Rltb_spec 0 v); [|lra]. rewrite log10_order in B by assumption. destruct (Rleb_spec s v); [assumption|discriminate].
Qed.

(** A fit of points on a line *)
Lemma fit_exact e o a l curve lo hi b p : regression (e_ols e) -> scales_are e o l -> w_curve o = Some curve -> length curve = length l -> Forall (fun s => 0 < s) l -> Forall sound curve ->
  limits_are e a lo hi -> a_brk a = None -> two_usable (a_weighted a) lo hi l curve ->
  (forall s ve v, In (s, ve) (combine l curve) -> inside lo hi s -> fst ve = Fin v -> 0 < v -> DeltaVarRun.log10 v = b + p * DeltaVarRun.log10 s) ->
  exists o', fit_transform e o a = (o', None) /\ one_slope o' p /\ w_range o' = Some (fit_range l lo hi) /\ w_curve o' = Some curve /\ w_scales o' = w_scales o /\ model_is o' b p.
Proof.
  intros REG S1 C1 L PL SO (X1&X2&XP1&XP2) XB T H.
  assert (SP : spread_rows (rows_of (a_weighted a) (fit_points lo hi l curve))) by now apply points_spread.
  pose proof (weights_rows (a_weighted a) lo hi l curve SO) as WP.
  destruct (solver_exact (e_ols e) (a_weighted a) _ b p REG WP SP) as (er&P1&B1).
  { intros r Hr. unfold rows_of in Hr. apply in_map_iff in Hr. destruct Hr as [q [<- Hq]]. apply filter_In in Hq. destruct Hq as [Hq U]. unfold fit_points in Hq. apply in_map_iff in Hq. destruct Hq as [[s ve] [<- Hp]]. apply filter_In in Hp. destruct Hp as [Hp IN]. cbn [fst snd] in *.
    rewrite Forall_forall in SO, PL. pose proof (SO _ (in_combine_r _ _ _ _ Hp)) as SV. pose proof (PL _ (in_combine_l _ _ _ _ Hp)) as PS. destruct SV as [N|(v&e1&->&V&E)].
    - unfold used in U. cbn [fst snd] in U. rewrite N in U. discriminate.
    - cbn [fst snd clean_row DeltaVar.flog10]. destruct (Rltb_spec 0 v); [|lra]. rewrite <- (H s _ v Hp); [reflexivity|now apply limits_inside|reflexivity|exact V]. }
  pose proof (line_rows (e_ols e) _ _ SP) as SL1.
  destruct (fit_line e o a l curve lo hi _ (Fin p) er S1 C1 L X1 X2 XB SL1) as (o'&e1'&F1&F2&F3&F4&F5&F6&F7&F8&F9); [now rewrite P1|exact B1|].
  exists o'. repeat (split; [first [assumption|split; assumption]|]). intros xs. unfold fitted_model. now rewrite F9, F8, P1.
Qed.

Theorem slope_power_law e o norm a l lo hi A p : regression (e_ols e) -> (3 <= e_ny e)%nat -> (3 <= e_nx e)%nat -> reached e o -> scales_are e o l -> limits_are e a lo hi -> a_brk a = None -> 0 < A ->
  two_usable (a_weighted a) lo hi l (compute_transform (e_half e) (e_ny e) (e_nx e) (e_img e) norm l) ->
  power_law A p lo hi l (compute_transform (e_half e) (e_ny e) (e_nx e) (e_img e) norm l) ->
  exists o', run e o norm a = (o', None) /\ one_slope o' p /\ w_range o' = Some (fit_range l lo hi) /\ model_is o' (ln A / ln 10) p.
Proof.
  intros REG Y X RE S LI XB HA T H. pose proof (reached_valid _ _ RE) as V. pose proof (scales_valid _ _ _ V S) as K. unfold side in K. pose proof (lags_positive _ _ K) as PL.
  destruct (compute_ok e o norm false l S) as (m1&M1&M2&M3). assert (S1' : scales_are e m1 l) by (unfold scales_are in *; now rewrite M3).
  destruct (fit_exact e m1 a l _ lo hi (DeltaVarRun.log10 A) p REG S1' M2 (transform_length _ _ _ _ _ _) PL (curve_sound _ _ _ _ _ _ Y X K) LI XB T) as (o'&F1&F2&F3&F4&F5&F6).
  { intros s ve v I1 I2 I3 PV. rewrite (H s ve v I1 I2 I3). rewrite Forall_forall in PL. apply log10_plaw; [assumption|]. apply PL. eapply in_combine_l; eassumption. }
  exists o'. unfold run. rewrite M1. cbn [also]. repeat (split; [assumption|]). exact F6.
Qed.

(** Other scales of the same number *)
Theorem stale_slope e o norm q p a l A s : regression (e_ols e) -> (3 <= e_ny e)%nat -> (3 <= e_nx e)%nat -> reached e o -> scales_are e o l -> w_curve o = Some (compute_transform (e_half e) (e_ny e) (e_nx e) (e_img e) norm l) ->
  limits_are e a None None -> a_brk a = None -> 0 < A -> to_pixel (e_stat e) q = Ok p -> lags_ok (side e) (q_vals p) = true -> q_vals p = map (fun v => v ^ 2) l ->
  two_usable (a_weighted a) None None l (compute_transform (e_half e) (e_ny e) (e_nx e) (e_img e) norm l) ->
  power_law A s None None l (compute_transform (e_half e) (e_ny e) (e_nx e) (e_img e) norm l) ->
  exists o1 o2, do_call e o (SetScales (LagQuantity q)) = (o1, None) /\ do_call e o1 (Fit a) = (o2, None) /\ scales_are e o2 (map (fun v => v ^ 2) l) /\ one_slope o2 (s / 2).
Proof.
  intros REG Y X RE S C LI XB HA EP K EQ T H. pose proof (reached_valid _ _ RE) as V. pose proof (scales_valid _ _ _ V S) as K0. unfold side in K0. pose proof (lags_positive _ _ K0) as PL0. pose proof (lags_positive _ _ K) as PL. rewrite EQ in PL.
  cbn [do_call]. unfold set_scales, BaseStat.set_lags. rewrite EP, K.
  set (o1 := mk_w q (w_curve o) (w_planes o) (w_range o) (w_state o) (w_params o) (w_model o)).
  assert (S1 : scales_are e o1 (map (fun v => v ^ 2) l)) by (exists p; auto).
  set (curve := compute_transform (e_half e) (e_ny e) (e_nx e) (e_img e) norm l) in *.
  assert (CM : forall (l : list R) (curve : list (fl * fl)), combine (map (fun v => v ^ 2) l) curve = map (fun q => (fst q ^ 2, snd q)) (combine l curve)).
  { clear. induction l as [|x l IH]; intros [|c curve]; try reflexivity. cbn [map combine fst snd]. now rewrite IH. }
  assert (T2 : two_usable (a_weighted a) None None (map (fun v => v ^ 2) l) curve).
  { destruct T as (x&t&u&v&D&I1&I2&_&_&U1&U2). exists (x ^ 2), (t ^ 2), u, v. rewrite Forall_forall in PL0. pose proof (PL0 _ (in_combine_l _ _ _ _ I1)). pose proof (PL0 _ (in_combine_l _ _ _ _ I2)). split; [intros E; apply D; nra|]. rewrite CM.
    split; [apply in_map_iff; exists (x, u); auto|]. split; [apply in_map_iff; exists (t, v); auto|]. repeat (split; [exact I|]). repeat (split; [split; exact I|]). auto. }
  destruct (fit_exact e o1 a _ curve None None (DeltaVarRun.log10 A) (s / 2) REG S1 C) as (o2&F1&F2&F3&F4&F5&F6); try assumption.
  - unfold curve. now rewrite transform_length, map_length.
  - now apply curve_sound.
  - intros x ve v I1 _ I3 PV. rewrite CM in I1. apply in_map_iff in I1. destruct I1 as [[x0 v0] [E I1]]. cbn [fst snd] in E. injection E as <- ->. rewrite (H x0 ve v I1 (conj I I) I3).
    rewrite Forall_forall in PL0. assert (P0 : 0 < x0) by exact (PL0 _ (in_combine_l _ _ _ _ I1)). rewrite log10_plaw by assumption. assert (LX : DeltaVarRun.log10 (x0 ^ 2) = 2 * DeltaVarRun.log10 x0).
    { replace (x0 ^ 2) with (x0 * x0) by ring. unfold DeltaVarRun.log10. rewrite ln_mult by assumption. pose proof ln10_pos. field. lra. }
    change (x0 * (x0 * 1)) with (x0 ^ 2). rewrite LX. field.
  - exists o1, o2. split; [reflexivity|]. split; [exact F1|]. split; [unfold scales_are in *; now rewrite F5|exact F2].
Qed.

(** ** Limits that leave a single scale *)
Lemma single_point lo hi l curve s v er : Forall (fun s => 0 < s) l -> (forall v, lo = Some v -> 0 < v) -> (forall v, hi = Some v -> 0 < v) -> only_scale lo hi l curve s v er ->
  fit_points lo hi l curve = fit_points None None [s] [(Fin v, er)].
Proof.
  intros PL L H (p1&p2&E&I1&OUT). assert (P : forall q, In q (combine l curve) -> 0 < fst q). { intros [x y] Hq. rewrite Forall_forall in PL. apply PL. eapply in_combine_l; eassumption. }
  assert (NI : forall q, In q (combine l curve) -> In q (p1 ++ p2) -> above_limit lo (fst q) && below_limit hi (fst q) = false).
  { intros q Hq Hq2. destruct (above_limit lo (fst q) && below_limit hi (fst q)) eqn:B; [|reflexivity]. exfalso. apply (OUT q Hq2). apply limits_inside; auto. }
  assert (FN : forall (p : list (R * (fl * fl))), (forall q, In q p -> above_limit lo (fst q) && below_limit hi (fst q) = false) -> filter (fun q => above_limit lo (fst q) && below_limit hi (fst q)) p = []).
  { induction p as [|q p IH]; intros HP; [reflexivity|]. cbn [filter]. rewrite (HP q (or_introl eq_refl)). apply IH. intros; apply HP; now right. }
  unfold fit_points. rewrite E in *. rewrite filter_app, (FN p1), app_nil_l by (intros q Hq; apply NI; apply in_or_app; auto). cbn [filter fst]. rewrite limits_hold; auto; [|apply (P (s, (Fin v, er))); apply in_or_app; right; now left].
  rewrite (FN p2) by (intros q Hq; apply NI; [apply in_or_app; right; now right|apply in_or_app; auto]). reflexivity.
Qed.
Theorem single_scale e o a l curve lo hi s v er : regression (e_ols e) -> reached e o -> scales_are e o l -> w_curve o = Some curve -> length curve = length l ->
  limits_are e a lo hi -> a_brk a = None -> a_weighted a = false -> s <> 1 -> 0 < v -> only_scale lo hi l curve s v er ->
  exists o', do_call e o (Fit a) = (o', Some IndexError) /\ t_brk (w_state o') = Some None /\ t_slope (w_state o') = t_slope (w_state o) /\ t_slope_err (w_state o') = t_slope_err (w_state o) /\ w_range o' = Some (fit_range l lo hi).
Proof.
  intros REG RE SA C L (X1&X2&X3&X4) XB XW N1 PV OS. pose proof (lags_positive _ _ (scales_valid _ _ _ (reached_valid _ _ RE) SA)) as PL. pose proof (single_point _ _ _ _ _ _ _ PL X3 X4 OS) as E.
  assert (PS : 0 < s). { destruct OS as (p1&p2&E1&_). rewrite Forall_forall in PL. apply PL. apply (in_combine_l l curve s (Fin v, er)). rewrite E1. apply in_or_app. right. now left. }
  destruct SA as (p&EP&<-). cbn [do_call]. unfold fit_transform. rewrite EP, C, X1, X2, XB. cbn [in_pixels]. cbv zeta. rewrite L, Nat.eqb_refl. cbn [negb]. rewrite E. unfold finish_line. rewrite XW.
  unfold fit_points. cbn [combine filter above_limit below_limit fst snd andb map DeltaVar.flog10]. destruct (Rltb_spec 0 v); [|lra]. unfold straight_line. cbn [filter used fst snd is_fin andb negb orb map].
  assert (NZ : DeltaVarRun.log10 s <> 0).
  { unfold DeltaVarRun.log10. intros Z. apply N1. apply ln_inv; [assumption|lra|]. rewrite ln_1. apply Rmult_integral in Z. pose proof ln10_pos. destruct Z as [Z|Z]; [exact Z|]. apply Rinv_neq_0_compat in Z; [destruct Z|lra]. }
  assert (CC : const_col [DeltaVarRun.log10 s] = true). { unfold const_col. cbn [forallb]. destruct (Reqb_spec (DeltaVarRun.log10 s) 0); [contradiction|reflexivity]. }
  rewrite CC. cbn [fins]. set (y := fins _). set (f := e_ols e y None [[DeltaVarRun.log10 s]]).
  destruct (REG y None I) as [_ LS]. destruct (LS [[DeltaVarRun.log10 s]]) as (q&Lq&EQ&_); [intros c [<-|[]]; reflexivity|]. fold f in EQ. cbn [length] in Lq.
  rewrite EQ. destruct q as [|q0 [|]]; try discriminate Lq. cbn [map LmSeg.index nth_error]. eexists. split; [reflexivity|]. cbn. auto.
Qed.

(** ** Brighter images, other normalizations, other orientations *)
Theorem slope_brighter e o o2 norm a k l lo hi : regression (e_ols e) -> (3 <= e_ny e)%nat -> (3 <= e_nx e)%nat -> reached e o -> scales_are e o l -> w_scales o2 = w_scales o -> 0 < k ->
  limits_are e a lo hi -> a_brk a = None -> two_usable (a_weighted a) lo hi l (compute_transform (e_half e) (e_ny e) (e_nx e) (e_img e) norm l) ->
  exists o' o2' s b, run e o norm a = (o', None) /\ run (brighter k e) o2 norm a = (o2', None) /\ one_slope o' s /\ one_slope o2' s /\ w_range o2' = w_range o' /\
    (exists curve, w_curve o' = Some curve /\ w_curve o2' = Some (map (fun ve => (fmul (Fin k) (fst ve), fmul (Fin k) (snd ve))) curve)) /\
    model_is o' b s /\ model_is o2' (b + ln k / ln 10) s.
Proof.
  intros REG Y X RE S W K LI XB T. pose proof (reached_valid _ _ RE) as V. pose proof (scales_valid _ _ _ V S) as KK. unfold side in KK. pose proof (lags_positive _ _ KK) as PL.
  assert (TS : compute_transform (e_half e) (e_ny e) (e_nx e) (e_img (brighter k e)) norm l = map (scaled k) (compute_transform (e_half e) (e_ny e) (e_nx e) (e_img e) norm l)).
  { apply transform_scaled; [exact K|]. now apply Forall_forall. }
  assert (S2 : scales_are (brighter k e) o2 l) by (unfold scales_are in *; now rewrite W).
  assert (G : forall s, 0 < s -> 0 < (fun _ : R => k) s /\ DeltaVarRun.log10 ((fun _ : R => k) s) = DeltaVarRun.log10 k + 0 * DeltaVarRun.log10 s) by (intros; split; [exact K|ring]).
  destruct (runs_tilt e (brighter k e) o o2 norm norm a l (fun _ => k) (DeltaVarRun.log10 k) 0 lo hi REG eq_refl eq_refl Y X V S S2) as (o'&o2'&s&er&er2&F1&F2&F3&F4&F5&F6&F7&F8&F9&F10&F11&F12&b&F13); try assumption.
  { change (e_half (brighter k e)) with (e_half e). change (e_ny (brighter k e)) with (e_ny e). change (e_nx (brighter k e)) with (e_nx e). rewrite TS. symmetry. apply (combine_scaled (fun _ => k)); [apply transform_length|reflexivity]. }
  exists o', o2', s, b. rewrite Rplus_0_r in F4. split; [exact F1|]. split; [exact F2|]. split; [now split|]. split; [now split|]. split; [congruence|]. split.
  - eexists. split; [exact F11|]. rewrite F12. apply f_equal. exact TS.
  - split; intros xs; destruct (F13 xs) as [A B]; [exact A|]. rewrite B. apply f_equal. apply map_ext. intros x. unfold DeltaVarRun.log10. ring.
Qed.

Theorem slope_unnormalized e o o2 a l lo hi : regression (e_ols e) -> (3 <= e_ny e)%nat -> (3 <= e_nx e)%nat -> reached e o -> scales_are e o l -> w_scales o2 = w_scales o ->
  limits_are e a lo hi -> a_brk a = None -> two_usable (a_weighted a) lo hi l (compute_transform (e_half e) (e_ny e) (e_nx e) (e_img e) true l) ->
  exists o' o2' s b, run e o true a = (o', None) /\ run e o2 false a = (o2', None) /\ one_slope o' s /\ one_slope o2' (s + 2) /\ w_range o2' = w_range o' /\ model_is o' b s /\ model_is o2' b (s + 2).
Proof.
  intros REG Y X RE S W LI XB T. pose proof (reached_valid _ _ RE) as V. pose proof (scales_valid _ _ _ V S) as KK. unfold side in KK. pose proof (lags_positive _ _ KK) as PL.
  assert (S2 : scales_are e o2 l) by (unfold scales_are in *; now rewrite W).
  assert (G : forall s, 0 < s -> 0 < s ^ 2 /\ DeltaVarRun.log10 (s ^ 2) = 0 + 2 * DeltaVarRun.log10 s).
  { intros s Hs. split; [now apply pow_lt|]. replace (s ^ 2) with (s * s) by ring. unfold DeltaVarRun.log10. rewrite ln_mult by assumption. pose proof ln10_pos. field. lra. }
  destruct (runs_tilt e e o o2 true false a l (fun s => s ^ 2) 0 2 lo hi REG eq_refl eq_refl Y X V S S2) as (o'&o2'&s&er&er2&F1&F2&F3&F4&F5&F6&F7&F8&F9&F10&F11&F12&b&F13); try assumption.
  { apply transform_raw. now apply Forall_forall. }
  exists o', o2', s, b. split; [exact F1|]. split; [exact F2|]. split; [now split|]. split; [now split|]. split; [congruence|].
  split; intros xs; destruct (F13 xs) as [A B]; [exact A|]. rewrite B. apply f_equal. apply map_ext. intros x. ring.
Qed.

Lemma run_curve e e2 o norm a : e_stat e2 = e_stat e -> e_ols e2 = e_ols e -> e_boot e2 = e_boot e -> e_lboot e2 = e_lboot e ->
  (forall l, scales_are e o l -> compute_transform (e_half e2) (e_ny e2) (e_nx e2) (e_img e2) norm l = compute_transform (e_half e) (e_ny e) (e_nx e) (e_img e) norm l) ->
  run e2 o norm a = run e o norm a.
Proof.
  intros E1 E2 E3 E4 H. unfold run, compute. rewrite E1. destruct (to_pixel (e_stat e) (w_scales o)) as [p|x] eqn:EP; [|reflexivity]. cbn [also]. rewrite (H (q_vals p)) by (exists p; auto).
  unfold fit_transform, finish_line, segmented. rewrite E1, E2, E3, E4. reflexivity.
Qed.
Theorem run_oriented e o norm a : reached e o -> run (transposed e) o norm a = run e o norm a /\ run (mirrored e) o norm a = run e o norm a.
Proof.
  intros RE. pose proof (reached_valid _ _ RE) as V. split; apply run_curve; try reflexivity; intros l S; pose proof (lags_positive _ _ (scales_valid _ _ _ V S)) as PL; rewrite Forall_forall in PL.
  - now apply transform_transposed.
  - now apply transform_mirrored.
Qed.

(** ** The distance of an image to itself made brighter *)
Lemma new_any_image e ny nx img scales num : Nat.min ny nx = side e -> new_wavelet (with_image e ny nx img) scales num = new_wavelet e scales num.
Proof. intros H. unfold new_wavelet. change (side (with_image e ny nx img)) with (Nat.min ny nx). change (e_stat (with_image e ny nx img)) with (e_stat e). now rewrite H. Qed.
Lemma zero_distance s e1 e2 : Distances.slope_distance (Fin s) e1 (Fin s) e2 = Fin 0 \/ Distances.slope_distance (Fin s) e1 (Fin s) e2 = NaN.
Proof.
  unfold Distances.slope_distance, fsub. cbn [fneg fadd]. replace (s + - s) with 0 by ring. destruct (fsqrt (fadd (fsqr e1) (fsqr e2))) as [r| | |]; cbn [fdiv fabs]; auto.
  - destruct (Reqb_spec r 0); [right; unfold sinf; destruct (Rltb_spec 0 0); [lra|]; destruct (Rltb_spec 0 0); [lra|]; reflexivity|]. left. cbn [fabs]. apply f_equal. unfold Rdiv. rewrite Rmult_0_l. apply Rabs_R0.
  - left. apply f_equal. apply Rabs_R0.
  - left. apply f_equal. apply Rabs_R0.
Qed.
Theorem brighter_distance e k scales a o l lo hi : regression (e_ols e) -> (3 <= e_ny e)%nat -> (3 <= e_nx e)%nat -> 0 < k ->
  new_wavelet e scales 50 = Ok o -> scales_are e o l -> limits_are e a lo hi -> a_brk a = None ->
  two_usable (a_weighted a) lo hi l (compute_transform (e_half e) (e_ny e) (e_nx e) (e_img e) true l) ->
  exists d, image_distance e (brighter k e) scales a a = Ok [d] /\ (d = Fin 0 \/ d = NaN).
Proof.
  intros REG Y X K N S LI XB T. assert (RE : reached e o) by (exists scales, 50%nat, o, []; auto). pose proof (reached_valid _ _ RE) as V. pose proof (scales_valid _ _ _ V S) as KK. unfold side in KK. pose proof (lags_positive _ _ KK) as PL.
  assert (TS : compute_transform (e_half e) (e_ny e) (e_nx e) (e_img (brighter k e)) true l = map (scaled k) (compute_transform (e_half e) (e_ny e) (e_nx e) (e_img e) true l)).
  { apply transform_scaled; [exact K|]. now apply Forall_forall. }
  assert (S2 : scales_are (brighter k e) o l) by exact S.
  assert (G : forall s, 0 < s -> 0 < (fun _ : R => k) s /\ DeltaVarRun.log10 ((fun _ : R => k) s) = DeltaVarRun.log10 k + 0 * DeltaVarRun.log10 s) by (intros; split; [exact K|ring]).
  destruct (runs_tilt e (brighter k e) o o true true a l (fun _ => k) (DeltaVarRun.log10 k) 0 lo hi REG eq_refl eq_refl Y X V S S2) as (o'&o2'&s&er&er2&F1&F2&F3&F4&F5&F6&_); try assumption.
  { change (e_half (brighter k e)) with (e_half e). change (e_ny (brighter k e)) with (e_ny e). change (e_nx (brighter k e)) with (e_nx e). rewrite TS. symmetry. apply (combine_scaled (fun _ => k)); [apply transform_length|reflexivity]. }
  unfold image_distance. rewrite N. cbn [bind]. rewrite F1. unfold brighter at 1. rewrite new_any_image by reflexivity. rewrite N. cbn [bind]. rewrite F2. unfold slopes_of. rewrite F3, F4, F5, F6. cbn [combine Distances.slope_distances map fst snd].
  eexists. split; [reflexivity|]. rewrite Rplus_0_r. apply zero_distance.
Qed.
