(** Proofs about Model/WaveletRun.v: the slope of the transform when the image changes. *)
From Coq Require Import Reals List ZArith Arith Bool Lia Lra.
From Verif Require Import Lib.PyBase Lib.Fl Lib.RSum Spec.Segmented Spec.BreakFit Spec.MexHat Model.Units Model.DeltaVar Model.BaseStat Model.Wavelet Model.FitState Model.DeltaVarRun Model.LmSeg Model.BreakFit Model.WaveletRun
  Spec.WaveletRun Proofs.Fl_Proofs Proofs.Ols_Proofs Proofs.BreakFit_Proofs Proofs.DeltaVar2_Proofs Proofs.DeltaVarRun3_Proofs Proofs.Wavelet_Proofs Proofs.Wavelet2_Proofs Proofs.Wavelet3_Proofs Proofs.WaveletRun_Proofs Proofs.WaveletRun2_Proofs.
Import ListNotations.
Local Open Scope R_scope.

Definition sound (ve : fl * fl) : Prop := fst ve = NaN \/ exists v er, ve = (Fin v, Fin er) /\ 0 < v /\ 0 <= er.
Definition scaled (g : R) (ve : fl * fl) : fl * fl := (fmul (Fin g) (fst ve), fmul (Fin g) (snd ve)).

Lemma weight_sound v er : 0 < v -> 0 <= er -> weight_of (Fin v, Fin er) = if Req_EM_T er 0 then NaN else Fin (1 / ((434 / 1000 * er / v) * (434 / 1000 * er / v))).
Proof.
  intros V E. unfold weight_of. cbn [fst snd fmul fdiv]. destruct (Reqb_spec v 0); [lra|]. cbn [feqb]. destruct (Req_EM_T er 0) as [->|N].
  - replace (434 / 1000 * 0 / v) with 0 by (field; lra). destruct (Reqb_spec 0 0); [reflexivity|lra].
  - assert (P : 0 < 434 / 1000 * er / v) by (apply Rdiv_lt_0_compat; lra). destruct (Reqb_spec (434 / 1000 * er / v) 0); [lra|]. unfold fsqr. cbn [fmul fdiv].
    destruct (Reqb_spec (434 / 1000 * er / v * (434 / 1000 * er / v)) 0) as [Z|Z]; [apply Rmult_integral in Z; lra|reflexivity].
Qed.
Lemma weight_nan er : weight_of (NaN, er) = NaN.
Proof. unfold weight_of. cbn [fst snd]. destruct (fmul (Fin (434 / 1000)) er); reflexivity. Qed.
Lemma weight_scaled g ve : 0 < g -> sound ve -> weight_of (scaled g ve) = weight_of ve.
Proof.
  intros G [N|(v&er&->&V&E)].
  - destruct ve as [v er]. cbn [fst] in N. subst v. unfold scaled. cbn [fst snd fmul]. now rewrite !weight_nan.
  - unfold scaled. cbn [fst snd fmul]. rewrite !weight_sound; try lra; [|now apply Rmult_lt_0_compat|apply Rmult_le_pos; lra].
    destruct (Req_EM_T er 0) as [->|NZ]; destruct (Req_EM_T (g * _) 0) as [Z|Z]; try reflexivity.
    + exfalso. apply Z. ring.
    + exfalso. apply Rmult_integral in Z. lra.
    + apply f_equal. field. repeat split; lra.
Qed.
Lemma flog_scaled g ve : 0 < g -> sound ve -> DeltaVar.flog10 (fst (scaled g ve)) = fadd (DeltaVar.flog10 (fst ve)) (Fin (DeltaVarRun.log10 g)).
Proof.
  intros G [N|(v&er&->&V&E)]; unfold scaled; cbn [fst].
  - rewrite N. reflexivity.
  - cbn [fmul DeltaVar.flog10]. assert (0 < g * v) by (now apply Rmult_lt_0_compat). destruct (Rltb_spec 0 (g * v)); [|lra]. destruct (Rltb_spec 0 v); [|lra]. cbn [fadd]. apply f_equal.
    unfold DeltaVarRun.log10. rewrite ln_mult by assumption. assert (0 < ln 10) by (rewrite <- ln_1; apply ln_increasing; lra). field. lra.
Qed.

Lemma rows_scaled (g : R -> R) c k weighted lo hi : forall l curve, Forall (fun s => 0 < g s /\ DeltaVarRun.log10 (g s) = c + k * DeltaVarRun.log10 s) l -> Forall sound curve ->
  rows_of weighted (fit_points lo hi l (map (fun p => scaled (g (fst p)) (snd p)) (combine l curve))) = tilt c k (rows_of weighted (fit_points lo hi l curve)).
Proof.
  unfold rows_of, fit_points, tilt. induction l as [|s l IH]; intros curve G S; [reflexivity|]. destruct curve as [|ve curve]; [reflexivity|]. inversion G as [|? ? [G1 G2] G3]; subst. inversion S as [|? ? S1 S2]; subst.
  cbn [combine map filter fst snd]. destruct (above_limit lo s && below_limit hi s); [|now apply IH]. cbn [map filter fst snd].
  assert (U : used weighted (DeltaVarRun.log10 s, DeltaVar.flog10 (fst (scaled (g s) ve)), weight_of (scaled (g s) ve)) = used weighted (DeltaVarRun.log10 s, DeltaVar.flog10 (fst ve), weight_of ve)).
  { unfold used. cbn [fst snd]. rewrite flog_scaled, weight_scaled by assumption. f_equal. destruct (DeltaVar.flog10 (fst ve)); reflexivity. }
  rewrite U. destruct (used weighted (DeltaVarRun.log10 s, DeltaVar.flog10 (fst ve), weight_of ve)) eqn:EU; [|now apply IH]. cbn [map]. rewrite IH by assumption. f_equal. unfold clean_row. cbn [fst snd]. rewrite flog_scaled, weight_scaled, G2 by assumption.
  unfold used in EU. cbn [fst snd] in EU. apply andb_prop in EU. destruct (DeltaVar.flog10 (fst ve)); try (destruct EU; discriminate). reflexivity.
Qed.
Lemma weights_rows weighted lo hi : forall l curve, Forall sound curve -> positive_weights weighted (rows_of weighted (fit_points lo hi l curve)).
Proof.
  intros l curve S r Hr. unfold rows_of in Hr. apply in_map_iff in Hr. destruct Hr as [q [<- Hq]]. apply filter_In in Hq. destruct Hq as [Hq U]. unfold fit_points in Hq. apply in_map_iff in Hq. destruct Hq as [[s ve] [<- Hp]]. apply filter_In in Hp. destruct Hp as [Hp _].
  apply in_combine_r in Hp. rewrite Forall_forall in S. specialize (S ve Hp). unfold wt. destruct weighted; [|lra]. unfold used in U. cbn [negb orb fst snd] in U. apply andb_prop in U. destruct U as [_ U]. cbn [clean_row fst snd].
  destruct S as [N|(v&er&->&V&E)].
  - destruct ve as [v er]. cbn [fst] in N. subst v. rewrite weight_nan in U. discriminate.
  - rewrite weight_sound in * by assumption. destruct (Req_EM_T er 0) as [Z|Z]; [discriminate U|]. assert (0 < 434 / 1000 * er / v) by (apply Rdiv_lt_0_compat; lra). apply Rdiv_lt_0_compat; [lra|now apply Rmult_lt_0_compat].
Qed.
Lemma log10_inj a b : 0 < a -> 0 < b -> DeltaVarRun.log10 a = DeltaVarRun.log10 b -> a = b.
Proof. intros A B H. unfold DeltaVarRun.log10 in H. assert (0 < ln 10) by (rewrite <- ln_1; apply ln_increasing; lra). apply ln_inv; try assumption. apply Rmult_eq_reg_r with (/ ln 10); [exact H|]. apply Rinv_neq_0_compat. lra. Qed.
Lemma limits_hold lo hi s : 0 < s -> (forall v, lo = Some v -> 0 < v) -> (forall v, hi = Some v -> 0 < v) -> inside lo hi s -> above_limit lo s && below_limit hi s = true.
Proof.
  intros P L H [A B]. unfold above_limit, below_limit. apply andb_true_intro. split.
  - destruct lo as [v|]; [|reflexivity]. cbn [above] in A. specialize (L v eq_refl). destruct (Rltb_spec 0 v); [|lra]. rewrite log10_order by assumption. destruct (Rleb_spec v s); [reflexivity|lra].
  - destruct hi as [v|]; [|reflexivity]. cbn [below] in B. specialize (H v eq_refl). destruct (Rltb_spec 0 v); [|lra]. rewrite log10_order by assumption. destruct (Rleb_spec s v); [reflexivity|lra].
Qed.
Lemma point_row weighted lo hi l curve s ve : 0 < s -> (forall v, lo = Some v -> 0 < v) -> (forall v, hi = Some v -> 0 < v) -> In (s, ve) (combine l curve) -> inside lo hi s -> sound ve -> usable_point weighted ve ->
  exists r, In r (rows_of weighted (fit_points lo hi l curve)) /\ fst (fst r) = DeltaVarRun.log10 s.
Proof.
  intros P L H I B S [(v&F) W]. exists (clean_row (DeltaVarRun.log10 s, DeltaVar.flog10 (fst ve), weight_of ve)). split; [|reflexivity]. unfold rows_of. apply in_map. apply filter_In. split.
  - unfold fit_points. apply in_map_iff. exists (s, ve). split; [reflexivity|]. apply filter_In. split; [exact I|]. now apply limits_hold.
  - destruct S as [N|(v'&er&->&V&E)]; [congruence|]. unfold used. cbn [fst snd DeltaVar.flog10]. destruct (Rltb_spec 0 v'); [|lra]. cbn [is_fin andb]. destruct weighted; [|reflexivity]. cbn [negb orb].
    destruct (W eq_refl) as (e1&Er&NZ). cbn [snd] in Er. injection Er as ->. rewrite weight_sound by assumption. destruct (Req_EM_T e1 0); [contradiction|reflexivity].
Qed.
Lemma points_spread weighted lo hi l curve : Forall (fun s => 0 < s) l -> (forall v, lo = Some v -> 0 < v) -> (forall v, hi = Some v -> 0 < v) -> Forall sound curve -> two_usable weighted lo hi l curve ->
  spread_rows (rows_of weighted (fit_points lo hi l curve)).
Proof.
  intros P L H S (s&t&u&v&D&Is&It&Bs&Bt&Us&Ut). rewrite Forall_forall in P, S. pose proof (P _ (in_combine_l _ _ _ _ Is)) as Ps. pose proof (P _ (in_combine_l _ _ _ _ It)) as Pt.
  destruct (point_row weighted lo hi l curve s u Ps L H Is Bs (S _ (in_combine_r _ _ _ _ Is)) Us) as (r&Hr&Er). destruct (point_row weighted lo hi l curve t v Pt L H It Bt (S _ (in_combine_r _ _ _ _ It)) Ut) as (q&Hq&Eq).
  exists r, q. split; [exact Hr|]. split; [exact Hq|]. rewrite Er, Eq. intros E. apply D. now apply log10_inj.
Qed.

(** A fit without a break that has two points to use *)
Lemma fit_line e o a l curve lo hi f s er : scales_are e o l -> w_curve o = Some curve -> length curve = length l -> in_pixels (e_stat e) (a_xlow a) = Ok lo -> in_pixels (e_stat e) (a_xhigh a) = Ok hi -> a_brk a = None ->
  straight_line (e_ols e) (a_weighted a) (fit_points lo hi l curve) = Ok f -> LmSeg.index (f_params f) 1 = Ok s -> LmSeg.index (f_bse f) 1 = Ok er ->
  exists o' er', fit_transform e o a = (o', None) /\ t_slope (w_state o') = Some [s] /\ t_slope_err (w_state o') = Some [er'] /\ t_brk (w_state o') = Some None /\
    w_range o' = Some (fit_range l lo hi) /\ w_curve o' = Some curve /\ w_scales o' = w_scales o /\ w_params o' = Some (f_params f) /\ w_model o' = Some None.
Proof.
  intros (p&EP&<-) C L XL XH XB E1 E2 E3. unfold fit_transform. rewrite EP, C, XL, XH, XB. cbn [in_pixels]. cbv zeta. rewrite L, Nat.eqb_refl. cbn [negb]. unfold finish_line. rewrite E1, E2, E3. do 2 eexists. split; [reflexivity|].
  rewrite step_straight by discriminate. cbn. repeat (split; [reflexivity|]). reflexivity.
Qed.

(** ** The values of the transform are positive or blank *)
Lemma curve_sound half ny nx img norm l : (3 <= ny)%nat -> (3 <= nx)%nat -> lags_ok (Nat.min ny nx) l = true -> Forall sound (compute_transform half ny nx img norm l).
Proof.
  intros Y X K. pose proof (proj1 (lags_ok_iff _ _) K) as B. apply Forall_forall. intros ve Hve. destruct (In_nth_error _ _ Hve) as (k&Hk).
  assert (LK : (k < length l)%nat). { assert (k < length (compute_transform half ny nx img norm l))%nat by (apply nth_error_Some; congruence). unfold compute_transform in H. now rewrite map_length in H. }
  destruct (nth_error l k) as [a|] eqn:Ea; [|apply nth_error_None in Ea; lia]. destruct (B a (nth_error_In _ _ Ea)) as [A1 A2].
  assert (A3 : IZR (Int_part a) <= INR (Nat.min ny nx) / 2).
  { assert (2 * Int_part a < Z.of_nat (Nat.min ny nx) + 1)%Z; [|rewrite INR_IZR_INZ; assert (2 * IZR (Int_part a) <= IZR (Z.of_nat (Nat.min ny nx))); [rewrite <- mult_IZR; apply IZR_le; lia|lra]].
    apply lt_IZR. rewrite plus_IZR, mult_IZR, <- INR_IZR_INZ. assert (/ 10 ^ 10 < 1 / 4); [|lra]. replace (1 / 4) with (/ 4) by lra. apply Rinv_lt_contravar; lra. }
  destruct (value_rule half ny nx img norm l k a Ea ltac:(lra)) as (v&er&E1&Z1&P1). destruct (stddev_rule half ny nx img norm l k a Y X Ea A1 A3) as (v2&er2&E2&Z2&P2).
  rewrite Hk in E1, E2. injection E1 as ->. injection E2 as <- <-. cbv zeta in *. destruct (positives (coefficients (half a) a norm ny nx img)) as [|c cs] eqn:EP.
  - left. cbn [fst]. now apply Z1.
  - destruct P1 as (->&PM&_); [discriminate|]. destruct P2 as (n&area&N&_&_&_&->); [discriminate|]. right. do 2 eexists. split; [reflexivity|]. split; [exact PM|].
    apply Rmult_le_pos; [apply sqrt_pos|]. apply Rlt_le, Rinv_0_lt_compat, sqrt_lt_R0. apply IZR_lt. lia.
Qed.
Lemma combine_scaled (g : R -> R) : forall (l : list R) (curve : list (fl * fl)) c, length curve = length l -> (forall s, In s l -> g s = c) ->
  map (fun p => scaled (g (fst p)) (snd p)) (combine l curve) = map (scaled c) curve.
Proof.
  induction l as [|s l IH]; intros curve c L G; destruct curve as [|v curve]; try reflexivity; try discriminate L. cbn [combine map fst snd]. rewrite (G s (or_introl eq_refl)). f_equal. apply IH; [now injection L|]. intros; apply G; now right.
Qed.
Lemma transform_length half ny nx img norm l : length (compute_transform half ny nx img norm l) = length l.
Proof. unfold compute_transform. now rewrite map_length. Qed.
Lemma lags_positive n l : lags_ok n l = true -> Forall (fun s => 0 < s) l.
Proof. intros K. apply Forall_forall. intros s Hs. destruct (proj1 (lags_ok_iff _ _) K s Hs). lra. Qed.

(** ** Fits of two curves that differ by a factor c·s^k *)
Lemma fit_tilt e e2 o o2 a l curve g c k lo hi : regression (e_ols e) -> e_ols e2 = e_ols e -> scales_are e o l -> scales_are e2 o2 l -> w_curve o = Some curve -> length curve = length l ->
  w_curve o2 = Some (map (fun p => scaled (g (fst p)) (snd p)) (combine l curve)) ->
  Forall (fun s => 0 < s) l -> Forall sound curve -> Forall (fun s => 0 < g s /\ DeltaVarRun.log10 (g s) = c + k * DeltaVarRun.log10 s) l ->
  limits_are e a lo hi -> e_stat e2 = e_stat e -> a_brk a = None -> two_usable (a_weighted a) lo hi l curve ->
  exists o' o2' s er er2, fit_transform e o a = (o', None) /\ fit_transform e2 o2 a = (o2', None) /\
    t_slope (w_state o') = Some [Fin s] /\ t_slope (w_state o2') = Some [Fin (s + k)] /\ t_slope_err (w_state o') = Some [er] /\ t_slope_err (w_state o2') = Some [er2] /\
    t_brk (w_state o') = Some None /\ t_brk (w_state o2') = Some None /\
    w_range o' = Some (fit_range l lo hi) /\ w_range o2' = Some (fit_range l lo hi) /\ w_curve o' = w_curve o /\ w_curve o2' = w_curve o2 /\ w_scales o' = w_scales o /\ w_scales o2' = w_scales o2 /\
    exists p0, forall xs, fitted_model o' xs = Ok (map (fun x => p0 + s * x) xs) /\ fitted_model o2' xs = Ok (map (fun x => (p0 + s * x) + (c + k * x)) xs).
Proof.
  intros REG EO S1 S2 C1 L C2 PL SO G (X1&X2&XP1&XP2) ES XB T.
  assert (SP : spread_rows (rows_of (a_weighted a) (fit_points lo hi l curve))) by now apply points_spread.
  pose proof (weights_rows (a_weighted a) lo hi l curve SO) as WP.
  destruct (solver_tilt (e_ols e) (a_weighted a) _ c k REG WP SP) as (p0&p1&er&er'&P1&B1&P2&B2).
  pose proof (line_rows (e_ols e) _ _ SP) as SL1.
  pose proof (line_rows (e_ols e) (a_weighted a) (fit_points lo hi l (map (fun p => scaled (g (fst p)) (snd p)) (combine l curve)))) as SL2. rewrite (rows_scaled g c k) in SL2 by assumption. specialize (SL2 (tilt_spread _ _ _ SP)).
  destruct (fit_line e o a l curve lo hi _ (Fin p1) er S1 C1 L X1 X2 XB SL1) as (o'&e1'&F1&F2&F3&F4&F5&F6&F7&F8&F9); [now rewrite P1|exact B1|].
  rewrite <- ES in X1, X2. rewrite <- EO in SL2. rewrite <- EO in P2, B2.
  assert (L2 : length (map (fun p => scaled (g (fst p)) (snd p)) (combine l curve)) = length l) by (rewrite map_length, combine_length; lia).
  destruct (fit_line e2 o2 a l _ lo hi _ (Fin (p1 + k)) er' S2 C2 L2 X1 X2 XB SL2) as (o2'&e2'&G1&G2&G3&G4&G5&G6&G7&G8&G9); [now rewrite P2|exact B2|].
  exists o', o2', p1, e1', e2'. repeat (split; [first [assumption|congruence]|]). exists p0. intros xs. unfold fitted_model. rewrite F9, F8, P1, G9, G8, P2. split; [reflexivity|]. apply f_equal. apply map_ext. intros x. ring.
Qed.

(** ** Runs *)
Lemma compute_ok e o norm keep l : scales_are e o l -> exists o', compute e o norm keep = (o', None) /\ w_curve o' = Some (compute_transform (e_half e) (e_ny e) (e_nx e) (e_img e) norm l) /\ w_scales o' = w_scales o.
Proof. intros (p&EP&<-). unfold compute. rewrite EP. eexists. split; [reflexivity|]. split; reflexivity. Qed.

Lemma runs_tilt e e2 o o2 norm norm2 a l g c k lo hi : regression (e_ols e) -> e_ols e2 = e_ols e -> e_stat e2 = e_stat e -> (3 <= e_ny e)%nat -> (3 <= e_nx e)%nat ->
  valid e (w_scales o) -> scales_are e o l -> scales_are e2 o2 l ->
  compute_transform (e_half e2) (e_ny e2) (e_nx e2) (e_img e2) norm2 l = map (fun p => scaled (g (fst p)) (snd p)) (combine l (compute_transform (e_half e) (e_ny e) (e_nx e) (e_img e) norm l)) ->
  (forall s, 0 < s -> 0 < g s /\ DeltaVarRun.log10 (g s) = c + k * DeltaVarRun.log10 s) ->
  limits_are e a lo hi -> a_brk a = None -> two_usable (a_weighted a) lo hi l (compute_transform (e_half e) (e_ny e) (e_nx e) (e_img e) norm l) ->
  exists o' o2' s er er2, run e o norm a = (o', None) /\ run e2 o2 norm2 a = (o2', None) /\
    t_slope (w_state o') = Some [Fin s] /\ t_slope (w_state o2') = Some [Fin (s + k)] /\ t_slope_err (w_state o') = Some [er] /\ t_slope_err (w_state o2') = Some [er2] /\
    t_brk (w_state o') = Some None /\ t_brk (w_state o2') = Some None /\
    w_range o' = Some (fit_range l lo hi) /\ w_range o2' = Some (fit_range l lo hi) /\
    w_curve o' = Some (compute_transform (e_half e) (e_ny e) (e_nx e) (e_img e) norm l) /\ w_curve o2' = Some (compute_transform (e_half e2) (e_ny e2) (e_nx e2) (e_img e2) norm2 l) /\
    exists p0, forall xs, fitted_model o' xs = Ok (map (fun x => p0 + s * x) xs) /\ fitted_model o2' xs = Ok (map (fun x => (p0 + s * x) + (c + k * x)) xs).
Proof.
  intros REG EO ES Y X V S1 S2 CT G LI XB T. pose proof (scales_valid _ _ _ V S1) as K. unfold side in K.
  destruct (compute_ok e o norm false l S1) as (m1&M1&M2&M3). destruct (compute_ok e2 o2 norm2 false l S2) as (n1&N1&N2&N3).
  assert (S1' : scales_are e m1 l) by (unfold scales_are in *; now rewrite M3). assert (S2' : scales_are e2 n1 l) by (unfold scales_are in *; now rewrite N3).
  pose proof N2 as N2'. rewrite CT in N2'. pose proof (lags_positive _ _ K) as PL.
  destruct (fit_tilt e e2 m1 n1 a l _ g c k lo hi REG EO S1' S2' M2 (transform_length _ _ _ _ _ _) N2' PL (curve_sound _ _ _ _ _ _ Y X K)) as (o'&o2'&s&er&er2&F1&F2&F3&F4&F5&F6&F7&F8&F9&F10&F11&F12&F13&F14&F15); try assumption.
  { eapply Forall_impl; [|exact PL]. intros s Hs. now apply G. }
  exists o', o2', s, er, er2. unfold run. rewrite M1, N1. cbn [also]. repeat (split; [first [assumption|congruence]|]). exact F15.
Qed.
