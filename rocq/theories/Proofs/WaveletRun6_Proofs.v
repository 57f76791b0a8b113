(** A star in a blank image: its transform with kernels of a single pixel is a power law. *)
From Coq Require Import Reals List ZArith Arith Bool Lia Lra.
From Verif Require Import Lib.PyBase Lib.Fl Lib.RSum Spec.Blank Spec.Segmented Spec.BreakFit Spec.MexHat Model.Units Model.DeltaVar Model.BaseStat Model.Wavelet Model.FitState Model.DeltaVarRun Model.LmSeg Model.BreakFit Model.WaveletRun
  Spec.WaveletRun Proofs.Fl_Proofs Proofs.Ols_Proofs Proofs.DeltaVarRun_Proofs Proofs.Wavelet_Proofs Proofs.Wavelet2_Proofs Proofs.WaveletRun_Proofs Proofs.WaveletRun2_Proofs Proofs.WaveletRun3_Proofs Proofs.WaveletRun4_Proofs Proofs.WaveletRun5_Proofs.
Import ListNotations.
Local Open Scope R_scope.

Lemma coefficient_point a norm ny nx img y x : 0 < a -> (y < ny)%nat -> (x < nx)%nat ->
  coefficient 0 a norm ny nx img y x = (if norm then a ^ 2 else a ^ 4) * (brightness (img y x) / (PI * a ^ 4)).
Proof.
  intros A Y X. unfold coefficient. f_equal. rewrite (rsum_single _ _ y Y).
  - rewrite (rsum_single _ _ x X).
    + unfold cut_hat. rewrite !Z.sub_diag. cbn [Z.abs Z.leb Z.compare Z.of_nat andb]. unfold hat. replace ((IZR 0 ^ 2 + IZR 0 ^ 2) / (2 * a ^ 2)) with 0 by (field; lra). rewrite Ropp_0, exp_0. pose proof PI_RGT_0. field. split; lra.
    + intros i _ N. unfold cut_hat. cbn [Z.of_nat]. destruct (Z.leb_spec (Z.abs (Z.of_nat x - Z.of_nat i)) 0); [lia|]. rewrite andb_false_r. ring.
  - intros i _ N. rewrite (rsum_ext _ _ (fun _ => 0)); [apply rsum_0|]. intros j _. unfold cut_hat. cbn [Z.of_nat]. destruct (Z.leb_spec (Z.abs (Z.of_nat y - Z.of_nat i)) 0); [lia|]. cbn [andb]. ring.
Qed.
Lemma rmean_same c l : l <> [] -> (forall v, In v l -> v = c) -> rmean l = c.
Proof.
  intros N H. unfold rmean. assert (E : lsum l = INR (length l) * c). { clear N. induction l as [|v l IH]; [cbn; ring|]. rewrite lsum_cons, IH by (intros; apply H; now right). rewrite (H v (or_introl eq_refl)). cbn [length]. rewrite S_INR. ring. }
  rewrite E. field. apply not_0_INR. destruct l; [congruence|discriminate].
Qed.

(** One star of brightness PI in a corner of an image of 8 by 8 pixels that is blank otherwise *)
Definition star (y x : nat) : fl := if Nat.eqb y 0 && Nat.eqb x 0 then Fin PI else NaN.
Definition sky : wenv := mk_we (mk_stat None None) 8 8 star (fun _ => 0%nat) ols0 (fun _ => []) (fun _ => NaN).
Definition given (l : list R) : option lag_value := Some (LagQuantity (mk_q l pix)).
Definition scales2 : list R := [1; 2].
Definition sky_object (l : list R) : wobj := mk_w (mk_q l pix) None None None unfitted None None.
Definition plain : wargs := mk_wa None None None 3 false false.
Lemma sky_new l num : Forall (fun v => 1 <= v <= 4) l -> new_wavelet sky (given l) num = Ok (sky_object l).
Proof. intros H. unfold new_wavelet, wavelet_scales, given, BaseStat.set_lags. change (to_pixel (e_stat sky) (mk_q l pix)) with (Ok (mk_q l pix) : result quantity). cbn iota beta. change (side sky) with 8%nat. rewrite lags_ok_toy; [reflexivity|]. eapply Forall_impl; [|exact H]. intros v Hv. cbn [INR]. lra. Qed.
Lemma sky_scales l : scales_are sky (sky_object l) l.
Proof. exists (mk_q l pix). split; reflexivity. Qed.
Lemma sky_value norm l s ve : Forall (fun v => 1 <= v <= 4) l -> In (s, ve) (combine l (compute_transform (fun _ => 0%nat) 8 8 star norm l)) -> fst ve = Fin ((if norm then s ^ 2 else s ^ 4) / s ^ 4).
Proof.
  intros H I. apply In_nth_error in I. destruct I as [k K].
  assert (NC : forall (u : list R) (v : list (fl * fl)) k p, nth_error (combine u v) k = Some p -> nth_error u k = Some (fst p) /\ nth_error v k = Some (snd p)).
  { clear. induction u as [|a u IH]; intros [|b v] [|k] p E; try discriminate E; cbn in *; [injection E as <-; auto|now apply IH]. }
  destruct (NC _ _ _ _ K) as [K1 K2]. cbn [fst snd] in K1, K2. assert (S : 1 <= s <= 4) by (rewrite Forall_forall in H; apply H; eapply nth_error_In; eassumption).
  destruct (value_rule (fun _ => 0%nat) 8 8 star norm l k s K1 ltac:(lra)) as (v&e&E&_&V). rewrite K2 in E. injection E as ->. cbn [fst]. cbv zeta beta in V.
  set (c := (if norm then s ^ 2 else s ^ 4) / s ^ 4). assert (P4 : 0 < s ^ 4) by (apply pow_lt; lra). assert (P2 : 0 < s ^ 2) by (apply pow_lt; lra). assert (PC : 0 < c) by (unfold c; destruct norm; apply Rdiv_lt_0_compat; assumption).
  assert (CO : forall y x, (y < 8)%nat -> (x < 8)%nat -> coefficient 0 s norm 8 8 star y x = if Nat.eqb y 0 && Nat.eqb x 0 then c else 0).
  { intros y x Y X. rewrite coefficient_point by (lra || assumption). unfold star. destruct (Nat.eqb y 0 && Nat.eqb x 0); cbn [brightness]; pose proof PI_RGT_0; unfold c; destruct norm; field; lra. }
  assert (IN : forall r, In r (coefficients 0 s norm 8 8 star) <-> exists y x, (y < 8)%nat /\ (x < 8)%nat /\ r = coefficient 0 s norm 8 8 star y x).
  { intros r. unfold coefficients. rewrite in_flat_map. split.
    - intros (y&Y&R). apply in_map_iff in R. destruct R as (x&<-&X). apply in_seq in X, Y. exists y, x. repeat split; lia.
    - intros (y&x&Y&X&->). exists y. split; [apply in_seq; lia|]. apply in_map_iff. exists x. split; [reflexivity|apply in_seq; lia]. }
  assert (PO : forall r, In r (positives (coefficients 0 s norm 8 8 star)) -> r = c).
  { intros r R. apply in_positives in R. destruct R as [R R0]. apply IN in R. destruct R as (y&x&Y&X&->). rewrite CO in * by assumption. destruct (Nat.eqb y 0 && Nat.eqb x 0); [reflexivity|lra]. }
  assert (NE : positives (coefficients 0 s norm 8 8 star) <> []).
  { intros Z. assert (In c (positives (coefficients 0 s norm 8 8 star))); [|rewrite Z in *; contradiction]. apply in_positives. split; [|exact PC]. apply IN. exists 0%nat, 0%nat. rewrite CO by lia. cbn. repeat split; lia. }
  destruct (V NE) as (->&_&_). f_equal. now apply rmean_same.
Qed.
Lemma sky_ratio (norm : bool) s : 0 < s -> (if norm then s ^ 2 else s ^ 4) / s ^ 4 = 1 * Rpower s (if norm then -2 else 0).
Proof.
  intros S. rewrite Rmult_1_l. destruct norm.
  - replace (-2) with (- (INR 2)) by (cbn [INR]; lra). rewrite Rpower_Ropp, Rpower_pow by assumption. field. lra.
  - rewrite Rpower_O by assumption. field. lra.
Qed.
Lemma sky_plaw (norm : bool) lo hi l : Forall (fun v => 1 <= v <= 4) l -> power_law 1 (if norm then -2 else 0) lo hi l (compute_transform (e_half sky) (e_ny sky) (e_nx sky) (e_img sky) norm l).
Proof.
  intros H s ve v I _ E. change (e_half sky) with (fun _ : R => 0%nat) in I. change (e_ny sky) with 8%nat in I. change (e_nx sky) with 8%nat in I. change (e_img sky) with star in I.
  rewrite (sky_value norm l s ve H I) in E. injection E as <-. apply sky_ratio. rewrite Forall_forall in H. specialize (H s (in_combine_l _ _ _ _ I)). lra.
Qed.
Lemma sky_reached l : Forall (fun v => 1 <= v <= 4) l -> reached sky (sky_object l).
Proof. intros H. exists (given l), 50%nat, (sky_object l), []. split; [now apply sky_new|reflexivity]. Qed.
Lemma scales2_ok : Forall (fun v => 1 <= v <= 4) scales2.
Proof. repeat constructor; lra. Qed.
Lemma sky_two norm : two_usable false None None scales2 (compute_transform (e_half sky) (e_ny sky) (e_nx sky) (e_img sky) norm scales2).
Proof.
  assert (EX : exists u v, compute_transform (e_half sky) (e_ny sky) (e_nx sky) (e_img sky) norm scales2 = [u; v]) by (unfold compute_transform, scales2; cbn [map]; eauto).
  destruct EX as (u&v&E). pose proof (sky_value norm scales2 1 u scales2_ok) as U. pose proof (sky_value norm scales2 2 v scales2_ok) as V.
  change (compute_transform (fun _ : R => 0%nat) 8 8 star norm scales2) with (compute_transform (e_half sky) (e_ny sky) (e_nx sky) (e_img sky) norm scales2) in U, V. rewrite E in *. unfold scales2 in *. cbn [combine] in *.
  exists 1, 2, u, v. split; [lra|]. split; [now left|]. split; [right; now left|]. repeat (split; [split; exact I|]).
  split; (split; [eexists|discriminate]); [apply U; now left|apply V; right; now left].
Qed.
Lemma plain_limits : limits_are sky plain None None.
Proof. repeat split; intros v; discriminate. Qed.

Theorem sky_case (norm : bool) : regression (e_ols sky) /\ reached sky (sky_object scales2) /\ scales_are sky (sky_object scales2) scales2 /\ limits_are sky plain None None /\
  two_usable (a_weighted plain) None None scales2 (compute_transform (e_half sky) (e_ny sky) (e_nx sky) (e_img sky) norm scales2) /\
  power_law 1 (if norm then -2 else 0) None None scales2 (compute_transform (e_half sky) (e_ny sky) (e_nx sky) (e_img sky) norm scales2).
Proof.
  split; [exact regression_ols0|]. split; [apply sky_reached, scales2_ok|]. split; [apply sky_scales|]. split; [exact plain_limits|]. split; [apply sky_two|apply sky_plaw, scales2_ok].
Qed.
Lemma sky_ny : (3 <= e_ny sky)%nat. Proof. change (e_ny sky) with 8%nat. lia. Qed.
Lemma sky_nx : (3 <= e_nx sky)%nat. Proof. change (e_nx sky) with 8%nat. lia. Qed.
Theorem sky_run (norm : bool) : exists o, run sky (sky_object scales2) norm plain = (o, None) /\ one_slope o (if norm then -2 else 0) /\ w_range o = Some (99 / 100, 202 / 100).
Proof.
  destruct (sky_case norm) as (A&B&C&D&E&F). destruct (slope_power_law sky (sky_object scales2) norm plain scales2 None None 1 (if norm then -2 else 0) A sky_ny sky_nx B C D eq_refl Rlt_0_1 E F) as (o&R1&R2&R3&_).
  exists o. split; [exact R1|]. split; [exact R2|]. rewrite R3. unfold fit_range, scales2. cbn [rmin_list rmax_list fold_right]. apply f_equal. f_equal; unfold Rmin, Rmax; repeat destruct (Rle_dec _ _); lra.
Qed.
Theorem sky_stale (norm : bool) : exists o o1 o2, run sky (sky_object scales2) norm plain = (o, None) /\ do_call sky o (SetScales (LagQuantity (mk_q [1; 4] pix))) = (o1, None) /\ do_call sky o1 (Fit plain) = (o2, None) /\ one_slope o2 (if norm then -1 else 0).
Proof.
  destruct (sky_case norm) as (A&B&C&D&E&F). destruct (sky_run norm) as (o&R1&_). 
  assert (RE : reached sky o). { exists (given scales2), 50%nat, (sky_object scales2), [Run norm plain]. split; [apply sky_new, scales2_ok|]. unfold history. cbn [fold_left do_call]. now rewrite R1. }
  assert (CU : w_curve o = Some (compute_transform (e_half sky) (e_ny sky) (e_nx sky) (e_img sky) norm scales2) /\ w_scales o = mk_q scales2 pix).
  { destruct (run_fresh sky (sky_object scales2) (sky_object scales2) norm plain eq_refl (reached_valid _ _ B)) as [_ H]. rewrite R1 in H. destruct (H eq_refl) as (_&(l&SL&CL)&_). cbn [fst] in *.
    pose proof (run_scales sky (sky_object scales2) norm plain) as RS. rewrite R1 in RS. cbn [fst] in RS. split; [|exact RS]. destruct SL as (p&EP&<-). rewrite RS in EP. cbn [w_scales sky_object] in EP. injection EP as <-. exact CL. }
  destruct CU as [CU WS].
  destruct (stale_slope sky o norm (mk_q [1; 4] pix) (mk_q [1; 4] pix) plain scales2 1 (if norm then -2 else 0) A sky_ny sky_nx RE) as (o1&o2&S1&S2&_&S3); try assumption; try exact Rlt_0_1.
  - exists (mk_q scales2 pix). split; [rewrite WS; reflexivity|reflexivity].
  - reflexivity.
  - reflexivity.
  - apply lags_ok_toy. change (side sky) with 8%nat. cbn [INR]. repeat constructor; lra.
  - unfold scales2. cbn [map q_vals]. replace (1 ^ 2) with 1 by ring. replace (2 ^ 2) with 4 by ring. reflexivity.
  - exists o, o1, o2. split; [exact R1|]. split; [exact S1|]. split; [exact S2|]. destruct norm; destruct S3 as [S3 S4]; split; try assumption; rewrite S3; repeat f_equal; lra.
Qed.

(** Limits around one of the two scales *)
Definition narrow : wargs := mk_wa (Some (mk_q [3 / 2] pix)) None None 3 false false.
Lemma narrow_limits : limits_are sky narrow (Some (3 / 2)) None.
Proof. split; [reflexivity|]. split; [reflexivity|]. split; intros v E; [injection E as <-; lra|discriminate]. Qed.
Theorem sky_single norm : exists o v er, run sky (sky_object scales2) norm plain = (o, None) /\ reached sky o /\ scales_are sky o scales2 /\ w_curve o = Some (compute_transform (e_half sky) (e_ny sky) (e_nx sky) (e_img sky) norm scales2) /\
  only_scale (Some (3 / 2)) None scales2 (compute_transform (e_half sky) (e_ny sky) (e_nx sky) (e_img sky) norm scales2) 2 v er /\ 0 < v.
Proof.
  destruct (sky_case norm) as (A&B&C&D&E&F). destruct (sky_run norm) as (o&R1&_). exists o.
  assert (EX : exists u v, compute_transform (e_half sky) (e_ny sky) (e_nx sky) (e_img sky) norm scales2 = [u; v]) by (unfold compute_transform, scales2; cbn [map]; eauto).
  destruct EX as (u&[v er]&EX). pose proof (sky_value norm scales2 2 (v, er) scales2_ok) as V.
  change (compute_transform (fun _ : R => 0%nat) 8 8 star norm scales2) with (compute_transform (e_half sky) (e_ny sky) (e_nx sky) (e_img sky) norm scales2) in V. rewrite EX in V. specialize (V (or_intror (or_introl eq_refl))). cbn [fst] in V.
  exists ((if norm then 2 ^ 2 else 2 ^ 4) / 2 ^ 4), er. split; [exact R1|].
  split. { exists (given scales2), 50%nat, (sky_object scales2), [Run norm plain]. split; [apply sky_new, scales2_ok|]. unfold history. cbn [fold_left do_call]. now rewrite R1. }
  assert (CU : w_curve o = Some (compute_transform (e_half sky) (e_ny sky) (e_nx sky) (e_img sky) norm scales2) /\ w_scales o = mk_q scales2 pix).
  { destruct (run_fresh sky (sky_object scales2) (sky_object scales2) norm plain eq_refl (reached_valid _ _ B)) as [_ H]. rewrite R1 in H. destruct (H eq_refl) as (_&(l&SL&CL)&_). cbn [fst] in *.
    pose proof (run_scales sky (sky_object scales2) norm plain) as RS. rewrite R1 in RS. cbn [fst] in RS. split; [|exact RS]. destruct SL as (p&EP&<-). rewrite RS in EP. cbn [w_scales sky_object] in EP. injection EP as <-. exact CL. }
  destruct CU as [CU WS]. split; [exists (mk_q scales2 pix); rewrite WS; split; reflexivity|]. split; [exact CU|]. split.
  - rewrite EX. exists [(1, u)], []. unfold scales2. cbn [combine app]. rewrite V. split; [reflexivity|]. split; [split; [cbn; lra|exact I]|]. intros q [<-|[]] [Z _]. cbn in Z. lra.
  - destruct norm; lra.
Qed.

(** A transform that is a broken power law *)
Definition scales5 : list R := [1; 2; 3; 12; 24].
Definition bent : wobj := mk_w (mk_q scales5 pix) (Some (map (fun s => (Fin (broken_plaw 1 1 2 8 s), Fin (1 / 10))) scales5)) None None unfitted None None.
Definition at9 (weighted : bool) : wargs := mk_wa None None (Some (mk_q [9] pix)) 3 weighted false.
Theorem bent_fit weighted : exists o' C, do_call sky bent (Fit (at9 weighted)) = (o', None) /\ t_slope (w_state o') = Some [Fin 1; Fin 2] /\ t_brk (w_state o') = Some (Some C) /\ (C = 9 \/ C = 64 / 9) /\ w_range o' = Some (99 / 100, 2424 / 100).
Proof.
  assert (W : scales_within None None scales5 = scales5) by reflexivity.
  assert (G : forall c, 3 < c < 12 -> same_gap 8 c scales5) by (intros c H v Hv; repeat (destruct Hv as [<-|Hv]; [lra|]); destruct Hv).
  destruct (fit_broken sky bent (at9 weighted) scales5 (map (fun s => (Fin (broken_plaw 1 1 2 8 s), Fin (1 / 10))) scales5) None None 1 1 2 8 9) as (o'&C&E&S&K&H&RG); rewrite ?W; try reflexivity; try lra; try exact regression_ols0.
  - exists (mk_q scales5 pix). split; reflexivity.
  - repeat constructor; lra.
  - split; [reflexivity|]. split; [reflexivity|]. split; intros; discriminate.
  - intros s ve I _. unfold scales5 in I. cbn [map combine] in I. repeat (destruct I as [I|I]; [injection I as <- <-; cbn [fst snd]; split; [reflexivity|intros _; exists (1 / 10); split; [reflexivity|lra]]|]). destruct I.
  - split; [exists 1, 2|exists 12, 24]; unfold scales5; cbn [In]; (split; [tauto|]); (split; [tauto|]); lra.
  - apply G. lra.
  - apply G. lra.
  - change (a_min_pts (at9 weighted)) with 3%nat. unfold count_below, scales5. cbn [filter]. destruct (Rlt_dec 1 8); [|lra]. destruct (Rlt_dec 2 8); [|lra]. destruct (Rlt_dec 3 8); [|lra]. destruct (Rlt_dec 12 8); [lra|]. destruct (Rlt_dec 24 8); [lra|]. cbn [length]. lia.
  - exists o', C. split; [exact E|]. split; [exact S|]. split; [exact K|]. split; [destruct H as [H|H]; [now left|right; lra]|]. rewrite RG. apply f_equal. unfold fit_range, scales5. cbn [rmin_list rmax_list fold_right].
    f_equal; unfold Rmin, Rmax; repeat destruct (Rle_dec _ _); lra.
Qed.
