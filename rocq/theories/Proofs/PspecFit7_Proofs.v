(** Concrete images for the examples of P_PspecFit.v *)
From Coq Require Import String Reals List ZArith Arith Bool Lia Lra Permutation.
From Coquelicot Require Import Complex.
From Verif Require Import Lib.PyBase Lib.Arr Lib.DFT Lib.Fl Lib.RSum Lib.Bins Spec.Bins Spec.Blank Spec.Freq Spec.Annulus Spec.Velocity Spec.ScfSpectrum Spec.PspecFit
  Model.StatsUtils Model.Psds Model.EllipPlaw Model.FitState Model.ScfSpectrum Model.PspecFit
  Proofs.Fl_Proofs Proofs.StatsUtils2_Proofs Proofs.Psds_Proofs Proofs.Psds2_Proofs Proofs.Beam_Proofs Proofs.ScfSpectrum2_Proofs Proofs.PspecFit_Proofs Proofs.PspecFit2_Proofs Proofs.PspecFit3_Proofs Proofs.PspecFit4_Proofs Proofs.PspecFit6_Proofs.
Import ListNotations.
Local Open Scope R_scope.

(** Four pixels in a row: 4, 1, 0, 1.  The power is f^-2 away from zero. *)
Definition row4 (y x : nat) : R := match x with 0%nat => 4 | 1%nat => 1 | 3%nat => 1 | _ => 0 end.
Lemma tw4 j k : tw 4 j k = match ((j * k) mod 4)%nat with 0%nat => RtoC 1 | 1%nat => (0, -1) | 2%nat => RtoC (-1) | _ => (0, 1) end.
Proof.
  rewrite <- (tw_mod_l 4 j k) by lia. rewrite <- (tw_mod_r 4 (j mod 4) k) by lia.
  assert (E : ((j * k) mod 4 = ((j mod 4) * (k mod 4)) mod 4)%nat) by (apply Nat.mul_mod; lia). rewrite E. clear E.
  assert (Hj : (j mod 4 < 4)%nat) by (apply Nat.mod_upper_bound; lia). assert (Hk : (k mod 4 < 4)%nat) by (apply Nat.mod_upper_bound; lia).
  assert (B : tw 4 1 1 = (0, -1)).
  { unfold tw, cis. change (1 * 1)%nat with 1%nat. replace (- (2 * PI * INR 1 / INR 4)) with (- (PI / 2)) by (cbn; field). rewrite cos_neg, sin_neg, cos_PI2, sin_PI2. reflexivity. }
  assert (P : forall m, tw 4 (m + 1) 1 = Cmult (tw 4 m 1) (0, -1)) by (intros m; rewrite tw_add_l, B; reflexivity).
  assert (T2 : tw 4 2 1 = RtoC (-1)) by (change 2%nat with (1 + 1)%nat; rewrite P, B; apply Ceq; cbn; ring).
  assert (T3 : tw 4 3 1 = (0, 1)) by (change 3%nat with (2 + 1)%nat; rewrite P, T2; apply Ceq; cbn; ring).
  assert (M : forall a b, tw 4 a b = tw 4 (a * b) 1) by (intros a b; unfold tw; now rewrite Nat.mul_1_r).
  generalize dependent (j mod 4). generalize dependent (k mod 4). intros k' Hk j' Hj. rewrite M. rewrite <- (tw_mod_l 4 (j' * k') 1) by lia.
  assert (H : ((j' * k') mod 4 < 4)%nat) by (apply Nat.mod_upper_bound; lia). generalize dependent ((j' * k') mod 4)%nat. intros m H.
  destruct m as [|[|[|[|m]]]]; [apply tw_0_l|exact B|exact T2|exact T3|lia].
Qed.
Lemma row4_power : mode_power 1 4 row4 (0, 1)%nat = 16 /\ mode_power 1 4 row4 (0, 2)%nat = 4 /\ mode_power 1 4 row4 (0, 3)%nat = 16.
Proof.
  unfold mode_power, dft2. cbn [fst snd csum row4]. rewrite !tw4. rewrite !tw_0_l. cbn [Nat.mul Nat.add Nat.modulo Nat.divmod Nat.sub fst snd].
  unfold Cnorm2, Rsqr. cbn. repeat split; ring.
Qed.
Lemma row4_freq : mode_freq 1 4 (0, 0)%nat = 0 /\ mode_freq 1 4 (0, 1)%nat = 1 / 4 /\ mode_freq 1 4 (0, 2)%nat = 1 / 2 /\ mode_freq 1 4 (0, 3)%nat = 1 / 4.
Proof.
  assert (S2 : forall a b, 0 <= b -> a ^ 2 = b ^ 2 -> sqrt (0 ^ 2 + a ^ 2) = b).
  { intros a b Hb E. rewrite E. replace (0 ^ 2 + b ^ 2) with (Rsqr b) by (unfold Rsqr; ring). now apply sqrt_Rsqr. }
  assert (A0 : axis_freq 1 0 = 0) by (apply axis_freq_00; lia).
  unfold mode_freq. cbn [fst snd]. rewrite A0. split; [|split; [|split]]; apply S2; try lra; unfold axis_freq; cbn -[INR pow]; cbn [INR]; field.
Qed.
Lemma modes_1_4 k : In k (modes 1 4) <-> k = (0, 0)%nat \/ k = (0, 1)%nat \/ k = (0, 2)%nat \/ k = (0, 3)%nat.
Proof.
  destruct k as [y x]. change (modes 1 4) with (pixels 1 4). rewrite in_pixels. split.
  - intros [Hy Hx]. assert (y = 0%nat) by lia. subst y. destruct x as [|[|[|[|x]]]]; auto; lia.
  - intros [E|[E|[E|E]]]; injection E as -> ->; lia.
Qed.
Lemma rpow_m2 f : 0 < f -> Rpower f (-2) = / (f * f).
Proof. intros H. replace (-2) with (-(2)) by lra. rewrite Rpower_Ropp. f_equal. replace 2 with (1 + 1) by lra. rewrite Rpower_plus, Rpower_1 by assumption. reflexivity. Qed.
Lemma row4_law : forall k, In k (modes 1 4) -> 1 / 5 < mode_freq 1 4 k <= 1 / 2 -> mode_power 1 4 row4 k = 1 * Rpower (mode_freq 1 4 k) (-2).
Proof.
  destruct row4_power as [P1 [P2 P3]]. destruct row4_freq as [F0 [F1 [F2 F3]]]. intros k Hk W. apply modes_1_4 in Hk.
  destruct Hk as [->|[->|[->| ->]]]; [rewrite F0 in W; lra|rewrite P1, F1|rewrite P2, F2|rewrite P3, F3]; rewrite rpow_m2 by lra; field.
Qed.
Lemma row4_max : is_max (1 / 2) (map (mode_freq 1 4) (modes 1 4)).
Proof.
  destruct row4_freq as [F0 [F1 [F2 F3]]]. change (modes 1 4) with [(0, 0); (0, 1); (0, 2); (0, 3)]%nat. cbn [map]. rewrite F0, F1, F2, F3. split; [right; right; now left|].
  intros y [<-|[<-|[<-|[<-|[]]]]]; lra.
Qed.

(** A point source: the same power in every mode. *)
Definition point_source (y x : nat) : R := if (Nat.eqb y 0 && Nat.eqb x 0)%bool then 1 else 0.
Lemma point_power ny nx k : (1 <= ny)%nat -> (1 <= nx)%nat -> mode_power ny nx point_source k = 1.
Proof.
  intros Hy Hx. unfold mode_power, dft2. rewrite (csum_single ny _ 0); [|lia|].
  - rewrite (csum_single nx _ 0); [|lia|].
    + rewrite !tw_0_l. unfold Cnorm2, point_source, Rsqr. cbn. ring.
    + intros x _ Hn. unfold point_source. destruct (Nat.eqb_spec x 0); [contradiction|]. rewrite andb_false_r. ring.
  - intros y _ Hn. apply csum_zero. intros x _. unfold point_source. destruct (Nat.eqb_spec y 0); [contradiction|]. cbn [andb]. ring.
Qed.

Definition kw5 : spec_kwargs := mk_kw (Some 2%nat) 1 (Some (1 / 2)) (Some (3 / 20)) None None.
Definition run5 : prun_args := mk_pr false kw5 (mk_f false None false (Some (1 / 5)) None 10 false false) false (mk_f2 None None None true false false true false).
Lemma freqs_1_5 : freqs_dist 1 5 0 0 = 2 / 5 /\ freqs_dist 1 5 0 1 = 1 / 5 /\ freqs_dist 1 5 0 3 = 1 / 5 /\ freqs_dist 1 5 0 4 = 2 / 5.
Proof.
  assert (S2 : forall a b, 0 <= b -> a ^ 2 = b ^ 2 -> sqrt (0 ^ 2 + a ^ 2) = b).
  { intros a b Hb E. rewrite E. replace (0 ^ 2 + b ^ 2) with (Rsqr b) by (unfold Rsqr; ring). now apply sqrt_Rsqr. }
  assert (A0 : axis_freq 1 0 = 0) by (apply axis_freq_00; lia).
  assert (G : forall j v, (j < 5)%nat -> 0 < v -> axis_freq 5 (unshift 5 j) ^ 2 = v ^ 2 -> freqs_dist 1 5 0 j = v).
  { intros j v Hj Hv E. assert (F : freqs_raw 1 5 0 j = v).
    { rewrite freqs_raw_mode by lia. unfold mode_freq, mode_at. cbn [fst snd]. change (unshift 1 (1 - 1 - 0)) with 0%nat. rewrite A0. apply S2; [lra|exact E]. }
    unfold freqs_dist. rewrite F. destruct (Reqb_spec v 0); [lra|reflexivity]. }
  repeat split; apply G; try lia; try lra; unfold unshift; cbn [Nat.div Nat.modulo Nat.divmod Nat.sub Nat.add fst snd]; unfold axis_freq; cbn -[INR pow]; cbn [INR]; field.
Qed.
Lemma two_in {A} (x y : A) l : NoDup l -> In x l -> In y l -> x <> y -> (2 <= length l)%nat.
Proof. intros N Hx Hy D. destruct l as [|a [|b l]]; [destruct Hx| |cbn; lia]. destruct Hx as [<-|[]], Hy as [<-|[]]. congruence. Qed.
Lemma rmean_ones l : l <> [] -> (forall v, In v l -> v = 1) -> rmean l = 1.
Proof.
  intros N H. unfold rmean. assert (E : lsum l = INR (length l)).
  { clear N. induction l as [|a l IH]; [reflexivity|]. cbn [lsum fold_right length]. rewrite S_INR, (H a) by now left. change (fold_right Rplus 0 l) with (lsum l). rewrite IH by (intros; apply H; now right). ring. }
  rewrite E. field. apply not_0_INR. now destruct l.
Qed.

Lemma do_fit_keeps line err seg o a o' : do_fit line err seg o a = Ok o' ->
  o_ps2D o' = o_ps2D o /\ o_freqs o' = o_freqs o /\ o_ps1D o' = o_ps1D o /\ o_stddev o' = o_stddev o /\
  exists low high rows, fit_rows o a = Ok (low, high, rows) /\ o_low o' = Some low /\ o_high o' = Some high.
Proof.
  unfold do_fit. destruct (fit_rows o a) as [[[low high] rows]|]; [|discriminate]. cbn [bind].
  assert (G : forall st amp, Ok (mk_p (o_ps2D o) (o_freqs o) (o_ps1D o) (o_stddev o) (o_azim o) (Some low) (Some high) st amp (o_fit2D o)) = Ok o' ->
    o_ps2D o' = o_ps2D o /\ o_freqs o' = o_freqs o /\ o_ps1D o' = o_ps1D o /\ o_stddev o' = o_stddev o /\
    exists low0 high0 rows0, Ok (low, high, rows) = Ok (low0, high0, rows0) /\ o_low o' = Some low0 /\ o_high o' = Some high0).
  { intros st amp E. injection E as <-. cbn. repeat split. exists low, high, rows. auto. }
  assert (G2 : forall oc, (l <- straight_line line rows ;; Ok (mk_p (o_ps2D o) (o_freqs o) (o_ps1D o) (o_stddev o) (o_azim o) (Some low) (Some high)
        (fit_step true (f_min_pts a) (f_bootstrap a) (snd l, err (f_bootstrap a) rows) (o_state o) oc) (Some (fst l)) (o_fit2D o))) = Ok o' ->
    o_ps2D o' = o_ps2D o /\ o_freqs o' = o_freqs o /\ o_ps1D o' = o_ps1D o /\ o_stddev o' = o_stddev o /\
    exists low0 high0 rows0, Ok (low, high, rows) = Ok (low0, high0, rows0) /\ o_low o' = Some low0 /\ o_high o' = Some high0).
  { intros oc. destruct (straight_line line rows) as [l|]; [|discriminate]. cbn [bind]. apply G. }
  destruct (f_brk a) as [b|]; [|apply G2]. destruct (seg rows _) as [[[[[[[b' be] sl] er] bo] amp]|]|]; cbn [bind]; [|apply G2|discriminate].
  destruct (Nat.ltb _ _); [apply G2|apply G].
Qed.

Lemma point_run tppf line err seg solve perms : least_squares line -> answers line -> 
  exists o1 freqs ps1D sd low high, do_prun tppf line err seg solve perms new_p (Ok (map (map Fin) (power_ps2D 1 5 point_source))) run5 = Ok o1 /\
  o_freqs o1 = Some freqs /\ o_ps1D o1 = Some ps1D /\ o_stddev o1 = Some sd /\ o_low o1 = Some low /\ o_high o1 = Some high /\ 0 <= low /\
  (forall b, In b (bins_of freqs ps1D sd) -> low < fst (fst b) <= high -> left_out false b \/ (counted false b /\ exists p, power_is p b /\ 0 < p)) /\
  (exists b1 b2, In b1 (bins_of freqs ps1D sd) /\ In b2 (bins_of freqs ps1D sd) /\ fst (fst b1) <> fst (fst b2) /\
     (forall b, b = b1 \/ b = b2 -> low < fst (fst b) <= high /\ counted false b)).
Proof.
  intros LS AN. destruct (power_shape 1 5 point_source ltac:(lia) ltac:(lia)) as [E1 E2]. unfold rows_of, cols_of in E1, E2. 
  assert (VAL : forall i j, (i < 1)%nat -> (j < 5)%nat -> at2 NaN (map (map Fin) (power_ps2D 1 5 point_source)) i j = Fin 1).
  { intros i j Hi Hj. rewrite power_at by assumption. now rewrite point_power by lia. }
  set (ps := map (map Fin) (power_ps2D 1 5 point_source)) in *.
  destruct (pspec_ok tppf ps (Some 2%nat) 1 (Some (1 / 2)) (Some (3 / 20)) None 1 5 E1 E2 ltac:(lia) ltac:(lia) ltac:(cbn; lia)) as [out [EP EM]]. cbv iota in EP, EM.
  destruct (pspec_edges _ _ _ _ _ _ _ _ _ _ _ _ _ (3 / 20) (1 / 2) EP (or_introl eq_refl) (or_introl eq_refl) ltac:(lra) ltac:(lia)) as [EL [EI [H0 H2]]].
  assert (EE : prof_edges out = linspace (3 / 20) (1 / 2) 3 /\ prof_bins out = centers (prof_edges out)).
  { revert EP. unfold pspec. rewrite E1, E2. cbv zeta. cbn [bind andb orb]. destruct (_ || _)%bool; [discriminate|]. cbn [negb]. intros EQ. injection EQ as <-. split; reflexivity. }
  destruct EE as [EE EB]. assert (LN : linspace (3 / 20) (1 / 2) 3 = [3 / 20; 13 / 40; 1 / 2]).
  { unfold linspace, tab1. cbn -[INR]. cbn [INR]. repeat (apply f_equal2; [field|]). reflexivity. }
  assert (EBN : prof_bins out = [19 / 80; 33 / 80]).
  { assert (CL : length (prof_bins out) = 2%nat) by (rewrite EB, EE, LN; reflexivity). pose proof (centers_nth (prof_edges out) 0 ltac:(lia)) as Q0. pose proof (centers_nth (prof_edges out) 1 ltac:(lia)) as Q1. rewrite <- EB in Q0, Q1. rewrite EE, LN in Q0, Q1. cbn [nth] in Q0, Q1. destruct (prof_bins out) as [|a [|b [|c l]]]; cbn [nth length] in *; try lia. rewrite Q0, Q1. apply f_equal2; [field|apply f_equal2; [field|reflexivity]]. }
  destruct (pspec_shape _ _ _ _ _ _ _ _ _ _ _ _ EP) as [SH _].
  assert (BV : forall b, (b < 2)%nat -> nth b (prof_ps1D out) NaN = Fin 1).
  { intros b Hb. destruct (annulus_mean _ _ _ _ _ _ _ _ _ _ _ _ b EP EI ltac:(lia)) as [px [ND [IN [_ [_ [ME _]]]]]].
    assert (ANN : forall j, (j < 5)%nat -> in_bin (prof_edges out) b (freqs_dist 1 5 0 j) -> In (0, j)%nat px).
    { intros j Hj HB. apply IN. unfold in_annulus. rewrite E1, E2. split; [lia|]. split; [exact Hj|]. split; [now rewrite VAL by lia|]. split; [intros m Em; rewrite EM in Em; discriminate|exact HB]. }
    destruct freqs_1_5 as [G0 [G1 [G3 G4]]].
    assert (L2 : (2 <= length px)%nat).
    { assert (b = 0 \/ b = 1)%nat as [->| ->] by lia.
      - apply (two_in (0, 1)%nat (0, 3)%nat); [exact ND|apply ANN; [lia|]|apply ANN; [lia|]|discriminate]; unfold in_bin; rewrite EE, LN, ?G1, ?G3; cbn [length nth]; (split; [lia|split; [lra|left; lra]]).
      - apply (two_in (0, 0)%nat (0, 4)%nat); [exact ND|apply ANN; [lia|]|apply ANN; [lia|]|discriminate]; unfold in_bin; rewrite EE, LN, ?G0, ?G4; cbn [length nth]; (split; [lia|split; [lra|left; lra]]). }
    rewrite ME by (left; exact L2). f_equal. apply rmean_ones.
    - destruct px; [cbn in L2; lia|discriminate].
    - intros v Hv. apply in_map_iff in Hv. destruct Hv as [[i j] [<- Hp]]. apply IN in Hp. unfold in_annulus in Hp. rewrite E1, E2 in Hp. unfold pixel_value. cbn [fst snd]. now rewrite VAL by tauto. }
  assert (SL : length (prof_ps1D out) = 2%nat) by (rewrite SH, EL; reflexivity).
  assert (P1 : prof_ps1D out = [Fin 1; Fin 1]).
  { pose proof (BV 0%nat ltac:(lia)) as Q0. pose proof (BV 1%nat ltac:(lia)) as Q1. destruct (prof_ps1D out) as [|a [|b [|c l]]]; cbn in SL, Q0, Q1; try lia. now subst. }
  assert (P2 : exists s1 s2, prof_stddev out = Some [s1; s2]).
  { revert EP. unfold pspec. rewrite E1, E2. cbv zeta. cbn [bind andb orb]. destruct (_ || _)%bool; [discriminate|]. cbn [negb]. intros EQ. injection EQ as <-. cbn [prof_stddev].
    eexists. eexists. reflexivity. }
  destruct P2 as [s1 [s2 P2]].
  unfold do_prun, do_pspec, do_radial. cbn [bind o_ps2D o_freqs o_ps1D o_stddev o_azim o_low o_high o_state o_amp o_fit2D new_p run5 kw5 r_log r_radial r_fit r_fit_2D k_nbins k_binsize k_max_bin k_min_bin k_theta_0 k_delta_theta].
  rewrite EP. cbn [bind]. rewrite EBN, P1, P2. set (oo := mk_p _ _ _ _ _ _ _ _ _ _). set (fa := mk_f false None false (Some (1 / 5)) None 10 false false).
  assert (MX : is_max (33 / 80) [19 / 80; 33 / 80]) by (split; [right; now left|intros y [<-|[<-|[]]]; lra]).
  assert (BS : bins_of [19 / 80; 33 / 80] [Fin 1; Fin 1] [s1; s2] = [(19 / 80, Fin 1, s1); (33 / 80, Fin 1, s2)]) by reflexivity.
  assert (CT : forall b, In b [(19 / 80, Fin 1, s1); (33 / 80, Fin 1, s2)] -> counted false b /\ power_is 1 b /\ 1 / 5 < fst (fst b) <= 33 / 80).
  { intros b [<-|[<-|[]]]; cbn [counted power_is fst snd]; (split; [split; [eauto|discriminate]|split; [reflexivity|lra]]). }
  destruct (binned_recovers line err seg oo fa ps [19 / 80; 33 / 80] [Fin 1; Fin 1] [s1; s2] (1 / 5) (33 / 80) 1 0 eq_refl eq_refl eq_refl eq_refl eq_refl eq_refl (or_introl eq_refl) (or_intror (conj eq_refl MX)) ltac:(lra) LS AN ltac:(lra)) as [o' [EO _]].
  - rewrite BS. intros b Hb _. right. destruct (CT b Hb) as [C1 [C2 C3]]. split; [exact C1|]. rewrite Rpower_O by lra. now rewrite Rmult_1_r.
  - rewrite BS. exists (19 / 80, Fin 1, s1), (33 / 80, Fin 1, s2). split; [now left|]. split; [right; now left|]. split; [cbn; lra|]. intros b Hb. destruct (CT b) as [C1 [C2 C3]]; [destruct Hb as [->| ->]; [now left|right; now left]|]. auto.
  - destruct (do_fit_keeps _ _ _ _ _ _ EO) as [K0 [K1 [K2 [K3 [low [high [rows [KR [KL KH]]]]]]]]].
    pose proof (binned_rows oo fa ps [19 / 80; 33 / 80] [Fin 1; Fin 1] [s1; s2] eq_refl eq_refl eq_refl eq_refl eq_refl) as ER. cbv zeta in ER. rewrite ER in KR. cbn [f_low f_high fa] in KR.
    assert (RM : rmax_list [19 / 80; 33 / 80] = 33 / 80) by (eapply is_max_unique; [apply rmax_list_spec; discriminate|exact MX]). rewrite RM in KR.
    assert (low = 1 / 5) by congruence. assert (high = 33 / 80) by congruence. subst low high.
    exists o', [19 / 80; 33 / 80], [Fin 1; Fin 1], [s1; s2], (1 / 5), (33 / 80). rewrite EO. cbn [bind]. rewrite K1, K2, K3. repeat (split; [first [reflexivity | assumption | lra]|]). split.
    + rewrite BS. intros b Hb _. right. destruct (CT b Hb) as [C1 [C2 C3]]. split; [exact C1|]. exists 1. split; [exact C2|lra].
    + rewrite BS. exists (19 / 80, Fin 1, s1), (33 / 80, Fin 1, s2). split; [now left|]. split; [right; now left|]. split; [cbn; lra|]. intros b Hb. destruct (CT b) as [C1 [C2 C3]]; [destruct Hb as [->| ->]; [now left|right; now left]|]. auto.
Qed.
