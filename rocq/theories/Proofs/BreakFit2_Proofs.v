(** Proofs about Model/BreakFit.v: broken power laws in the fit of a power spectrum. *)
From Coq Require Import String Reals List ZArith Arith Bool Lia Lra Permutation.
From Verif Require Import Lib.PyBase Lib.Arr Lib.Fl Lib.RSum Spec.Blank Spec.Segmented Spec.BreakFit Spec.ScfSpectrum Spec.PspecFit
  Model.Psds Model.EllipPlaw Model.FitState Model.LmSeg Model.BreakFit Model.ScfSpectrum Model.PspecFit
  Proofs.Fl_Proofs Proofs.Psds_Proofs Proofs.Psds2_Proofs Proofs.Beam_Proofs Proofs.Ols_Proofs Proofs.BreakFit_Proofs Proofs.ScfSpectrum2_Proofs Proofs.DendroRun_Proofs Proofs.PspecFit_Proofs Proofs.PspecFit2_Proofs Proofs.PspecFit3_Proofs.
Import ListNotations.
Local Open Scope R_scope.

Lemma log10_lt a b : 0 < a -> 0 < b -> (log10 a < log10 b <-> a < b).
Proof. intros Ha Hb. pose proof (log10_le b a Hb Ha). split; intros H1; apply Rnot_le_lt; intros H2; apply H in H2; lra. Qed.
Lemma ln10_pos : 0 < ln 10.
Proof. rewrite <- ln_1. apply ln_increasing; lra. Qed.
Lemma log10_mirror B B0 : 0 < B -> 0 < B0 -> 2 * log10 B - log10 B0 = log10 (B * B / B0).
Proof. intros H H0. pose proof ln10_pos. unfold log10, Rdiv. rewrite !ln_mult, ln_Rinv; try assumption; [field; lra|now apply Rmult_lt_0_compat|now apply Rinv_0_lt_compat]. Qed.
Lemma pow10_log10 B : 0 < B -> exp (log10 B * ln 10) = B.
Proof. intros H. pose proof ln10_pos. unfold log10. replace (ln B / ln 10 * ln 10) with (ln B) by (field; lra). now apply exp_ln. Qed.
Lemma broken_pos A s1 s2 B f : 0 < A -> 0 < broken_plaw A s1 s2 B f.
Proof. intros H. unfold broken_plaw, Rpower. destruct (Rlt_dec f B); repeat apply Rmult_lt_0_compat; try assumption; apply exp_pos. Qed.
Lemma log10_broken A s1 s2 B f : 0 < A -> 0 < B -> 0 < f -> log10 (broken_plaw A s1 s2 B f) = broken_line (log10 A) s1 s2 (log10 B) (log10 f).
Proof.
  intros HA HB Hf. unfold broken_plaw, broken_line. destruct (Rlt_dec f B) as [L|L].
  - apply (proj2 (log10_lt f B Hf HB)) in L. destruct (Rltb_spec (log10 f) (log10 B)); [|contradiction]. now apply log10_plaw.
  - destruct (Rltb_spec (log10 f) (log10 B)) as [M|M]; [apply (proj1 (log10_lt f B Hf HB)) in M; contradiction|].
    rewrite log10_plaw by (apply Rmult_lt_0_compat; [exact HA|apply exp_pos]). rewrite log10_plaw by exact HA. pose proof ln10_pos.
    assert (Q : log10 (f / B) = log10 f - log10 B); [|rewrite Q; ring]. unfold log10. unfold Rdiv at 2. rewrite ln_mult, ln_Rinv; try assumption; [field; lra|now apply Rinv_0_lt_compat].
Qed.
Lemma log_sided B fs : 0 < B -> (forall f, In f fs -> 0 < f) -> two_sided B fs -> two_sided (log10 B) (map log10 fs).
Proof.
  intros HB HP [(u&v&Hu&Hv&D&U&V) (p&q&Hp&Hq&D'&P&Q)].
  assert (I : forall z, In z fs -> In (log10 z) (map log10 fs)) by (intros; now apply in_map).
  split.
  - exists (log10 u), (log10 v). split; [auto|]. split; [auto|]. split; [intros E; apply D; apply log10_inj; auto|]. split; apply log10_lt; auto.
  - exists (log10 p), (log10 q). split; [auto|]. split; [auto|]. split; [intros E; apply D'; apply log10_inj; auto|]. split; apply log10_lt; auto.
Qed.
Lemma log_gap B C fs : 0 < B -> 0 < C -> (forall f, In f fs -> 0 < f) -> same_gap B C fs -> same_gap (log10 B) (log10 C) (map log10 fs).
Proof.
  intros HB HC HP G v Hv. apply in_map_iff in Hv. destruct Hv as [f [<- Hf]]. specialize (HP f Hf). destruct (G f Hf) as [G1 G2].
  rewrite !log10_lt, !log10_le by assumption. tauto.
Qed.
Lemma mirror_pos B B0 : 0 < B -> 0 < B0 -> 0 < B * B / B0.
Proof. intros. apply Rdiv_lt_0_compat; [now apply Rmult_lt_0_compat|assumption]. Qed.

(** Rows on a broken line *)
Definition broken_row (A s1 s2 B : R) (f : R * R) : fl * fl * fl := as_row (log10 (fst f), log10 (broken_plaw A s1 s2 B (fst f)), snd f).
Lemma seg_rows ols boot weighted A s1 s2 B B0 fs : regression ols -> s1 <> s2 -> 0 < A -> 0 < B -> 0 < B0 ->
  (forall f, In f fs -> 0 < fst f /\ 0 < snd f) -> two_sided B (map fst fs) -> same_gap B B0 (map fst fs) -> same_gap B (B * B / B0) (map fst fs) ->
  exists C be errs bt, pspec_seg ols boot weighted (map (broken_row A s1 s2 B) fs) (Fin (log10 B0)) = Ok (Some (log10 C, be, (Fin s1, Fin s2), errs, bt, Fin (log10 A))) /\
    (C = B0 \/ C = B * B / B0) /\ 0 < C /\ same_gap B C (map fst fs).
Proof.
  intros REG NE HA HB HB0 HP T G G'. assert (HP' : forall f, In f (map fst fs) -> 0 < f) by (intros f Hf; apply in_map_iff in Hf; destruct Hf as [z [<- Hz]]; now apply HP).
  set (w := if weighted then Some (map snd fs) else None).
  destruct (lm_exact ols (map log10 (map fst fs)) w (log10 A) s1 s2 (log10 B) (log10 B0) REG NE (log_sided _ _ HB HP' T) (log_gap _ _ _ HB HB0 HP' G)) as [g [E [Hb [F [P L]]]]].
  { rewrite log10_mirror by assumption. apply log_gap; auto. now apply mirror_pos. }
  { unfold w. destruct weighted; [|exact I]. rewrite !map_length. split; [reflexivity|]. intros v Hv. apply in_map_iff in Hv. destruct Hv as [z [<- Hz]]. now apply HP. }
  destruct (read_exact boot g _ _ _ _ F P L) as [errs RB].
  assert (EQ : pspec_seg ols boot weighted (map (broken_row A s1 s2 B) fs) (Fin (log10 B0)) = Ok (Some (g_brk g, g_brk_err g, (Fin s1, Fin s2), errs, boot g, Fin (log10 A)))).
  { unfold pspec_seg. rewrite !map_map in *. cbn [broken_row as_row fst snd] in *.
    replace (map (fun f => Fin (log10 (broken_plaw A s1 s2 B (fst f)))) fs) with (map (fun f => Fin (broken_line (log10 A) s1 s2 (log10 B) (log10 (fst f)))) fs).
    2:{ apply map_ext_in. intros f Hf. rewrite log10_broken; auto. now apply HP. }
    replace (if weighted then Some (map (fun f => Fin (snd f)) fs) else None) with (option_map (map Fin) w) by (unfold w; destruct weighted; cbn; [now rewrite map_map|reflexivity]).
    rewrite E. exact RB. }
  destruct Hb as [Hb|Hb]; rewrite Hb in EQ.
  - exists B0. do 3 eexists. split; [exact EQ|]. auto.
  - rewrite log10_mirror in EQ by assumption. exists (B * B / B0). do 3 eexists. split; [exact EQ|]. split; [now right|]. split; [now apply mirror_pos|exact G'].
Qed.

Lemma count_rows A s1 s2 B C fs : 0 < C -> (forall f, In f fs -> 0 < fst f /\ 0 < snd f) -> same_gap B C (map fst fs) ->
  below_break (log10 C) (map (broken_row A s1 s2 B) fs) = count_below B (map fst fs).
Proof.
  intros HC. unfold below_break, count_below. induction fs as [|f fs IH]; intros HP G; [reflexivity|]. cbn [map filter]. cbn [broken_row as_row fst fltb].
  assert (IH' := IH (fun f Hf => HP f (or_intror Hf)) (fun v Hv => G v (or_intror Hv))).
  destruct (G (fst f) (or_introl eq_refl)) as [G1 _]. destruct (HP f (or_introl eq_refl)) as [Pf _].
  destruct (Rltb_spec (log10 (fst f)) (log10 C)) as [L|L]; destruct (Rlt_dec (fst f) B) as [M|M]; cbn [length]; try (now rewrite IH').
  - exfalso. apply M, G1. apply log10_lt; assumption.
  - exfalso. apply L. apply log10_lt; [assumption|assumption|]. now apply G1.
Qed.

Theorem do_fit_broken ols boot line err o a low high A s1 s2 B B0 fs : regression ols -> s1 <> s2 -> 0 < A -> 0 < B -> 0 < B0 ->
  start_at B0 (f_brk a) (f_log_break a) -> fit_rows o a = Ok (low, high, map (broken_row A s1 s2 B) fs) ->
  (forall f, In f fs -> 0 < fst f /\ 0 < snd f) -> two_sided B (map fst fs) -> same_gap B B0 (map fst fs) -> same_gap B (B * B / B0) (map fst fs) ->
  (f_min_pts a <= count_below B (map fst fs))%nat ->
  exists o' C, do_fit line err (pspec_seg ols boot (f_weighted a)) o a = Ok o' /\ t_slope (o_state o') = Some [Fin s1; Fin s2] /\ o_amp o' = Some (Fin (log10 A)) /\
    t_brk (o_state o') = Some (Some C) /\ (C = B0 \/ C = B * B / B0).
Proof.
  intros REG NE HA HB HB0 ST ER HP T G G' MP.
  destruct (seg_rows ols boot (f_weighted a) A s1 s2 B B0 fs REG NE HA HB HB0 HP T G G') as (C&be&errs&bt&E&HC&PC&GC).
  unfold do_fit. rewrite ER. cbn [bind].
  assert (EB : exists b, f_brk a = Some b /\ (if f_log_break a then Fin b else flog10 (Fin b)) = Fin (log10 B0)).
  { unfold start_at in ST. destruct (f_log_break a); (eexists; split; [exact ST|]); [reflexivity|now apply flog10_pos]. }
  destruct EB as [b [-> EB]]. rewrite EB, E. cbn [bind]. rewrite (count_rows A s1 s2 B C fs PC HP GC). destruct (Nat.ltb_spec (count_below B (map fst fs)) (f_min_pts a)); [lia|].
  eexists. exists C. split; [reflexivity|]. cbn [o_state o_amp fit_step]. destruct (Nat.ltb_spec (count_below B (map fst fs)) (f_min_pts a)); [lia|]. cbn [t_slope t_brk fst snd]. rewrite pow10_log10 by exact PC. auto.
Qed.

(** The bins as rows *)
Lemma bins_rows weighted A s1 s2 B (bins : list (R * fl * fl)) : 0 < A -> (forall b, In b bins -> 0 < fst (fst b)) ->
  (forall b, In b bins -> counted weighted b /\ power_is (broken_plaw A s1 s2 B (fst (fst b))) b) ->
  exists fs, map (bin_row weighted) bins = map (broken_row A s1 s2 B) fs /\ map fst fs = map (fun b => fst (fst b)) bins /\ forall f, In f fs -> 0 < fst f /\ 0 < snd f.
Proof.
  intros HA. induction bins as [|b bins IH]; intros Hf Hb.
  - exists []. split; [reflexivity|]. split; [reflexivity|]. intros f [].
  - destruct IH as [fs [E1 [E2 E3]]]; [intros; apply Hf; now right|intros; apply Hb; now right|].
    destruct (Hb b (or_introl eq_refl)) as [C P]. specialize (Hf b (or_introl eq_refl)). destruct b as [[f v] s]. unfold power_is in P. cbn [fst snd] in *. subst v.
    destruct (counted_row weighted f _ s _ Hf C eq_refl (broken_pos A s1 s2 B f HA)) as [w [Ew Hw]].
    exists ((f, w) :: fs). cbn [map]. rewrite Ew, E1, E2. split; [reflexivity|]. split; [reflexivity|]. intros z [<-|Hz]; [split; assumption|auto].
Qed.

Theorem binned_broken : forall ols boot line err o a ps freqs ps1D sd low high A s1 s2 B B0,
  o_ps2D o = Some ps -> o_freqs o = Some freqs -> o_ps1D o = Some ps1D -> o_stddev o = Some sd -> f_unbinned a = false ->
  (f_low a = Some low \/ (f_low a = None /\ low = 2 / INR (Nat.max (length ps) (length (hd [] ps))) /\ (0 < Nat.max (length ps) (length (hd [] ps)))%nat)) ->
  (f_high a = Some high \/ (f_high a = None /\ is_max high freqs)) -> 0 <= low ->
  regression ols -> s1 <> s2 -> 0 < A -> 0 < B -> 0 < B0 -> start_at B0 (f_brk a) (f_log_break a) ->
  let used := filter (fun b => within low high (fst (fst b))) (bins_of freqs ps1D sd) in
  let fs := map (fun b => fst (fst b)) used in
  (forall b, In b used -> counted (f_weighted a) b /\ power_is (broken_plaw A s1 s2 B (fst (fst b))) b) ->
  two_sided B fs -> same_gap B B0 fs -> same_gap B (B * B / B0) fs -> (f_min_pts a <= count_below B fs)%nat ->
  exists o' C, do_fit line err (pspec_seg ols boot (f_weighted a)) o a = Ok o' /\ t_slope (o_state o') = Some [Fin s1; Fin s2] /\ o_amp o' = Some (Fin (log10 A)) /\
    t_brk (o_state o') = Some (Some C) /\ (C = B0 \/ C = B * B / B0).
Proof.
  intros ols boot line err o a ps freqs ps1D sd low high A s1 s2 B B0 E1 E2 E3 E4 HU HL HH L0 REG NE HA HB HB0 ST used fs HP T G G' MP.
  pose proof (binned_rows o a ps freqs ps1D sd E1 E2 E3 E4 HU) as ER. cbv zeta in ER.
  assert (EL : match f_low a with Some r => r | None => default_low ps end = low).
  { destruct HL as [->|[-> [-> P]]]; [reflexivity|]. unfold default_low, rows_of, cols_of. apply lt_0_INR in P. field. lra. }
  assert (EH : match f_high a with Some r => r | None => rmax_list freqs end = high).
  { destruct HH as [->|[-> M]]; [reflexivity|]. eapply is_max_unique; [apply rmax_list_spec|exact M]. destruct M as [M _]. now destruct freqs. }
  rewrite EL, EH in ER. fold used in ER.
  destruct (bins_rows (f_weighted a) A s1 s2 B used HA) as [gs [R1 [R2 R3]]]; [|exact HP|].
  - intros b Hb. unfold used in Hb. rewrite filter_In, within_iff in Hb. lra.
  - rewrite R1 in ER. fold fs in R2. apply (do_fit_broken ols boot line err o a low high A s1 s2 B B0 gs); rewrite ?R2; assumption.
Qed.

Theorem unbinned_broken : forall ols boot line err o a ny nx image low high A s1 s2 B B0, (1 <= ny)%nat -> (1 <= nx)%nat -> holds_spectrum o ny nx image ->
  f_unbinned a = true -> f_weighted a = false ->
  (f_low a = Some low \/ (f_low a = None /\ low = 2 / INR (Nat.max ny nx))) ->
  (f_high a = Some high \/ (f_high a = None /\ is_max high (map (mode_freq ny nx) (modes ny nx)))) -> 0 <= low ->
  regression ols -> s1 <> s2 -> 0 < A -> 0 < B -> 0 < B0 -> start_at B0 (f_brk a) (f_log_break a) ->
  let fs := map (mode_freq ny nx) (filter (fun k => within low high (mode_freq ny nx k)) (modes ny nx)) in
  (forall k, In k (modes ny nx) -> low < mode_freq ny nx k <= high -> mode_power ny nx image k = broken_plaw A s1 s2 B (mode_freq ny nx k)) ->
  two_sided B fs -> same_gap B B0 fs -> same_gap B (B * B / B0) fs -> (f_min_pts a <= count_below B fs)%nat ->
  exists o' C, do_fit line err (pspec_seg ols boot false) o a = Ok o' /\ t_slope (o_state o') = Some [Fin s1; Fin s2] /\ o_amp o' = Some (Fin (log10 A)) /\
    t_brk (o_state o') = Some (Some C) /\ (C = B0 \/ C = B * B / B0).
Proof.
  intros ols boot line err o a ny nx image low high A s1 s2 B B0 Hy Hx HS HU HW HL HH L0 REG NE HA HB HB0 ST fs HP T G G' MP.
  pose proof (unbinned_rows o ny nx image a low high Hy Hx HS HU HW HL HH L0) as ER.
  set (ks := filter (fun k => within low high (mode_freq ny nx k)) (map (mode_at ny nx) (pixels ny nx))) in *.
  assert (PM : Permutation (map (mode_freq ny nx) ks) fs).
  { unfold ks, fs. apply Permutation_map. assert (PF : forall (f : nat * nat -> bool) l l', Permutation l l' -> Permutation (filter f l) (filter f l')).
    { intros f l l' Hl. induction Hl as [|z l l' Hl IH|z z' l|l l' l'' Hl1 IH1 Hl2 IH2]; cbn [filter].
      - constructor.
      - destruct (f z); [now constructor|exact IH].
      - destruct (f z), (f z'); try reflexivity. constructor.
      - eapply perm_trans; eassumption. }
    apply PF. apply modes_perm. }
  assert (IN : forall v, In v (map (mode_freq ny nx) ks) <-> In v fs) by (intros v; split; apply Permutation_in; [exact PM|now apply Permutation_sym]).
  set (gs := map (fun k => (mode_freq ny nx k, 1)) ks).
  assert (E : map (mode_row ny nx image) ks = map (broken_row A s1 s2 B) gs).
  { unfold gs. rewrite map_map. apply map_ext_in. intros k Hk. unfold ks in Hk. rewrite filter_In, within_iff in Hk. destruct Hk as [Hk Hw]. apply in_modes_at in Hk.
    unfold mode_row, broken_row, as_row. cbn [fst snd]. rewrite (HP k Hk Hw). rewrite !flog10_pos by (try apply broken_pos; lra). reflexivity. }
  assert (M1 : map fst gs = map (mode_freq ny nx) ks) by (unfold gs; now rewrite map_map).
  rewrite E in ER.
  assert (K : exists o' C, do_fit line err (pspec_seg ols boot (f_weighted a)) o a = Ok o' /\ t_slope (o_state o') = Some [Fin s1; Fin s2] /\ o_amp o' = Some (Fin (log10 A)) /\
    t_brk (o_state o') = Some (Some C) /\ (C = B0 \/ C = B * B / B0)).
  { apply (do_fit_broken ols boot line err o a low high A s1 s2 B B0 gs); rewrite ?M1; try assumption.
    - intros f Hf. unfold gs in Hf. apply in_map_iff in Hf. destruct Hf as [k [<- Hk]]. unfold ks in Hk. rewrite filter_In, within_iff in Hk. cbn [fst snd]. lra.
    - destruct T as [(u&v&Hu&Hv&T1) (p&q&Hp&Hq&T2)]. split; [exists u, v|exists p, q]; rewrite !IN; auto.
    - intros v Hv. apply G. now apply IN.
    - intros v Hv. apply G'. now apply IN.
    - replace (count_below B (map (mode_freq ny nx) ks)) with (count_below B fs); [exact MP|]. unfold count_below. symmetry. clear -PM. induction PM as [|z l l' Hl IH|z z' l|l l' l'' Hl1 IH1 Hl2 IH2]; cbn [filter].
      + reflexivity.
      + destruct (Rlt_dec z B); cbn [length]; now rewrite IH.
      + destruct (Rlt_dec z B), (Rlt_dec z' B); reflexivity.
      + congruence. }
  rewrite HW in K. exact K.
Qed.

Lemma log_break_same line err seg o a B : 0 < B ->
  do_fit line err seg o (mk_f (f_unbinned a) (Some B) false (f_low a) (f_high a) (f_min_pts a) (f_weighted a) (f_bootstrap a)) =
  do_fit line err seg o (mk_f (f_unbinned a) (Some (log10 B)) true (f_low a) (f_high a) (f_min_pts a) (f_weighted a) (f_bootstrap a)).
Proof. intros H. unfold do_fit. cbn [f_brk f_log_break f_min_pts f_bootstrap]. rewrite flog10_pos by exact H. reflexivity. Qed.
