From Coq Require Import String Reals List ZArith Arith Bool Lia Lra Permutation.
From Coquelicot Require Import Complex.
From Verif Require Import Lib.PyBase Lib.Arr Lib.DFT Lib.Fl Lib.RSum Lib.Bins Spec.Blank Spec.Freq Spec.Velocity Spec.ScfSpectrum Spec.PspecFit
  Model.StatsUtils Model.Psds Model.EllipPlaw Model.FitState Model.ScfSpectrum Model.PspecFit
  Proofs.Fl_Proofs Proofs.Psds_Proofs Proofs.Psds2_Proofs Proofs.Beam_Proofs Proofs.ScfSpectrum2_Proofs Proofs.PspecFit_Proofs Proofs.PspecFit2_Proofs.
Import ListNotations.
Local Open Scope R_scope.

(** ** Binned *)
Definition weight_of (weighted : bool) (v s : fl) : fl :=
  if weighted then let s := if feqb s (Fin 0) then NaN else s in fdiv (Fin 1) (fsqr (fdiv (fmul (Fin (434 / 1000)) s) v)) else Fin 1.
Definition bin_row (weighted : bool) (b : R * fl * fl) : fl * fl * fl := let '(f, v, s) := b in (flog10 (Fin f), flog10 v, weight_of weighted v s).

Lemma binned_rows o a ps freqs ps1D sd : o_ps2D o = Some ps -> o_freqs o = Some freqs -> o_ps1D o = Some ps1D -> o_stddev o = Some sd -> f_unbinned a = false ->
  let low := match f_low a with Some r => r | None => default_low ps end in
  let high := match f_high a with Some r => r | None => rmax_list freqs end in
  fit_rows o a = Ok (low, high, map (bin_row (f_weighted a)) (filter (fun b => within low high (fst (fst b))) (bins_of freqs ps1D sd))).
Proof.
  intros E1 E2 E3 E4 HU low high. unfold fit_rows. rewrite E1, HU, E2, E3, E4. cbv zeta. fold low high. apply f_equal. apply f_equal.
  unfold bins_of. rewrite (filter_ext (fun b : R * fl * fl => clip low high (fst (fst b))) (fun b => within low high (fst (fst b)))) by (intros; apply clip_within).
  apply map_ext. intros [[f v] s]. reflexivity.
Qed.

Lemma counted_row weighted f v s p : 0 < f -> counted weighted (f, v, s) -> v = Fin p -> 0 < p ->
  exists w, bin_row weighted (f, v, s) = as_row (log10 f, log10 p, w) /\ 0 < w.
Proof.
  intros Hf [_ C] -> Hp. unfold bin_row, weight_of. rewrite !flog10_pos by assumption. destruct weighted.
  - destruct (C eq_refl) as [g [-> Hg]]. cbn [feqb]. destruct (Reqb_spec g 0); [contradiction|]. cbn [fmul fdiv fsqr].
    destruct (Reqb_spec p 0); [lra|]. set (e := 434 / 1000 * g / p). assert (He : e <> 0).
    { unfold e, Rdiv. apply Rmult_integral_contrapositive_currified; [|apply Rinv_neq_0_compat; lra]. apply Rmult_integral_contrapositive_currified; [lra|assumption]. }
    cbn [fmul]. unfold fdiv, fsqr. cbn [fmul]. destruct (Reqb_spec (e * e) 0) as [Z|Z]; [apply Rmult_integral in Z; tauto|].
    exists (1 / (e * e)). split; [reflexivity|]. apply Rdiv_lt_0_compat; [lra|]. change (0 < Rsqr e). now apply Rsqr_pos_lt.
  - exists 1. split; [reflexivity|lra].
Qed.
Lemma left_out_row weighted b : left_out weighted b -> row_ok (bin_row weighted b) = false.
Proof.
  destruct b as [[f v] s]. cbn [left_out bin_row row_ok]. intros [->|[-> [->| ->]]].
  - cbn [flog10 is_nan]. now rewrite orb_true_r.
  - unfold weight_of. cbn [feqb fmul]. replace (is_nan (fdiv (Fin 1) (fsqr (fdiv NaN v)))) with true by (cbn; reflexivity). now rewrite orb_true_r.
  - unfold weight_of. cbn [feqb]. destruct (Reqb_spec 0 0); [|lra]. cbn [fmul]. replace (is_nan (fdiv (Fin 1) (fsqr (fdiv NaN v)))) with true by (cbn; reflexivity). now rewrite orb_true_r.
Qed.

(** The real rows of the bins used *)
Lemma kept_rows weighted (bins : list (R * fl * fl)) :
  (forall b, In b bins -> 0 < fst (fst b)) ->
  (forall b, In b bins -> left_out weighted b \/ (counted weighted b /\ exists p, power_is p b /\ 0 < p)) ->
  exists rr, filter row_ok (map (bin_row weighted) bins) = map as_row rr /\ (forall x y w, In (x, y, w) rr -> 0 < w) /\
    (forall x y w, In (x, y, w) rr -> exists b p, In b bins /\ counted weighted b /\ power_is p b /\ x = log10 (fst (fst b)) /\ y = log10 p) /\
    (forall b p, In b bins -> counted weighted b -> power_is p b -> 0 < p -> exists w, In (log10 (fst (fst b)), log10 p, w) rr).
Proof.
  induction bins as [|b bins IH]; intros Hf Hb.
  - exists []. repeat split; intros; contradiction.
  - destruct IH as [rr [E [Hw [H1 H2]]]]; [intros; apply Hf; now right|intros; apply Hb; now right|].
    assert (H1' : forall x y w, In (x, y, w) rr -> exists b0 p, In b0 (b :: bins) /\ counted weighted b0 /\ power_is p b0 /\ x = log10 (fst (fst b0)) /\ y = log10 p).
    { intros x y w H. destruct (H1 x y w H) as [b0 [p [I R]]]. exists b0, p. split; [now right|exact R]. }
    assert (Hfb : 0 < fst (fst b)) by (apply Hf; now left).
    destruct (Hb b (or_introl eq_refl)) as [L|[C [p [P Pp]]]].
    + exists rr. cbn [map filter]. rewrite (left_out_row _ _ L). split; [exact E|]. split; [exact Hw|]. split; [exact H1'|].
      intros b0 q [<-|I] C Q Qp; [|now apply H2]. exfalso. clear -L C Q Qp. destruct b as [[f v] s]. unfold power_is in Q. cbn [left_out counted fst snd] in *. destruct C as [_ C].
      destruct L as [->|[-> [->| ->]]]; [discriminate| |]; destruct (C eq_refl) as [g [Eg Hg]]; [discriminate|]. injection Eg as Eg. apply Hg. now symmetry.
    + destruct b as [[f v] s]. unfold power_is in P. cbn [fst snd] in P, Hfb. subst v. destruct (counted_row weighted f (Fin p) s p Hfb C eq_refl Pp) as [w [Ew Hwp]].
      exists ((log10 f, log10 p, w) :: rr). cbn [map filter]. rewrite Ew, row_ok_as_row. cbn [map]. rewrite E. split; [reflexivity|].
      split; [intros x y w0 [H|H]; [apply (f_equal snd) in H; cbn in H; lra|now apply (Hw x y)]|].
      split.
      * intros x y w0 [H|H]; [|now apply (H1' x y w0)]. exists (f, Fin p, s), p. split; [now left|]. split; [exact C|]. split; [reflexivity|].
        pose proof (f_equal (fun t => fst (fst t)) H) as A1. pose proof (f_equal (fun t => snd (fst t)) H) as A2. cbn [fst snd] in *. now rewrite A1, A2.
      * intros b0 q [<-|I] C0 Q Qp; [|destruct (H2 b0 q I C0 Q Qp) as [w1 I1]; exists w1; now right].
        unfold power_is in Q. cbn [fst snd] in Q. exists w. left. cbn [fst]. assert (p = q) as -> by congruence. reflexivity.
Qed.

Theorem binned_recovers : forall line err seg o a ps freqs ps1D sd low high A s,
  o_ps2D o = Some ps -> o_freqs o = Some freqs -> o_ps1D o = Some ps1D -> o_stddev o = Some sd ->
  f_unbinned a = false -> f_brk a = None ->
  (f_low a = Some low \/ (f_low a = None /\ low = 2 / INR (Nat.max (length ps) (length (hd [] ps))) /\ (0 < Nat.max (length ps) (length (hd [] ps)))%nat)) ->
  (f_high a = Some high \/ (f_high a = None /\ is_max high freqs)) -> 0 <= low ->
  least_squares line -> answers line -> 0 < A ->
  (forall b, In b (bins_of freqs ps1D sd) -> low < fst (fst b) <= high ->
     left_out (f_weighted a) b \/ (counted (f_weighted a) b /\ power_is (A * Rpower (fst (fst b)) s) b)) ->
  (exists b1 b2, In b1 (bins_of freqs ps1D sd) /\ In b2 (bins_of freqs ps1D sd) /\ fst (fst b1) <> fst (fst b2) /\
     (forall b, b = b1 \/ b = b2 -> low < fst (fst b) <= high /\ counted (f_weighted a) b)) ->
  exists o', do_fit line err seg o a = Ok o' /\ t_brk (o_state o') = Some None /\ t_slope (o_state o') = Some [Fin s] /\ o_amp o' = Some (Fin (log10 A)).
Proof.
  intros line err seg o a ps freqs ps1D sd low high A s E1 E2 E3 E4 HU HB HL HH L0 LS AN HA HP [b1 [b2 [I1 [I2 [N HBB]]]]].
  pose proof (binned_rows o a ps freqs ps1D sd E1 E2 E3 E4 HU) as ER. cbv zeta in ER.
  assert (EL : match f_low a with Some r => r | None => default_low ps end = low).
  { destruct HL as [->|[-> [-> P]]]; [reflexivity|]. unfold default_low, rows_of, cols_of. apply lt_0_INR in P. field. lra. }
  assert (EH : match f_high a with Some r => r | None => rmax_list freqs end = high).
  { destruct HH as [->|[-> M]]; [reflexivity|]. eapply is_max_unique; [apply rmax_list_spec|exact M]. destruct M as [M _]. now destruct freqs. }
  rewrite EL, EH in ER. set (bins := filter (fun b => within low high (fst (fst b))) (bins_of freqs ps1D sd)) in *.
  assert (IN : forall b, In b bins <-> In b (bins_of freqs ps1D sd) /\ low < fst (fst b) <= high) by (intros b; unfold bins; rewrite filter_In, within_iff; tauto).
  destruct (kept_rows (f_weighted a) bins) as [rr [E [Hw [H1 H2]]]].
  - intros b Hb. apply IN in Hb. lra.
  - intros b Hb. apply IN in Hb. destruct (HP b (proj1 Hb) (proj2 Hb)) as [L|[C P]]; [now left|]. right. split; [exact C|]. eexists. split; [exact P|]. apply Rmult_lt_0_compat; [exact HA|apply exp_pos].
  - assert (PW : forall b, b = b1 \/ b = b2 -> In b (bins_of freqs ps1D sd) -> exists w, In (log10 (fst (fst b)), log10 (A * Rpower (fst (fst b)) s), w) rr).
    { intros b Hb Ib. destruct (HBB b Hb) as [W C]. apply (H2 b); [now apply IN|exact C| |apply Rmult_lt_0_compat; [exact HA|apply exp_pos]].
      destruct (HP b Ib W) as [L|[_ P]]; [|exact P]. exfalso. clear -L C. destruct b as [[f v] g]. cbn [left_out counted] in *. destruct C as [[p ->] C].
      destruct L as [L|[L [->| ->]]]; [discriminate| |]; destruct (C L) as [h [Eh Hh]]; [discriminate|]. injection Eh as Eh. apply Hh. now symmetry. }
    destruct (PW b1 (or_introl eq_refl) I1) as [w1 J1]. destruct (PW b2 (or_intror eq_refl) I2) as [w2 J2].
    assert (T : two_x rr).
    { do 3 eexists. do 3 eexists. split; [exact J1|]. split; [exact J2|]. intros C. apply N. destruct (HBB b1 (or_introl eq_refl)). destruct (HBB b2 (or_intror eq_refl)). apply log10_inj; [lra|lra|exact C]. }
    destruct (straight_rows line _ rr LS AN E Hw T) as [p [q [ES B]]].
    destruct (do_fit_line line err seg o a _ _ _ _ HB ER ES) as [o' [EO [ST [AM _]]]]. exists o'. split; [exact EO|]. rewrite ST, AM. cbn [t_brk t_slope fst snd].
    assert (p = log10 A /\ q = s) as [-> ->]; [|auto].
    apply (best_line_exact rr p q (log10 A) s Hw); [|exact T|exact B]. intros x y w H. destruct (H1 x y w H) as [b [r [Ib [C [P [-> ->]]]]]]. apply IN in Ib.
    destruct (HP b (proj1 Ib) (proj2 Ib)) as [L|[_ P']].
    + exfalso. clear -L C. destruct b as [[f v] g]. cbn [left_out counted] in *. destruct C as [[p0 ->] C].
      destruct L as [L|[L [->| ->]]]; [discriminate| |]; destruct (C L) as [h [Eh Hh]]; [discriminate|]. injection Eh as Eh. apply Hh. now symmetry.
    + unfold power_is in P, P'. rewrite P in P'. injection P' as ->. now apply log10_plaw.
Qed.
