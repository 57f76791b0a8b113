From Coq Require Import String Reals List ZArith Arith Bool Lia Lra Permutation.
From Coquelicot Require Import Complex.
From Verif Require Import Lib.PyBase Lib.Arr Lib.DFT Lib.Fl Lib.RSum Lib.Bins Spec.Bins Spec.Blank Spec.Freq Spec.Velocity Spec.ScfSpectrum Spec.PspecFit
  Model.StatsUtils Model.Psds Model.EllipPlaw Model.FitState Model.ScfSpectrum Model.PspecFit
  Proofs.Fl_Proofs Proofs.StatsUtils2_Proofs Proofs.Psds_Proofs Proofs.Psds2_Proofs Proofs.Beam_Proofs Proofs.ScfSpectrum2_Proofs Proofs.PspecFit_Proofs Proofs.PspecFit2_Proofs Proofs.PspecFit3_Proofs.
Import ListNotations.
Local Open Scope R_scope.

(** ** Moving the image around its edges *)
Lemma mode_power_abs ny nx image k : mode_power ny nx image k = ft_abs ny nx image (fst k) (snd k) * ft_abs ny nx image (fst k) (snd k).
Proof. unfold mode_power, ft_abs. now rewrite Cmod_sqr. Qed.
Theorem power_moved : forall ny nx sy sx image, (1 <= ny)%nat -> (1 <= nx)%nat -> power_ps2D ny nx (moved ny nx sy sx image) = power_ps2D ny nx image.
Proof.
  intros ny nx sy sx image Hy Hx. rewrite !power_tab by assumption. apply tab2_ext. intros i j _ _. rewrite !mode_power_abs. rewrite ft_abs_moved by lia. reflexivity.
Qed.

(** ** Adding a constant *)
Lemma csum_tw0 n k : (k < n)%nat -> k <> 0%nat -> csum n (fun j => tw n j k) = RtoC 0.
Proof.
  intros Hk N. rewrite (csum_ext n _ (fun j => Cmult (tw n k j) (Cconj (tw n 0 j)))).
  - rewrite tw_orth by lia. destruct (Nat.eqb_spec k 0); [contradiction|reflexivity].
  - intros j _. rewrite tw_0_l, Cconj_RtoC, tw_sym. ring.
Qed.
Lemma dft2_const ny nx (c : C) ky kx : (ky < ny)%nat -> (kx < nx)%nat -> (ky, kx) <> (0, 0)%nat -> dft2 ny nx (fun _ _ => c) ky kx = RtoC 0.
Proof.
  intros Hy Hx N. rewrite dft2_rows. unfold dft1.
  destruct (Nat.eq_dec kx 0) as [->|Nx].
  - assert (ky <> 0%nat) by congruence. rewrite csum_scal. rewrite csum_tw0 by assumption. ring.
  - apply csum_zero. intros y _. rewrite csum_scal. rewrite csum_tw0 by assumption. ring.
Qed.
Lemma mode_power_offset ny nx c image ky kx : (ky < ny)%nat -> (kx < nx)%nat -> (ky, kx) <> (0, 0)%nat ->
  mode_power ny nx (offset c image) (ky, kx) = mode_power ny nx image (ky, kx).
Proof.
  intros Hy Hx N. unfold mode_power, offset. cbn [fst snd]. f_equal.
  transitivity (Cplus (dft2 ny nx (fun y x => RtoC (image y x)) ky kx) (dft2 ny nx (fun _ _ => RtoC c) ky kx)).
  - unfold dft2. rewrite <- csum_plus. apply csum_ext. intros y _. rewrite <- csum_plus. apply csum_ext. intros x _. rewrite RtoC_plus. ring.
  - rewrite dft2_const by assumption. ring.
Qed.
Lemma axis_freq_zero n k : (k < n)%nat -> axis_freq n k = 0 -> k = 0%nat.
Proof.
  intros H. assert (P : 0 < INR n) by (apply lt_0_INR; lia). unfold axis_freq. destruct (Nat.ltb_spec (2 * k) n); intros E.
  - apply INR_eq. cbn [INR]. apply (f_equal (fun t => t * INR n)) in E. field_simplify in E; lra.
  - apply (f_equal (fun t => t * INR n)) in E. field_simplify in E; [|lra]. apply lt_INR in H. lra.
Qed.
Lemma mode_freq_zero ny nx k : (fst k < ny)%nat -> (snd k < nx)%nat -> mode_freq ny nx k = 0 -> k = (0, 0)%nat.
Proof.
  intros Hy Hx E. unfold mode_freq in E. pose proof (pow2_ge_0 (axis_freq ny (fst k))) as P. pose proof (pow2_ge_0 (axis_freq nx (snd k))) as Q.
  apply sqrt_eq_0 in E; [|lra]. assert (axis_freq ny (fst k) = 0) by nra. assert (axis_freq nx (snd k) = 0) by nra.
  destruct k as [ky kx]. cbn [fst snd] in *. f_equal; [exact (axis_freq_zero ny ky Hy H)|exact (axis_freq_zero nx kx Hx H0)].
Qed.

Lemma axis_freq_00 n : (1 <= n)%nat -> axis_freq n 0 = 0.
Proof. intros H. unfold axis_freq. destruct (Nat.ltb_spec (2 * 0) n); [|lia]. cbn [INR]. unfold Rdiv. ring. Qed.
Lemma mode_freq_00 ny nx : (1 <= ny)%nat -> (1 <= nx)%nat -> mode_freq ny nx (0, 0)%nat = 0.
Proof. intros Hy Hx. unfold mode_freq. cbn [fst snd]. rewrite !axis_freq_00 by assumption. replace (0 ^ 2 + 0 ^ 2) with 0 by ring. apply sqrt_0. Qed.

(** Two spectra that differ at the zero frequency only *)
Definition agree (ny nx : nat) (ps1 ps2 : list (list fl)) : Prop :=
  length ps1 = ny /\ length (hd [] ps1) = nx /\ length ps2 = ny /\ length (hd [] ps2) = nx /\
  forall i j, (i < ny)%nat -> (j < nx)%nat -> is_fin (at2 NaN ps1 i j) = true /\ is_fin (at2 NaN ps2 i j) = true /\
    (freqs_raw ny nx i j <> 0 -> at2 NaN ps1 i j = at2 NaN ps2 i j).

Lemma offset_agree ny nx c image : (1 <= ny)%nat -> (1 <= nx)%nat ->
  agree ny nx (map (map Fin) (power_ps2D ny nx image)) (map (map Fin) (power_ps2D ny nx (offset c image))).
Proof.
  intros Hy Hx. destruct (power_shape ny nx image Hy Hx) as [A B]. destruct (power_shape ny nx (offset c image) Hy Hx) as [C D]. unfold rows_of, cols_of in *.
  repeat split; try assumption; try (rewrite power_at by assumption; reflexivity). intros N. rewrite !power_at by assumption. f_equal. symmetry.
  destruct (mode_at ny nx (i, j)) as [ky kx] eqn:E. rewrite freqs_raw_mode in N by assumption. rewrite E in N.
  assert (ky < ny)%nat by (replace ky with (fst (mode_at ny nx (i, j))) by (now rewrite E); apply unshift_lt; cbn; lia).
  assert (kx < nx)%nat by (replace kx with (snd (mode_at ny nx (i, j))) by (now rewrite E); apply unshift_lt; cbn; lia).
  apply mode_power_offset; auto. intros Z. apply N. rewrite Z. apply mode_freq_00; assumption.
Qed.

Lemma bin_number_below edges x b : (forall e, In e edges -> x < e) -> opt_eqb (bin_number edges x) b = false.
Proof.
  intros H. unfold bin_number. assert (E : filter (fun e => Rleb e x) edges = []).
  { clear -H. induction edges as [|e l IH]; [reflexivity|]. cbn [filter]. destruct (Rleb_spec e x) as [L|L]; [pose proof (H e (or_introl eq_refl)); lra|]. apply IH. intros; apply H; now right. }
  rewrite E. cbn [length]. now destruct (Reqb x (last edges 0)).
Qed.
Lemma tab1_stat_ext {V W} (stat : list V -> W) edges sample v1 v2 : (forall b, in_bin_values edges sample v1 b = in_bin_values edges sample v2 b) ->
  binned_statistic stat edges sample v1 = binned_statistic stat edges sample v2.
Proof. intros H. unfold binned_statistic. apply tab1_ext. intros i _. now rewrite H. Qed.
Lemma linspace_ge a b n e : a < b -> In e (linspace a b n) -> a <= e.
Proof.
  intros L H. apply (In_nth _ _ 0) in H. destruct H as [i [Hi <-]]. rewrite linspace_length in Hi. destruct n as [|[|n]]; [lia|destruct i; [cbn; lra|lia]|].
  rewrite linspace_nth by lia. assert (0 <= INR i) by apply pos_INR. assert (0 < INR (S (S n) - 1)) by (apply lt_0_INR; lia). assert (0 < (b - a) / INR (S (S n) - 1)) by (apply Rdiv_lt_0_compat; lra). nra.
Qed.
Lemma logspace_ge a b n e : 0 < a -> a < b -> In e (logspace10 a b n) -> a <= e.
Proof.
  intros P L H. unfold logspace10 in H. apply in_map_iff in H. destruct H as [t [<- Ht]]. assert (0 < ln 10) by (rewrite <- ln_1; apply ln_increasing; lra).
  assert (LN : ln a < ln b) by now apply ln_increasing.
  apply linspace_ge in Ht; [|unfold Rdiv; apply Rmult_lt_compat_r; [now apply Rinv_0_lt_compat|exact LN]].
  rewrite <- (exp_ln a P) at 1. unfold Rpower. assert (ln a <= t * ln 10).
  { apply Rmult_le_compat_r with (r := ln 10) in Ht; [|lra]. unfold Rdiv in Ht. rewrite Rmult_assoc, Rinv_l in Ht by lra. lra. }
  destruct H0 as [H0|H0]; [left; now apply exp_increasing|rewrite H0; apply Rle_refl].
Qed.

(** The smallest frequency other than zero is at most 1 / max(shape) *)
Lemma axis_freq_one n : (2 <= n)%nat -> exists k, (k < n)%nat /\ axis_freq n k ^ 2 = (1 / INR n) ^ 2 /\ k <> 0%nat.
Proof.
  intros H. assert (P : 0 < INR n) by (apply lt_0_INR; lia). exists (n - 1)%nat. split; [lia|]. split; [|lia]. unfold axis_freq. destruct (Nat.ltb_spec (2 * (n - 1)) n); [lia|].
  rewrite minus_INR by lia. cbn [INR]. field. lra.
Qed.
Lemma one_in_nonzero ny nx : (1 <= ny)%nat -> (1 <= nx)%nat -> (2 <= Nat.max ny nx)%nat -> In (1 / INR (Nat.max ny nx)) (nonzero_freqs ny nx).
Proof.
  intros Hy Hx HM. assert (PM : 0 < INR (Nat.max ny nx)) by (apply lt_0_INR; lia).
  unfold nonzero_freqs. apply filter_In. split.
    2:{ destruct (Reqb_spec (1 / INR (Nat.max ny nx)) 0) as [Z|_]; [|reflexivity]. assert (0 < 1 / INR (Nat.max ny nx)) by (apply Rdiv_lt_0_compat; lra). lra. }
    assert (K : exists k, In k (modes ny nx) /\ mode_freq ny nx k = 1 / INR (Nat.max ny nx)).
    { assert (Z : forall n, (1 <= n)%nat -> axis_freq n 0 ^ 2 = 0).
      { intros n Hn. unfold axis_freq. destruct (Nat.ltb_spec (2 * 0) n); [|lia]. cbn [INR]. unfold Rdiv. ring. }
      assert (SQ : forall n, (0 < n)%nat -> sqrt ((1 / INR n) ^ 2) = 1 / INR n).
      { intros n Hn. apply lt_0_INR in Hn. assert (0 < 1 / INR n) by (apply Rdiv_lt_0_compat; lra). replace ((1 / INR n) ^ 2) with (Rsqr (1 / INR n)) by (unfold Rsqr; ring). apply sqrt_Rsqr. lra. }
      destruct (Nat.le_gt_cases ny nx) as [C|C].
      - rewrite Nat.max_r by lia. destruct (axis_freq_one nx ltac:(lia)) as [k [Hk [Ek _]]]. exists (0, k)%nat. split; [apply in_pixels; lia|].
        unfold mode_freq. cbn [fst snd]. rewrite Z, Ek by lia. rewrite Rplus_0_l. apply SQ. lia.
      - rewrite Nat.max_l by lia. destruct (axis_freq_one ny ltac:(lia)) as [k [Hk [Ek _]]]. exists (k, 0)%nat. split; [apply in_pixels; lia|].
        unfold mode_freq. cbn [fst snd]. rewrite Z, Ek by lia. rewrite Rplus_0_r. apply SQ. lia. }
    destruct K as [k [Hk Ek]]. apply in_modes_at in Hk. apply in_map_iff in Hk. destruct Hk as [[i' j'] [Ep Hp]]. apply in_map_iff. exists (i', j'). split; [|exact Hp].
    apply in_pixels in Hp. cbn [fst snd]. rewrite freqs_raw_mode by tauto. now rewrite Ep. 
Qed.
Lemma zero_standin ny nx i j : (1 <= ny)%nat -> (1 <= nx)%nat -> (2 <= Nat.max ny nx)%nat -> freqs_raw ny nx i j = 0 -> freqs_dist ny nx i j <= 1 / (2 * INR (Nat.max ny nx)).
Proof.
  intros Hy Hx HM E. unfold freqs_dist. destruct (Reqb_spec (freqs_raw ny nx i j) 0); [|contradiction].
  assert (PM : 0 < INR (Nat.max ny nx)) by (apply lt_0_INR; lia).
  pose proof (one_in_nonzero ny nx Hy Hx HM) as I.
  destruct (rmin_list_spec (nonzero_freqs ny nx)) as [_ M]; [intros C; now rewrite C in I|]. apply M in I. 
  replace (1 / (2 * INR (Nat.max ny nx))) with (1 / INR (Nat.max ny nx) / 2) by (field; lra). lra.
Qed.

(** The lower edge of the bins *)
Definition bins_from (ny nx : nat) (kw : spec_kwargs) (lo hi : R) : Prop :=
  (k_min_bin kw = Some lo \/ (k_min_bin kw = None /\ lo = 1 / INR (Nat.min ny nx))) /\ (k_max_bin kw = Some hi \/ (k_max_bin kw = None /\ hi = 1 / 2)).

Lemma pspec_agree tppf ny nx ps1 ps2 nbins binsize logs maxb minb t0 dt lo hi : (1 <= ny)%nat -> (1 <= nx)%nat -> (2 <= Nat.max ny nx)%nat ->
  agree ny nx ps1 ps2 -> (minb = Some lo \/ (minb = None /\ lo = 1 / INR (Nat.min ny nx))) -> (maxb = Some hi \/ (maxb = None /\ hi = 1 / 2)) ->
  1 / (2 * INR (Nat.max ny nx)) < lo -> lo < hi ->
  pspec tppf ps1 nbins true binsize logs maxb minb true t0 dt nanmean = pspec tppf ps2 nbins true binsize logs maxb minb true t0 dt nanmean.
Proof.
  intros Hy Hx HM [A1 [A2 [B1 [B2 AG]]]] HLo HHi L1 L2. unfold pspec. rewrite A1, A2, B1, B2. cbv zeta.
  match goal with |- bind ?m _ = bind ?m _ => destruct m as [mask|e]; [|reflexivity] end. cbn [bind].
  match goal with |- (if ?c then _ else _) = _ => destruct c; [reflexivity|] end.
  assert (EL : match minb with Some b => b | None => 1 / INR (Nat.min ny nx) end = lo) by (destruct HLo as [->|[-> ->]]; reflexivity).
  assert (EH : match maxb with Some b => b | None => 1 / 2 end = hi) by (destruct HHi as [->|[-> ->]]; reflexivity).
  rewrite EL, EH.
  match goal with |- (if ?c then _ else _) = _ => destruct c eqn:EC; [reflexivity|] end.
  match goal with |- context [if logs then logspace10 lo hi ?n else linspace lo hi ?n] => set (edges := if logs then logspace10 lo hi n else linspace lo hi n); assert (GE : forall e, In e edges -> lo <= e) end.
  { intros e He. unfold edges in He. destruct logs; [|now apply linspace_ge in He]. apply logspace_ge in He; auto. cbn [andb] in EC. destruct (Rltb_spec 0 lo); [assumption|discriminate]. }
  assert (PM : 0 < INR (Nat.max ny nx)) by (apply lt_0_INR; lia).
  assert (ES : filter (fun p => is_fin (at2 NaN ps1 (fst p) (snd p)) && match mask with Some m => m (fst p) (snd p) | None => true end) (pixels ny nx) =
               filter (fun p => is_fin (at2 NaN ps2 (fst p) (snd p)) && match mask with Some m => m (fst p) (snd p) | None => true end) (pixels ny nx)).
  { apply filter_ext_in. intros [i j] H. apply in_pixels in H. cbn [fst snd]. destruct (AG i j (proj1 H) (proj2 H)) as [-> [-> _]]. reflexivity. }
  rewrite ES. set (sel := filter _ (pixels ny nx)).
  assert (SB : forall p, In p sel -> (fst p < ny)%nat /\ (snd p < nx)%nat).
  { intros [i j] H. unfold sel in H. apply filter_In in H. destruct H as [H _]. now apply in_pixels in H. }
  assert (VB : forall b, in_bin_values edges (map (fun p => freqs_dist ny nx (fst p) (snd p)) sel) (map (fun p => at2 NaN ps1 (fst p) (snd p)) sel) b =
                         in_bin_values edges (map (fun p => freqs_dist ny nx (fst p) (snd p)) sel) (map (fun p => at2 NaN ps2 (fst p) (snd p)) sel) b).
  { intros b. rewrite !in_bin_values_map. apply map_ext_in. intros p Hp. apply filter_In in Hp. destruct Hp as [Hp Wb]. destruct (SB p Hp) as [Hi Hj].
    destruct (AG _ _ Hi Hj) as [_ [_ EQ]]. apply EQ. intros Z. rewrite bin_number_below in Wb; [discriminate|].
    intros e He. apply GE in He. pose proof (zero_standin ny nx (fst p) (snd p) Hy Hx HM Z). lra. }
  cbn [negb]. rewrite !(tab1_stat_ext _ edges _ _ _ VB). reflexivity.
Qed.

Definition same_but_ps2D (p1 p2 : pobj) : Prop :=
  o_freqs p1 = o_freqs p2 /\ o_ps1D p1 = o_ps1D p2 /\ o_stddev p1 = o_stddev p2 /\ o_azim p1 = o_azim p2 /\ o_low p1 = o_low p2 /\ o_high p1 = o_high p2 /\
  o_state p1 = o_state p2 /\ o_amp p1 = o_amp p2 /\ o_fit2D p1 = o_fit2D p2.

Lemma rows_agree ny nx ps1 ps2 o1 o2 a : agree ny nx ps1 ps2 -> o_ps2D o1 = Some ps1 -> o_ps2D o2 = Some ps2 -> same_but_ps2D o1 o2 ->
  (forall l, f_low a = Some l -> 0 <= l) -> (1 <= ny)%nat -> fit_rows o1 a = fit_rows o2 a.
Proof.
  intros [A1 [A2 [B1 [B2 AG]]]] E1 E2 [F1 [F2 [F3 _]]] HL HN. unfold fit_rows. rewrite E1, E2, F1, F2, F3. unfold default_low, rows_of, cols_of. rewrite A1, A2, B1, B2.
  set (low := match f_low a with Some r => r | None => 1 / (1 / 2 * INR (Nat.max ny nx)) end).
  assert (L0 : 0 <= low).
  { unfold low. destruct (f_low a) as [l|]; [now apply HL|]. assert (0 < INR (Nat.max ny nx)) by (apply lt_0_INR; lia). left. apply Rdiv_lt_0_compat; lra. }
  cbv zeta. destruct (f_unbinned a); [|reflexivity]. destruct (f_weighted a); [reflexivity|]. apply f_equal. apply f_equal. apply map_ext_in.
  intros p Hp. apply filter_In in Hp. destruct Hp as [Hp W]. rewrite clip_within in W. apply within_iff in W. destruct p as [i j]. apply in_pixels in Hp. cbn [fst snd] in *.
  destruct (AG i j (proj1 Hp) (proj2 Hp)) as [_ [_ EQ]]. rewrite EQ by lra. reflexivity.
Qed.

Lemma fit_agree line err seg o1 o2 a ps1 ps2 : o_ps2D o1 = Some ps1 -> o_ps2D o2 = Some ps2 -> fit_rows o1 a = fit_rows o2 a -> same_but_ps2D o1 o2 ->
  same_run (fun p1 p2 => o_ps2D p1 = Some ps1 /\ o_ps2D p2 = Some ps2 /\ same_but_ps2D p1 p2 /\ exists s l v, t_slope (o_state p1) = Some (s :: l) /\ o_amp p1 = Some v)
    (do_fit line err seg o1 a) (do_fit line err seg o2 a).
Proof.
  intros E1 E2 ER [F1 [F2 [F3 [F4 [F5 [F6 [F7 [F8 F9]]]]]]]]. unfold do_fit. rewrite ER. destruct (fit_rows o2 a) as [[[low high] rows]|e]; [|reflexivity]. cbn [bind].
  assert (ST : forall oc, same_run (fun p1 p2 => o_ps2D p1 = Some ps1 /\ o_ps2D p2 = Some ps2 /\ same_but_ps2D p1 p2 /\ exists s l v, t_slope (o_state p1) = Some (s :: l) /\ o_amp p1 = Some v)
    (l <- straight_line line rows ;; Ok (mk_p (o_ps2D o1) (o_freqs o1) (o_ps1D o1) (o_stddev o1) (o_azim o1) (Some low) (Some high)
        (fit_step true (f_min_pts a) (f_bootstrap a) (snd l, err (f_bootstrap a) rows) (o_state o1) oc) (Some (fst l)) (o_fit2D o1)))
    (l <- straight_line line rows ;; Ok (mk_p (o_ps2D o2) (o_freqs o2) (o_ps1D o2) (o_stddev o2) (o_azim o2) (Some low) (Some high)
        (fit_step true (f_min_pts a) (f_bootstrap a) (snd l, err (f_bootstrap a) rows) (o_state o2) oc) (Some (fst l)) (o_fit2D o2)))).
  { intros oc. destruct (straight_line line rows) as [l|e]; [|reflexivity]. cbn [bind same_run o_ps2D o_state o_amp]. split; [exact E1|]. split; [exact E2|]. split.
    - unfold same_but_ps2D. cbn. rewrite F7. repeat split; assumption.
    - unfold fit_step. destruct oc as [[b be sl er bo be'|]|]; cbn [t_slope]; try destruct (Nat.ltb _ _); cbn [t_slope]; eauto. }
  destruct (f_brk a) as [b|]; [|apply ST]. destruct (seg rows _) as [[[[[[[b' be] sl] er] bo] amp]|]|e]; cbn [bind]; [|apply ST|reflexivity].
  destruct (Nat.ltb (below_break b' rows) (f_min_pts a)) eqn:EB; [apply ST|]. cbn [same_run o_ps2D o_state o_amp]. split; [exact E1|]. split; [exact E2|]. split.
  - unfold same_but_ps2D. cbn [o_freqs o_ps1D o_stddev o_azim o_low o_high o_state o_amp o_fit2D]. rewrite F7. repeat split; assumption.
  - unfold fit_step. rewrite EB. cbn [t_slope]. eauto.
Qed.

Lemma fit2D_agree solve perms ny nx o1 o2 g ps1 ps2 : agree ny nx ps1 ps2 -> o_ps2D o1 = Some ps1 -> o_ps2D o2 = Some ps2 -> same_but_ps2D o1 o2 ->
  (forall l, g_low g = Some l -> 0 <= l) -> (1 <= ny)%nat -> (exists s l v, t_slope (o_state o1) = Some (s :: l) /\ o_amp o1 = Some v) ->
  same_run same_results (do_fit2D solve perms o1 g) (do_fit2D solve perms o2 g).
Proof.
  intros [A1 [A2 [B1 [B2 AG]]]] E1 E2 [F1 [F2 [F3 [F4 [F5 [F6 [F7 [F8 F9]]]]]]]] HL HN [s [sl [v [ES EV]]]]. unfold do_fit2D. rewrite E1, E2.
  assert (EP : pixels_2Dpspec o1 ps1 (g_low g) (g_high g) (g_azim g) = pixels_2Dpspec o2 ps2 (g_low g) (g_high g) (g_azim g)).
  { unfold pixels_2Dpspec, default_low, rows_of, cols_of. now rewrite F1, F4, A1, A2, B1, B2. }
  rewrite EP. destruct (pixels_2Dpspec o2 ps2 (g_low g) (g_high g) (g_azim g)) as [[[lo hi] sel]|e] eqn:EQ; [|reflexivity]. cbn [bind].
  assert (ST : start_2D o1 ps1 = start_2D o2 ps2) by (unfold start_2D; rewrite <- F7, <- F8, ES, EV; reflexivity). rewrite ST.
  unfold rows_of, cols_of. rewrite A1, A2, B1, B2.
  assert (VS : map (fun p => flog10 (at2 NaN ps1 (fst p) (snd p))) sel = map (fun p => flog10 (at2 NaN ps2 (fst p) (snd p))) sel).
  { apply map_ext_in. intros [i j] Hp. unfold pixels_2Dpspec in EQ. cbv zeta in EQ. unfold default_low, rows_of, cols_of in EQ. rewrite B1, B2 in EQ.
    set (low := match g_low g with Some r => r | None => 1 / (1 / 2 * INR (Nat.max ny nx)) end) in *.
    assert (L0 : 0 <= low).
    { unfold low. destruct (g_low g) as [l|]; [now apply HL|]. assert (0 < INR (Nat.max ny nx)) by (apply lt_0_INR; lia). left. apply Rdiv_lt_0_compat; lra. }
    match type of EQ with bind ?m _ = _ => destruct m as [hi'|]; [|discriminate] end. cbn [bind] in EQ.
    match type of EQ with (if ?c then _ else _) = _ => destruct c; [discriminate|] end.
    assert (ESel : filter (fun p => clip low hi' (freqs_raw ny nx (fst p) (snd p)) && match o_azim o2 with Some m => if g_azim g then m (fst p) (snd p) else true | None => true end) (pixels ny nx) = sel) by congruence.
    rewrite <- ESel in Hp. apply filter_In in Hp. destruct Hp as [Hp W]. apply andb_prop in W. destruct W as [W _]. rewrite clip_within in W. apply within_iff in W. apply in_pixels in Hp. cbn [fst snd] in *.
    destruct (AG i j (proj1 Hp) (proj2 Hp)) as [_ [_ EE]]. rewrite EE by lra. reflexivity. }
  rewrite VS. match goal with |- same_run _ (bind ?m _) _ => destruct m as [r|e]; [|reflexivity] end. cbn [bind]. destruct (store_2D r) as [f|e]; [|reflexivity]. cbn [bind same_run].
  unfold same_results. cbn [o_freqs o_ps1D o_stddev o_low o_high o_state o_amp o_fit2D]. repeat split; assumption.
Qed.

Theorem offset_run : forall tppf line err seg solve perms o ny nx image c a lo hi, (1 <= ny)%nat -> (1 <= nx)%nat -> (2 <= Nat.max ny nx)%nat ->
  (k_min_bin (r_radial a) = Some lo \/ (k_min_bin (r_radial a) = None /\ lo = 1 / INR (Nat.min ny nx))) ->
  (k_max_bin (r_radial a) = Some hi \/ (k_max_bin (r_radial a) = None /\ hi = 1 / 2)) ->
  1 / (2 * INR (Nat.max ny nx)) < lo < hi ->
  (forall l, f_low (r_fit a) = Some l -> 0 <= l) ->
  same_run same_results (do_prun tppf line err seg solve perms o (Ok (map (map Fin) (power_ps2D ny nx image))) a)
                        (do_prun tppf line err seg solve perms o (Ok (map (map Fin) (power_ps2D ny nx (offset c image)))) a).
Proof.
  intros tppf line err seg solve perms o ny nx image c a lo hi Hy Hx HM HLo HHi [L1 L2] HL. unfold do_prun, do_pspec. cbn [bind].
  pose proof (offset_agree ny nx c image Hy Hx) as AG. set (ps1 := map (map Fin) (power_ps2D ny nx image)) in *. set (ps2 := map (map Fin) (power_ps2D ny nx (offset c image))) in *.
  unfold do_radial. cbn [o_ps2D o_freqs o_ps1D o_stddev o_azim o_low o_high o_state o_amp o_fit2D].
  rewrite (pspec_agree tppf ny nx ps1 ps2 _ _ _ _ _ _ _ lo hi Hy Hx HM AG HLo HHi L1 L2).
  match goal with |- same_run _ (bind (bind ?m _) _) _ => destruct m as [out|e]; [|reflexivity] end. cbn [bind].
  match goal with |- same_run _ (bind (bind ?m _) _) _ => destruct m as [mask|e]; [|reflexivity] end. cbn [bind].
  set (o1 := mk_p (Some ps1) _ _ _ _ _ _ _ _ _). set (o2 := mk_p (Some ps2) _ _ _ _ _ _ _ _ _).
  assert (SB : same_but_ps2D o1 o2) by (unfold same_but_ps2D, o1, o2; cbn; repeat split; reflexivity).
  assert (ER : fit_rows o1 (r_fit a) = fit_rows o2 (r_fit a)) by (apply (rows_agree ny nx ps1 ps2); auto).
  pose proof (fit_agree line err seg o1 o2 (r_fit a) ps1 ps2 eq_refl eq_refl ER SB) as FA.
  destruct (do_fit line err seg o1 (r_fit a)) as [q1|e1], (do_fit line err seg o2 (r_fit a)) as [q2|e2]; cbn [same_run] in FA; try contradiction; [|now subst]. cbn [bind].
  destruct FA as [Q1 [Q2 [SQ SL]]]. destruct (r_fit_2D a).
  - apply (fit2D_agree solve perms ny nx q1 q2 _ ps1 ps2); auto.
  - cbn [same_run]. unfold same_results. destruct SQ as [F1 [F2 [F3 [F4 [F5 [F6 [F7 [F8 F9]]]]]]]]. repeat split; assumption.
Qed.
