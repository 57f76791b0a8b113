From Coq Require Import String Reals List ZArith Arith Bool Lia Lra.
From Verif Require Import Lib.PyBase Lib.Arr Lib.Fl Lib.RSum Lib.Bins Spec.Bins Spec.Annulus Spec.Blank Spec.Freq Spec.EllipFit Spec.ScfSpectrum
  Model.StatsUtils Model.Psds Model.Scf Model.EllipPlaw Model.ScfSpectrum Proofs.Psds_Proofs Proofs.Psds2_Proofs Proofs.StatsUtils2_Proofs
  Proofs.Azim_Proofs Proofs.EllipPlaw_Proofs Proofs.ScfSpectrum_Proofs.
Import ListNotations.
Local Open Scope R_scope.

(** ** The limits of the 2D fit *)
Lemma np_round_near x : x - 1 / 2 <= IZR (np_round x).
Proof.
  unfold np_round. cbv zeta. destruct (base_Int_part x) as [A B].
  destruct (Rltb_spec (x - IZR (Int_part x)) (1 / 2)); [lra|]. destruct (Rltb_spec (1 / 2) (x - IZR (Int_part x))); [rewrite plus_IZR; lra|].
  destruct (Z.even _); [lra|rewrite plus_IZR; lra].
Qed.
Lemma corner_value n : dists n n 0 0 = sqrt 2 * INR (n / 2).
Proof.
  unfold dists, radial_y, radial_x. rewrite <- (sqrt_Rsqr (INR (n / 2)) (pos_INR _)) at 5. rewrite <- sqrt_mult_alt by lra. f_equal. cbn [INR]. unfold Rsqr. ring.
Qed.
Lemma dists_flip n j i : Nat.odd n = true -> (j < n)%nat -> dists n n (n - 1 - j) i = dists n n j i.
Proof. intros O H. unfold dists. rewrite radial_y_rev by assumption. f_equal. ring. Qed.

(** the ratio of the bin width of the default spectrum to the spacing of the lags *)
Definition bin_ratio (n : nat) : R := (sqrt 2 * INR (n / 2) - 1 / 2) / (IZR (np_round (sqrt 2 * INR (n / 2))) + 1).
Lemma bin_ratio_range n : (2 <= n)%nat -> 0 < bin_ratio n < 1.
Proof.
  intros Hn. pose proof (corner_far n Hn) as C. rewrite corner_value in C. unfold bin_ratio.
  set (D := sqrt 2 * INR (n / 2)) in *. pose proof (np_round_near D) as N.
  assert (P : 0 < IZR (np_round D) + 1) by lra. split.
  - apply Rdiv_lt_0_compat; lra.
  - apply (Rmult_lt_reg_r (IZR (np_round D) + 1)); [exact P|]. unfold Rdiv. rewrite Rmult_assoc, Rinv_l by lra. lra.
Qed.

Section Limits2D.
  Variables (tppf : nat -> fl) (o o' : scf_obj) (kw : spec_kwargs) (d : R) (n : nat).
  Hypothesis Hrun : do_spectrum tppf o kw = Ok o'.
  Hypothesis Hlags : s_roll_lags o = uniform_lags d n.
  Hypothesis Hd : d <> 0.
  Hypothesis Hn : (2 <= n)%nat.
  Hypothesis Hodd : Nat.odd n = true.
  Hypothesis Hsq : forall s, s_surface o = Some s -> square_array n s.
  Hypothesis K1 : k_max_bin kw = None.
  Hypothesis K2 : k_min_bin kw = None.
  Hypothesis K3 : k_nbins kw = None.
  Hypothesis K4 : k_binsize kw = 1.

  Theorem limits_2D : exists surface lags, s_surface o' = Some surface /\ s_lags o' = Some lags /\
    forall xlow xhigh sel, pixels_2D o' surface lags (Some xlow) (Some xhigh) false = Ok sel ->
    forall j i, In (j, i) sel <-> (j < n)%nat /\ (i < n)%nat /\
      xlow < bin_ratio n * lag_length (s_roll_lags o) j i /\ bin_ratio n * lag_length (s_roll_lags o) j i <= xhigh.
  Proof.
    assert (K3' : match k_nbins kw with Some k => (1 <= k)%nat | None => 0 < k_binsize kw end) by (rewrite K3, K4; lra).
    destruct (spectrum_prof tppf o o' kw d n Hrun Hlags Hn Hsq K1 K2) as [surface [prof [E1 [Sq [Ep [E2 [E3 E4]]]]]]].
    destruct (square_hd n surface Sq) as [Hy Hx]. specialize (Hx ltac:(lia)).
    pose proof (pspec_default_edges _ _ _ _ _ _ _ _ _ _ (dists n n 0 0) n n eq_refl Ep (eq_sym Hy) (eq_sym Hx) (eq_sym (dmax_corner n Hn))) as Ee.
    rewrite K3, K4 in Ee. unfold Rdiv in Ee. rewrite Rinv_1, Rmult_1_r in Ee.
    pose proof (corner_far n Hn) as CF. set (D := dists n n 0 0) in *.
    pose proof (np_round_near D) as NR.
    assert (R1 : (1 <= np_round D)%Z).
    { assert (0 < np_round D)%Z by (apply lt_IZR; lra). lia. }
    set (k := Z.to_nat (np_round D + 1)) in *.
    assert (Hk : (2 <= k)%nat) by (unfold k; lia).
    destruct (pspec_shape _ _ _ _ _ _ _ _ _ _ _ _ Ep) as [_ [P2 _]].
    assert (Ll : length (prof_bins prof) = k).
    { rewrite P2, centers_length, Ee, linspace_length. lia. }
    assert (Bn : forall b, (b < k)%nat -> nth b (prof_bins prof) 0 = 1 / 2 + (INR b + 1 / 2) * bin_ratio n).
    { intros b Hb. rewrite P2, centers_nth by (rewrite Ee, linspace_length; lia). rewrite Ee. rewrite !linspace_nth by lia.
      unfold bin_ratio. rewrite <- corner_value. fold D. replace (k + 1 - 1)%nat with k by lia. rewrite S_INR.
      replace (IZR (np_round D) + 1) with (INR k).
      - field. assert (0 < INR k) by (apply lt_0_INR; lia). lra.
      - unfold k. rewrite INR_IZR_INZ, Z2Nat.id by lia. now rewrite plus_IZR. }
    exists surface. eexists. split; [exact E1|]. split; [exact E2|]. intros xlow xhigh sel Hsel j i.
    assert (B0 := Bn 0%nat ltac:(lia)). assert (B1 := Bn 1%nat ltac:(lia)).
    destruct (prof_bins prof) as [|p0 [|p1 ps]] eqn:Epb; [cbn in Ll; lia|cbn in Ll; lia|]. cbn [nth] in B0, B1.
    unfold pixels_2D in Hsel. cbn [map] in Hsel. rewrite Hy, Hx in Hsel.
    destruct (Nat.eqb _ _) in Hsel; [discriminate|]. injection Hsel as <-. rewrite filter_In, in_pixels.
    assert (DF : p1 * Rabs d - p0 * Rabs d = bin_ratio n * Rabs d) by (rewrite B0, B1; cbn [INR]; ring). rewrite DF.
    cbn [fst snd].
    replace (match s_azim_mask o' with Some _ => true | None => true end) with true by (destruct (s_azim_mask o'); reflexivity).
    rewrite andb_true_r, andb_true_iff. rewrite Hlags.
    assert (EQ : (j < n)%nat -> (i < n)%nat -> dists n n (n - 1 - j) i * (bin_ratio n * Rabs d) = bin_ratio n * lag_length (uniform_lags d n) j i).
    { intros A B. rewrite dists_flip, lag_length_dists by assumption. ring. }
    split.
    - intros [[A B] [C1 C2]]. rewrite EQ in C1, C2 by assumption.
      destruct (Rltb_spec xlow (bin_ratio n * lag_length (uniform_lags d n) j i)) as [L|L]; [|discriminate].
      destruct (Rleb_spec (bin_ratio n * lag_length (uniform_lags d n) j i) xhigh) as [L'|L']; [|discriminate]. auto.
    - intros [A [B [C1 C2]]]. split; [auto|]. rewrite EQ by assumption. split.
      + destruct (Rltb_spec xlow (bin_ratio n * lag_length (uniform_lags d n) j i)); [reflexivity|contradiction].
      + destruct (Rleb_spec (bin_ratio n * lag_length (uniform_lags d n) j i) xhigh); [reflexivity|contradiction].
  Qed.
End Limits2D.

(** ** Five lags *)
Definition five : list R := [-2; -1; 0; 1; 2].
Lemma five_uniform : five = uniform_lags 1 5.
Proof. unfold five, uniform_lags. cbn [tab1 seq map]. replace (5 / 2)%nat with 2%nat by reflexivity. repeat (apply f_equal2; [cbn [INR]; ring|]). reflexivity. Qed.
Lemma ratio5 : bin_ratio 5 = (sqrt 8 - 1 / 2) / 4.
Proof.
  unfold bin_ratio. rewrite <- corner_value, corner5. replace (sqrt 8) with (sqrt 8 / 1) at 2 by field. rewrite round_sqrt8. f_equal. lra.
Qed.
Definition kw_theta (t dt : R) : spec_kwargs := mk_kw None 1 None None (Some (Some t)) (Some dt).

Definition h5 : R := (sqrt 8 - 1 / 2) / 4.
Lemma h5_range : 58 / 100 < h5 < 583 / 1000.
Proof. unfold h5. pose proof sqrt8. lra. Qed.
Definition lags5 : list R := map (fun l => l * Rabs (-1 - -2)) [1 / 2 + h5 / 2; 1 / 2 + 3 * h5 / 2; 1 / 2 + 5 * h5 / 2; 1 / 2 + 7 * h5 / 2].

Lemma bins5 tppf surface theta_0 delta_theta prof : pspec tppf surface None true 1 false None None false theta_0 delta_theta nanmean = Ok prof ->
  prof_edges prof = linspace (1 / 2) (sqrt 8) 5 -> prof_bins prof = [1 / 2 + h5 / 2; 1 / 2 + 3 * h5 / 2; 1 / 2 + 5 * h5 / 2; 1 / 2 + 7 * h5 / 2].
Proof.
  intros E Ee. destruct (pspec_shape _ _ _ _ _ _ _ _ _ _ _ _ E) as [_ [P2 _]].
  assert (Ll : length (prof_bins prof) = 4%nat) by (rewrite P2, centers_length, Ee, linspace_length; reflexivity).
  assert (B : forall b, (b < 4)%nat -> nth b (prof_bins prof) 0 = 1 / 2 + (INR b + 1 / 2) * h5).
  { intros b Hb. rewrite P2, centers_nth by (rewrite Ee, linspace_length; lia). rewrite Ee. rewrite !linspace_nth by lia.
    replace (5 - 1)%nat with 4%nat by reflexivity. rewrite (S_INR b). unfold h5. cbn [INR]. field. }
  destruct (prof_bins prof) as [|a [|b [|c [|e [|z l]]]]]; cbn in Ll; try lia.
  pose proof (B 0%nat ltac:(lia)) as B0. pose proof (B 1%nat ltac:(lia)) as B1. pose proof (B 2%nat ltac:(lia)) as B2. pose proof (B 3%nat ltac:(lia)) as B3.
  cbn [nth INR] in B0, B1, B2, B3. repeat (apply f_equal2; [lra|]). reflexivity.
Qed.

Lemma spectrum5 tppf o surface kw : s_roll_lags o = five -> s_surface o = Some surface -> square_array 5 surface ->
  kw = no_kwargs \/ (exists t dt, kw = kw_theta t dt) ->
  exists o', do_spectrum tppf o kw = Ok o' /\ s_lags o' = Some lags5 /\ s_surface o' = Some surface /\ s_roll_lags o' = five /\
    s_azim_mask o' = match k_theta_0 kw, k_delta_theta kw with Some (Some t), Some dt => Some (azim_mask 5 5 t dt) | _, _ => s_azim_mask o end.
Proof.
  intros HL HS Sq Hkw.
  destruct Hkw as [->|[t [dt ->]]].
  - destruct (pspec5 tppf surface None None Sq I) as [prof [Ep [Ee Em]]].
    eexists. split.
    { unfold do_spectrum. rewrite HS. cbn [bind]. rewrite HS. cbn [k_nbins k_binsize k_max_bin k_min_bin k_theta_0 k_delta_theta no_kwargs].
      rewrite Ep. cbn [bind]. rewrite HL. unfold five. rewrite (bins5 _ _ _ _ _ Ep Ee). reflexivity. }
    cbn [s_lags s_surface s_roll_lags s_azim_mask k_theta_0 no_kwargs]. auto.
  - destruct (pspec5 tppf surface (Some t) (Some dt) Sq ltac:(discriminate)) as [prof [Ep [Ee Em]]].
    eexists. split.
    { unfold do_spectrum. rewrite HS. cbn [bind]. rewrite HS. cbn [k_nbins k_binsize k_max_bin k_min_bin k_theta_0 k_delta_theta kw_theta].
      rewrite Ep. cbn [bind]. rewrite Em. cbn [bind]. rewrite HL. unfold five. rewrite (bins5 _ _ _ _ _ Ep Ee). reflexivity. }
    cbn [s_lags s_surface s_roll_lags s_azim_mask k_theta_0 k_delta_theta kw_theta]. auto.
Qed.

Lemma d5 j i q : (radial_y 5 j * radial_y 5 j + radial_x 5 i * radial_x 5 i = q) -> dists 5 5 j i = sqrt q.
Proof. intros <-. reflexivity. Qed.
Ltac rad5 := unfold radial_y, radial_x; replace (5 / 2)%nat with 2%nat by reflexivity; cbn [INR]; lra.

Definition chosen (o : scf_obj) (lags : list R) (xlow xhigh : option R) (use : bool) (ny nx : nat) (diff : R) (j i : nat) : Prop :=
  (j < ny)%nat /\ (i < nx)%nat /\
  match xlow with Some r => r | None => rmin_abs lags end < dists ny nx (ny - 1 - j) i * diff <= match xhigh with Some r => r | None => rmax_abs lags end /\
  match s_azim_mask o with Some m => if use then m j i else true | None => true end = true.
Lemma pixels_general o surface lags l0 l1 ls xlow xhigh use : lags = l0 :: l1 :: ls ->
  (forall sel, pixels_2D o surface lags xlow xhigh use = Ok sel -> forall j i, In (j, i) sel <-> chosen o lags xlow xhigh use (length surface) (length (hd [] surface)) (l1 - l0) j i) /\
  (forall j i, chosen o lags xlow xhigh use (length surface) (length (hd [] surface)) (l1 - l0) j i -> exists sel, pixels_2D o surface lags xlow xhigh use = Ok sel).
Proof.
  intros E.
  set (lo := match xlow with Some r => r | None => rmin_abs lags end). set (hi := match xhigh with Some r => r | None => rmax_abs lags end).
  set (ny := length surface). set (nx := length (hd [] surface)).
  set (keep := fun p : nat * nat => Rltb lo (dists ny nx (ny - 1 - fst p) (snd p) * (l1 - l0)) && Rleb (dists ny nx (ny - 1 - fst p) (snd p) * (l1 - l0)) hi &&
    match s_azim_mask o with Some m => if use then m (fst p) (snd p) else true | None => true end).
  assert (P : pixels_2D o surface lags xlow xhigh use = if Nat.eqb (length (filter keep (pixels ny nx))) 0 then Err ValueError else Ok (filter keep (pixels ny nx))).
  { unfold pixels_2D, keep, lo, hi, ny, nx. rewrite E. reflexivity. }
  assert (K : forall j i, In (j, i) (filter keep (pixels ny nx)) <-> chosen o lags xlow xhigh use ny nx (l1 - l0) j i).
  { intros j i. rewrite filter_In, in_pixels. unfold keep, chosen. cbn [fst snd]. fold lo hi. rewrite !andb_true_iff.
    destruct (Rltb_spec lo (dists ny nx (ny - 1 - j) i * (l1 - l0))); destruct (Rleb_spec (dists ny nx (ny - 1 - j) i * (l1 - l0)) hi); split.
    all: try (intros [[A B] [[C D] F]]; try discriminate; tauto).
    all: intros [A [B [[C D] F]]]; try contradiction; tauto. }
  rewrite P. split.
  - intros sel. destruct (Nat.eqb _ _); [discriminate|]. intros [= <-]. exact K.
  - intros j i C. apply K in C. destruct (Nat.eqb_spec (length (filter keep (pixels ny nx))) 0) as [Z|Z]; [|eauto].
    apply length_zero_iff_nil in Z. rewrite Z in C. destruct C.
Qed.
Lemma lags5_diff : exists l0 l1 ls, lags5 = l0 :: l1 :: ls /\ l1 - l0 = h5.
Proof.
  exists ((1 / 2 + h5 / 2) * Rabs (-1 - -2)), ((1 / 2 + 3 * h5 / 2) * Rabs (-1 - -2)). eexists. split; [reflexivity|].
  replace (Rabs (-1 - -2)) with 1 by (rewrite Rabs_right; lra). field.
Qed.
Lemma chosen5 (o : scf_obj) (xlow xhigh : option R) (use : bool) j i :
  chosen o lags5 xlow xhigh use 5 5 h5 j i <-> (j < 5)%nat /\ (i < 5)%nat /\
    match xlow with Some r => r | None => rmin_abs lags5 end < dists 5 5 j i * h5 <= match xhigh with Some r => r | None => rmax_abs lags5 end /\
    match s_azim_mask o with Some m => if use then m j i else true | None => true end = true.
Proof.
  unfold chosen. split; intros [A [B C]]; (split; [exact A|]); (split; [exact B|]); [rewrite dists_flip in C by (auto; reflexivity)|rewrite dists_flip by (auto; reflexivity)]; exact C.
Qed.
Lemma pixels5 o surface xlow xhigh use : square_array 5 surface -> forall sel, pixels_2D o surface lags5 xlow xhigh use = Ok sel ->
  forall j i, In (j, i) sel <-> (j < 5)%nat /\ (i < 5)%nat /\
    match xlow with Some r => r | None => rmin_abs lags5 end < dists 5 5 j i * h5 <= match xhigh with Some r => r | None => rmax_abs lags5 end /\
    match s_azim_mask o with Some m => if use then m j i else true | None => true end = true.
Proof.
  intros Sq sel Hsel j i. destruct (square_hd 5 surface Sq) as [Hy Hx]. specialize (Hx ltac:(lia)).
  destruct lags5_diff as [l0 [l1 [ls [El Ed]]]]. destruct (pixels_general o surface lags5 l0 l1 ls xlow xhigh use El) as [G _].
  rewrite (G sel Hsel j i), Hy, Hx, Ed. apply chosen5.
Qed.
Lemma pixels5_ok (o : scf_obj) surface (xlow xhigh : option R) (use : bool) j i : square_array 5 surface -> (j < 5)%nat -> (i < 5)%nat ->
  match xlow with Some r => r | None => rmin_abs lags5 end < dists 5 5 j i * h5 <= match xhigh with Some r => r | None => rmax_abs lags5 end ->
  match s_azim_mask o with Some m => if use then m j i else true | None => true end = true ->
  exists sel, pixels_2D o surface lags5 xlow xhigh use = Ok sel /\ In (j, i) sel.
Proof.
  intros Sq Hj Hi C M. destruct (square_hd 5 surface Sq) as [Hy Hx]. specialize (Hx ltac:(lia)).
  destruct lags5_diff as [l0 [l1 [ls [El Ed]]]]. destruct (pixels_general o surface lags5 l0 l1 ls xlow xhigh use El) as [_ G].
  rewrite Hy, Hx, Ed in G. destruct (G j i) as [sel E]; [apply chosen5; auto|]. exists sel. split; [exact E|].
  apply (pixels5 o surface xlow xhigh use Sq sel E). auto.
Qed.

Theorem limits_2D_cex tppf o surface : s_roll_lags o = five -> s_surface o = Some surface -> square_array 5 surface ->
  exists o' lags sel, do_spectrum tppf o no_kwargs = Ok o' /\ s_lags o' = Some lags /\
    pixels_2D o' surface lags (Some (9 / 10)) (Some 2) false = Ok sel /\
    lag_length five 2 3 = 1 /\ ~ In (2, 3)%nat sel /\ lag_length five 2 4 = 2 /\ In (2, 4)%nat sel /\ 2 < lag_length five 0 0 /\ In (0, 0)%nat sel.
Proof.
  intros HL HS Sq. destruct (spectrum5 tppf o surface no_kwargs HL HS Sq (or_introl eq_refl)) as [o' [E1 [E2 [E3 [E4 E5]]]]].
  pose proof h5_range as H5. pose proof sqrt8 as H8.
  assert (D24 : dists 5 5 2 4 = 2) by (rewrite (d5 2 4 (2 * 2)) by rad5; apply sqrt_square; lra).
  assert (D23 : dists 5 5 2 3 = 1) by (rewrite (d5 2 3 1) by rad5; apply sqrt_1).
  destruct (pixels5_ok o' surface (Some (9 / 10)) (Some 2) false 2 4 Sq ltac:(lia) ltac:(lia)) as [sel [E I24]].
  { rewrite D24. lra. }
  { destruct (s_azim_mask o'); reflexivity. }
  exists o', lags5, sel. split; [exact E1|]. split; [exact E2|]. split; [exact E|].
  rewrite five_uniform, !lag_length_dists, D23, D24 by lia. replace (Rabs 1) with 1 by (rewrite Rabs_right; lra).
  split; [lra|]. split; [|split; [lra|split; [exact I24|split]]].
  - intros C. apply (pixels5 o' surface _ _ _ Sq sel E) in C. rewrite D23 in C. destruct C as [_ [_ [[C _] _]]]. lra.
  - rewrite corner5. lra.
  - apply (pixels5 o' surface _ _ _ Sq sel E). rewrite corner5. split; [lia|]. split; [lia|]. split; [|destruct (s_azim_mask o'); reflexivity]. nra.
Qed.

(** ** A mask left over from an earlier spectrum *)
Lemma rmin_lags5 : rmin_abs lags5 = 1 / 2 + h5 / 2.
Proof.
  pose proof h5_range. unfold rmin_abs, lags5. cbn [map rmin_list]. replace (Rabs (-1 - -2)) with 1 by (rewrite Rabs_right; lra).
  repeat (rewrite (Rabs_right (_ * 1)) by lra). rewrite (Rmin_left ((1 / 2 + 5 * h5 / 2) * 1)) by lra.
  rewrite (Rmin_left ((1 / 2 + 3 * h5 / 2) * 1)) by lra. rewrite Rmin_left by lra. lra.
Qed.
Lemma rmax_lags5 : rmax_abs lags5 = 1 / 2 + 7 * h5 / 2.
Proof.
  pose proof h5_range. unfold rmax_abs, lags5. cbn [map rmax_list]. replace (Rabs (-1 - -2)) with 1 by (rewrite Rabs_right; lra).
  repeat (rewrite (Rabs_right (_ * 1)) by lra). rewrite (Rmax_right ((1 / 2 + 5 * h5 / 2) * 1)) by lra.
  rewrite (Rmax_right ((1 / 2 + 3 * h5 / 2) * 1)) by lra. rewrite Rmax_right by lra. lra.
Qed.

Theorem stale_mask tppf o surface : s_roll_lags o = five -> s_surface o = Some surface -> square_array 5 surface -> s_azim_mask o = None ->
  exists o1 o2 o3 lags sel2 sel3,
    do_spectrum tppf o (kw_theta 0 (PI / 8)) = Ok o1 /\ do_spectrum tppf o1 no_kwargs = Ok o2 /\
    do_spectrum tppf o no_kwargs = Ok o3 /\ s_lags o2 = Some lags /\ s_lags o3 = Some lags /\
    pixels_2D o2 surface lags None None true = Ok sel2 /\ pixels_2D o3 surface lags None None true = Ok sel3 /\
    In (3, 3)%nat sel3 /\ ~ In (3, 3)%nat sel2.
Proof.
  intros HL HS Sq HM. destruct azim_block_cex as [T1 [T2 _]].
  destruct (spectrum5 tppf o surface (kw_theta 0 (PI / 8)) HL HS Sq) as [o1 [A1 [A2 [A3 [A4 A5]]]]]; [right; eauto|].
  destruct (spectrum5 tppf o1 surface no_kwargs A4 A3 Sq (or_introl eq_refl)) as [o2 [B1 [B2 [B3 [B4 B5]]]]].
  destruct (spectrum5 tppf o surface no_kwargs HL HS Sq (or_introl eq_refl)) as [o3 [C1 [C2 [C3 [C4 C5]]]]].
  cbn [k_theta_0 k_delta_theta no_kwargs kw_theta] in A5, B5, C5. rewrite A5 in B5. rewrite HM in C5.
  pose proof h5_range as H5. pose proof sqrt2 as H2.
  assert (D11 : dists 5 5 1 1 = sqrt 2) by (apply d5; rad5). assert (D33 : dists 5 5 3 3 = sqrt 2) by (apply d5; rad5).
  assert (RG : 1 / 2 + h5 / 2 < sqrt 2 * h5 <= 1 / 2 + 7 * h5 / 2) by nra.
  destruct (pixels5_ok o2 surface None None true 1 1 Sq ltac:(lia) ltac:(lia)) as [sel2 [E2 _]].
  { rewrite rmin_lags5, rmax_lags5, D11. exact RG. }
  { rewrite B5. exact T1. }
  destruct (pixels5_ok o3 surface None None true 3 3 Sq ltac:(lia) ltac:(lia)) as [sel3 [E3 I3]].
  { rewrite rmin_lags5, rmax_lags5, D33. exact RG. }
  { rewrite C5. reflexivity. }
  exists o1, o2, o3, lags5, sel2, sel3. repeat (split; [assumption|]).
  intros C. apply (pixels5 o2 surface _ _ _ Sq sel2 E2) in C. rewrite B5 in C. destruct C as [_ [_ [_ C]]]. rewrite T2 in C. discriminate.
Qed.

Lemma theta_none tppf o surface nb bs dt : s_surface o = Some surface -> surface <> [] -> hd [] surface <> [] ->
  do_spectrum tppf o (mk_kw nb bs None None (Some None) dt) = Err ValueError.
Proof.
  intros HS N1 N2. unfold do_spectrum. rewrite HS. cbn [bind]. rewrite HS. cbn [k_nbins k_binsize k_max_bin k_min_bin k_theta_0 k_delta_theta].
  destruct (pspec _ _ _ _ _ _ _ _ _ _ _ _) as [prof|e] eqn:E; cbn [bind].
  - destruct (pspec_shape _ _ _ _ _ _ _ _ _ _ _ _ E) as [_ [_ [P3 _]]]. rewrite (P3 eq_refl). reflexivity.
  - unfold pspec in E. cbv zeta in E. cbn [bind] in E. destruct (_ || _)%bool; [now injection E as <-|]. cbn [andb] in E. discriminate.
Qed.

(** ** The angle of the elliptical model and that of the mask *)
Lemma form_polar q theta r phi : form q theta (r * cos phi) (- (r * sin phi)) = ellipse_radius2 q r (phi - theta).
Proof. unfold form, ellipse_radius2. rewrite cos_minus, sin_minus. ring. Qed.
Lemma evaluate_polar A t theta gamma r phi : 0 < r ->
  evaluate (r * cos phi) (- (r * sin phi)) A (Fin t) theta gamma = Fin (A + gamma / 2 * log10 (ellipse_radius2 (q_of t) r (phi - theta))).
Proof.
  intros Hr. rewrite (evaluate_q _ _ _ _ (q_of t)) by apply ellip_of_Fin. rewrite form_polar.
  pose proof (q_range t) as Q.
  assert (P : 0 < ellipse_radius2 (q_of t) r (phi - theta)).
  { unfold ellipse_radius2. pose proof (sin2_cos2 (phi - theta)) as T. unfold Rsqr in T. apply Rmult_lt_0_compat; [apply pow_lt; exact Hr|].
    set (s := sin (phi - theta)) in *. set (c := cos (phi - theta)) in *.
    destruct (Req_dec s 0) as [E|E]; [rewrite E in *; assert (C : c * c = 1) by lra; replace (q_of t ^ 2 * c ^ 2 + 0 ^ 2) with (q_of t ^ 2 * (c * c)) by ring; rewrite C, Rmult_1_r; apply pow_lt; lra|].
    assert (0 < s ^ 2) by (rewrite <- Rsqr_pow2; now apply Rsqr_pos_lt). assert (0 <= q_of t ^ 2 * c ^ 2) by (apply Rmult_le_pos; apply pow2_ge_0). lra. }
  destruct (Rltb_spec 0 (ellipse_radius2 (q_of t) r (phi - theta))); [|contradiction]. f_equal. field.
Qed.
Lemma angle_scf n i j A t theta gamma r phi : Nat.odd n = true -> (i < n)%nat -> (j < n)%nat -> 0 < r ->
  radial_x n j = r * cos phi -> radial_y n i = r * sin phi ->
  evaluate (radial_x n j) (radial_y n (n - 1 - i)) A (Fin t) theta gamma = Fin (A + gamma / 2 * log10 (ellipse_radius2 (q_of t) r (phi - theta))).
Proof.
  intros O Hi Hj Hr Ex Ey. rewrite radial_y_rev by assumption. rewrite Ex, Ey. now apply evaluate_polar.
Qed.
Lemma angle_pspec n i j A t theta gamma r phi : Nat.odd n = true -> (i < n)%nat -> (j < n)%nat -> 0 < r ->
  radial_x n j = r * cos phi -> radial_y n i = r * sin phi ->
  evaluate (at2 0 (xx_freq n n) i j) (at2 0 (yy_freq n n) i j) A (Fin t) theta gamma =
  Fin (A + gamma / 2 * log10 (ellipse_radius2 (q_of t) (r / INR n) (phi - theta))).
Proof.
  intros O Hi Hj Hr Ex Ey. destruct (mask_angle_mirrored n n i j O O Hi Hj) as [M1 M2].
  assert (P : 0 < INR n) by (apply lt_0_INR; lia).
  replace (at2 0 (xx_freq n n) i j) with (r / INR n * cos phi).
  2: { apply (Rmult_eq_reg_l (INR n)); [|lra]. rewrite <- M2, Ex. field. lra. }
  replace (at2 0 (yy_freq n n) i j) with (- (r / INR n * sin phi)).
  2: { apply (Rmult_eq_reg_l (INR n)); [|lra]. replace (INR n * at2 0 (yy_freq n n) i j) with (- radial_y n i) by lra. rewrite Ey. field. lra. }
  apply evaluate_polar. now apply Rdiv_lt_0_compat.
Qed.
(** with a rectangular image, or an even number of rows, the angles differ *)
Lemma angle_rect : exists i j, (i < 3)%nat /\ (j < 9)%nat /\ radial_y 3 i = radial_x 9 j /\ 0 < radial_x 9 j /\
  at2 0 (yy_freq 3 9) i j <> - at2 0 (xx_freq 3 9) i j /\ at2 0 (xx_freq 3 9) i j <> 0.
Proof.
  exists 2%nat, 5%nat. destruct (mask_angle_mirrored 3 9 2 5 eq_refl eq_refl ltac:(lia) ltac:(lia)) as [M1 M2].
  unfold radial_y, radial_x in *. replace (3 / 2)%nat with 1%nat in * by reflexivity. replace (9 / 2)%nat with 4%nat in * by reflexivity. cbn [INR] in *.
  split; [lia|]. split; [lia|]. split; [ring|]. split; [lra|]. split; [intros C; rewrite C in M1; lra|]. intros C. rewrite C in M2. lra.
Qed.
Lemma angle_even : exists i j, (i < 4)%nat /\ (j < 4)%nat /\ radial_y 4 i = 0 /\ 0 < radial_x 4 j /\
  radial_y 4 (4 - 1 - i) = - radial_x 4 j /\ at2 0 (yy_freq 4 4) i j = - at2 0 (xx_freq 4 4) i j /\ 0 < at2 0 (xx_freq 4 4) i j.
Proof.
  exists 2%nat, 3%nat. rewrite yy_freq_at, xx_freq_at by lia. unfold radial_y, radial_x, fftfreq, unshift.
  replace (4 / 2)%nat with 2%nat by reflexivity. repeat (split; [first [lia | cbn; lra]|]). cbn. lra.
Qed.

(** The points handed to the solver: column and row distance from the centre, rows counted upwards. *)
Lemma fit2D_points solve perms o p0 xlow xhigh lm bs az lags surface n : s_lags o = Some lags -> s_surface o = Some surface -> square_array n surface -> Nat.odd n = true ->
  forall o', do_fit2D solve perms o p0 xlow xhigh lm bs az = Ok o' ->
  exists sel start r f, pixels_2D o surface lags xlow xhigh az = Ok sel /\
    (p0 = Some start \/ (p0 = None /\ exists a b, s_fit o = Some (a, b) /\ start = mkParams (fl_real a) (Fin 0) (PI / 2) (fl_real b)) \/
     (p0 = None /\ s_fit o = None /\ start = mkParams 1 (Fin 0) (PI / 2) (- (2 / 10)))) /\
    (let xs := map (fun p => INR (snd p) - INR (n / 2)) sel in
     let ys := map (fun p => INR (n / 2) - INR (fst p)) sel in
     fit_elliptical_powerlaw (solve xs ys) perms (map (fun p => flog10 (nth (snd p) (nth (fst p) surface []) NaN)) sel) xs ys start lm bs (6827 / 10000) false false = Ok r) /\
    store_2D r = Ok f /\ s_fit2D o' = Some f.
Proof.
  intros EL ES [L1 L2] O o' H. unfold do_fit2D in H. rewrite EL, ES in H. destruct (pixels_2D o surface lags xlow xhigh az) as [sel|e] eqn:EP; [|discriminate]. cbn [bind] in H.
  assert (NX : length (hd [] surface) = n).
  { destruct surface as [|r s]; [cbn in *; now subst n|]. apply L2. now left. }
  rewrite L1, NX in H.
  assert (IN : forall p, In p sel -> (fst p < n)%nat /\ (snd p < n)%nat).
  { unfold pixels_2D in EP. destruct lags as [|l0 [|l1 rest]]; try discriminate. destruct (Nat.eqb _ 0); [discriminate|]. injection EP as <-. intros [i j] Hp. apply filter_In in Hp. destruct Hp as [Hp _].
    rewrite L1, NX in Hp. unfold pixels in Hp. apply in_prod_iff in Hp. rewrite !in_seq in Hp. cbn [fst snd]. lia. }
  assert (EY : map (fun p => radial_y n (n - 1 - fst p)) sel = map (fun p => INR (n / 2) - INR (fst p)) sel).
  { apply map_ext_in. intros p Hp. destruct (IN p Hp). rewrite radial_y_rev by assumption. unfold radial_y. ring. }
  rewrite EY in H. unfold radial_x in H.
  match type of H with context [fit_elliptical_powerlaw ?s ?p ?v ?x ?y ?st ?a ?b ?c ?d ?e] => destruct (fit_elliptical_powerlaw s p v x y st a b c d e) as [r|x0] eqn:EF end; [|discriminate]. cbn [bind] in H.
  destruct (store_2D r) as [f|x0] eqn:EST; [|discriminate]. cbn [bind] in H. injection H as <-.
  eexists sel, _, r, f. split; [reflexivity|]. split; [|split; [exact EF|split; [exact EST|reflexivity]]].
  destruct p0 as [p|]; [now left|]. right. destruct (s_fit o) as [[a b]|]; [left; split; [reflexivity|]; now exists a, b|now right].
Qed.

(** The limits of a run *)
Lemma run_limits tppf wls solve perms o a o' : do_run tppf wls solve perms o a = Ok o' -> a_fit_2D a = true ->
  exists o0 o1 low high, do_fit wls o0 (a_xlow a) (a_xhigh a) = Ok o1 /\
    do_fit2D solve perms o1 (a_p0 a) low high (a_levmarq a) (a_bootstrap a) (a_use_azimmask a) = Ok o' /\
    (forall r, low = Some r <-> a_xlow a = Limit r) /\ (forall r, high = Some r <-> a_xhigh a = Limit r).
Proof.
  unfold do_run. destruct (do_surface o (a_boundary a)) as [s|]; cbn [bind]; [|discriminate]. destruct (do_spectrum tppf s (a_spec a)) as [o0|]; cbn [bind]; [|discriminate].
  destruct (do_fit wls o0 (a_xlow a) (a_xhigh a)) as [o1|] eqn:E; cbn [bind]; [|discriminate]. intros H F. rewrite F in H.
  exists o0, o1, (lim (a_xlow a)), (lim (a_xhigh a)). split; [exact E|]. split; [exact H|].
  assert (L : forall l r, lim l = Some r <-> l = Limit r) by (intros [|x|] r; cbn; split; congruence). split; intros r; apply L.
Qed.
