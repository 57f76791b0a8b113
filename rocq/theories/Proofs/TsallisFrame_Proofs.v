(** Proofs for C316: Tsallis statistics of images with blank surroundings. *)
From Coq Require Import Reals List Bool ZArith Arith Lra Lia Permutation FinFun.
From Verif Require Import Lib.PyBase Lib.RSum Lib.Fl Lib.Arr Lib.Hist Spec.Blank Spec.Lag Spec.Correlation Spec.ScfFrame Spec.TsallisFrame Model.Units Model.Tsallis Model.TsallisRun
  Proofs.Fl_Proofs Proofs.Tsallis_Proofs Proofs.Tsallis2_Proofs Proofs.Tsallis3_Proofs Proofs.TsallisRun_Proofs Proofs.ScfFrame_Proofs Proofs.TurnedTsallis_Proofs.
From Verif Require Proofs.Orders_Proofs Proofs.TurnedMoments_Proofs.
Import ListNotations.
Local Open Scope R_scope.

Lemma blanks_shape n0 n1 N0 N1 o0 o1 img : shape N0 N1 (in_blanks n0 n1 N0 N1 o0 o1 img).
Proof. apply tab2_shape. Qed.

Lemma wide_abs p n N o lag k : wide_enough p n N o lag -> (Z.abs k <= Z.of_nat lag)%Z -> (o + n <= N)%nat /\ (Z.abs k <= Z.of_nat (N - n))%Z.
Proof. unfold wide_enough. destruct p; lia. Qed.

Section Frame.
  Variables (p : bool) (n0 n1 N0 N1 o0 o1 lag : nat) (img : list (list fl)).
  Hypothesis L : (1 <= lag)%nat.
  Hypothesis W0 : wide_enough p n0 N0 o0 lag.
  Hypothesis W1 : wide_enough p n1 N1 o1 lag.
  Let big := in_blanks n0 n1 N0 N1 o0 o1 img.

  Lemma big_px i j : (i < N0)%nat -> (j < N1)%nat -> px big i j = if inbox n0 o0 i && inbox n1 o1 j then px img (i - o0) (j - o1) else NaN.
  Proof. intros Hi Hj. unfold big, in_blanks. now rewrite tab2_px. Qed.

  Lemma big_seen y x k0 k1 : (y < n0)%nat -> (x < n1)%nat -> (Z.abs k0 <= Z.of_nat lag)%Z -> (Z.abs k1 <= Z.of_nat lag)%Z ->
    Lag.seen p N0 N1 big (Z.of_nat (o0 + y) - k0) (Z.of_nat (o1 + x) - k1) =
    if has_partner n0 k0 y && has_partner n1 k1 x then px img (Z.to_nat (Z.of_nat y - k0)) (Z.to_nat (Z.of_nat x - k1)) else NaN.
  Proof.
    intros Hy Hx H0 H1. destruct (wide_abs _ _ _ _ _ _ W0 H0) as [A0 B0]. destruct (wide_abs _ _ _ _ _ _ W1 H1) as [A1 B1].
    assert (E : Lag.seen p N0 N1 big (Z.of_nat (o0 + y) - k0) (Z.of_nat (o1 + x) - k1) = px big (partner N0 k0 (o0 + y)) (partner N1 k1 (o1 + x))).
    { destruct p.
      - rewrite seen_periodic by lia. reflexivity.
      - unfold wide_enough in W0, W1. unfold Lag.seen, partner. rewrite !Z.mod_small by lia.
        replace ((0 <=? Z.of_nat (o0 + y) - k0) && (Z.of_nat (o0 + y) - k0 <? Z.of_nat N0) && (0 <=? Z.of_nat (o1 + x) - k1) && (Z.of_nat (o1 + x) - k1 <? Z.of_nat N1))%Z with true; [reflexivity|].
        symmetry. rewrite !andb_true_iff, !Z.leb_le, !Z.ltb_lt. lia. }
    rewrite E, big_px by (apply partner_lt; lia).
    destruct (axis_partner n0 N0 o0 k0 y A0 B0 Hy) as [E0 F0]. destruct (axis_partner n1 N1 o1 k1 x A1 B1 Hx) as [E1 F1]. rewrite E0, E1.
    destruct (has_partner n0 k0 y) eqn:P0; [|reflexivity]. destruct (has_partner n1 k1 x) eqn:P1; [|reflexivity]. cbn [andb].
    rewrite F0, F1 by reflexivity. unfold has_partner in P0, P1. rewrite andb_true_iff, Z.leb_le, Z.ltb_lt in P0, P1.
    unfold partner. rewrite !Z.mod_small by lia. f_equal; lia.
  Qed.
  Lemma partner_none n x : has_partner n 0 x = (x <? n).
  Proof. unfold has_partner. apply eq_true_iff_eq. rewrite andb_true_iff, Z.leb_le, Z.ltb_lt, Nat.ltb_lt. lia. Qed.

  Lemma combo_v a b c d : combo a b c d NaN = NaN.
  Proof. unfold combo, fsub. cbn [fneg]. destruct (fdiv _ _); reflexivity. Qed.
  Lemma fadd_nan a : fadd a NaN = NaN.
  Proof. destruct a; reflexivity. Qed.
  Lemma combo_nan a b c d v : a = NaN \/ b = NaN \/ c = NaN \/ d = NaN -> combo a b c d v = NaN.
  Proof. unfold combo. intros [->|[->|[->| ->]]]; rewrite ?fadd_nan; reflexivity. Qed.

  Let inner (q : nat * nat) := inbox (n0 - 2 * lag) (o0 + lag) (fst q) && inbox (n1 - 2 * lag) (o1 + lag) (snd q).
  Lemma inner_value i j : (lag <= i < n0 - lag)%nat -> (lag <= j < n1 - lag)%nat ->
    px (lag_difference p N1 big lag) (o0 + i) (o1 + j) = difference_at img lag i j.
  Proof.
    intros Hi Hj. destruct W0 as [A0 _]. destruct W1 as [A1 _]. rewrite (difference_px p N0) by (try apply blanks_shape; try assumption; lia).
    cbv zeta. unfold four. cbv zeta. cbn [map nth fst snd].
    assert (Hl : forall n k y, (k = Z.of_nat lag \/ k = - Z.of_nat lag)%Z -> (lag <= y < n - lag)%nat -> has_partner n k y = true).
    { intros n k y Hk Hy. unfold has_partner. rewrite andb_true_iff, Z.leb_le, Z.ltb_lt. lia. }
    assert (H0 : forall n y, (y < n)%nat -> has_partner n 0 y = true) by (intros n y Hy; rewrite partner_none; now apply Nat.ltb_lt).
    assert (E1 := big_seen i j (Z.of_nat lag) 0 ltac:(lia) ltac:(lia) ltac:(lia) ltac:(lia)).
    assert (E2 := big_seen i j (- Z.of_nat lag) 0 ltac:(lia) ltac:(lia) ltac:(lia) ltac:(lia)).
    assert (E3 := big_seen i j 0 (Z.of_nat lag) ltac:(lia) ltac:(lia) ltac:(lia) ltac:(lia)).
    assert (E4 := big_seen i j 0 (- Z.of_nat lag) ltac:(lia) ltac:(lia) ltac:(lia) ltac:(lia)).
    rewrite !Z.sub_0_r in E1, E2, E3, E4. rewrite !Z.sub_opp_r in E2, E4.
    rewrite Hl, H0 in E1 by lia. rewrite Hl, H0 in E2 by lia. rewrite H0, Hl in E3 by lia. rewrite H0, Hl in E4 by lia. cbn [andb] in E1, E2, E3, E4.
    rewrite E1, E2, E3, E4, big_px by lia. replace (inbox n0 o0 (o0 + i) && inbox n1 o1 (o1 + j)) with true by (symmetry; rewrite andb_true_iff, !inbox_spec; lia).
    unfold combo, difference_at. replace (o0 + i - o0)%nat with i by lia. replace (o1 + j - o1)%nat with j by lia. rewrite !Nat2Z.id.
    replace (Z.to_nat (Z.of_nat i - Z.of_nat lag)) with (i - lag)%nat by lia. replace (Z.to_nat (Z.of_nat i + Z.of_nat lag)) with (i + lag)%nat by lia.
    replace (Z.to_nat (Z.of_nat j - Z.of_nat lag)) with (j - lag)%nat by lia. replace (Z.to_nat (Z.of_nat j + Z.of_nat lag)) with (j + lag)%nat by lia. reflexivity.
  Qed.
  Lemma outer_value i j : (i < N0)%nat -> (j < N1)%nat -> inner (i, j) = false -> px (lag_difference p N1 big lag) i j = NaN.
  Proof.
    intros Hi Hj H. rewrite (difference_px p N0) by (try apply blanks_shape; assumption). cbv zeta. unfold four. cbv zeta. cbn [map nth fst snd].
    rewrite big_px by assumption. destruct (inbox n0 o0 i && inbox n1 o1 j) eqn:B; [|apply combo_v].
    apply combo_nan. apply andb_true_iff in B. destruct B as [B0 B1]. apply inbox_spec in B0, B1.
    assert (E1 := big_seen (i - o0) (j - o1) (Z.of_nat lag) 0 ltac:(lia) ltac:(lia) ltac:(lia) ltac:(lia)).
    assert (E2 := big_seen (i - o0) (j - o1) (- Z.of_nat lag) 0 ltac:(lia) ltac:(lia) ltac:(lia) ltac:(lia)).
    assert (E3 := big_seen (i - o0) (j - o1) 0 (Z.of_nat lag) ltac:(lia) ltac:(lia) ltac:(lia) ltac:(lia)).
    assert (E4 := big_seen (i - o0) (j - o1) 0 (- Z.of_nat lag) ltac:(lia) ltac:(lia) ltac:(lia) ltac:(lia)).
    rewrite !Z.sub_0_r in E1, E2, E3, E4. rewrite !Z.sub_opp_r in E2, E4. replace (o0 + (i - o0))%nat with i in * by lia. replace (o1 + (j - o1))%nat with j in * by lia.
    rewrite E1, E2, E3, E4. unfold inner in H. cbn [fst snd] in H. apply not_true_iff_false in H. rewrite andb_true_iff, !inbox_spec in H.
    assert (K : (i - o0 < lag \/ n0 - lag <= i - o0 \/ j - o1 < lag \/ n1 - lag <= j - o1)%nat) by lia.
    assert (F : forall n k y, ~ (0 <= Z.of_nat y - k < Z.of_nat n)%Z -> has_partner n k y = false).
    { intros n k y Hk. apply not_true_iff_false. unfold has_partner. rewrite andb_true_iff, Z.leb_le, Z.ltb_lt. exact Hk. }
    destruct K as [K|[K|[K|K]]].
    - left. now rewrite (F n0 (Z.of_nat lag)) by lia.
    - right. left. now rewrite (F n0 (- Z.of_nat lag)%Z) by lia.
    - right. right. left. rewrite (F n1 (Z.of_nat lag)) by lia. now rewrite andb_false_r.
    - right. right. right. rewrite (F n1 (- Z.of_nat lag)%Z) by lia. now rewrite andb_false_r.
  Qed.

  Lemma nonnan_box {A} (f : A -> fl) (b : A -> bool) l : (forall a, In a l -> b a = false -> f a = NaN) -> nonnan (map f l) = nonnan (map f (filter b l)).
  Proof.
    induction l as [|a l IH]; intros H; [reflexivity|]. cbn [map filter]. assert (IH' := IH (fun q Hq => H q (or_intror Hq))).
    destruct (b a) eqn:Eb; cbn [map]; unfold nonnan in *; cbn [filter]; rewrite IH'; [reflexivity|]. rewrite (H a (or_introl eq_refl) Eb). reflexivity.
  Qed.
  Theorem frame_differences : Permutation (nonnan (concat (lag_difference p N1 (in_blanks n0 n1 N0 N1 o0 o1 img) lag))) (inner_differences n0 n1 img lag).
  Proof.
    fold big. rewrite (shape_tab N0 N1 (lag_difference p N1 big lag)) by (apply difference_shape; [apply blanks_shape|exact L]). rewrite concat_tab2.
    rewrite (nonnan_box _ inner) by (intros [i j] Hq Hb; apply in_prod_iff in Hq; rewrite !in_seq in Hq; cbn [fst snd]; destruct Hq as [[_ Hq0] [_ Hq1]]; cbn [Nat.add] in Hq0, Hq1; exact (outer_value i j Hq0 Hq1 Hb)).
    unfold inner_differences. apply TurnedMoments_Proofs.perm_filter.
    set (put := fun q : nat * nat => ((o0 + fst q)%nat, (o1 + snd q)%nat)).
    transitivity (map (fun yx => px (lag_difference p N1 big lag) (fst yx) (snd yx)) (map put (list_prod (seq lag (n0 - 2 * lag)) (seq lag (n1 - 2 * lag))))).
    - apply Permutation_map, NoDup_Permutation.
      + apply NoDup_filter, pixels_nodup.
      + apply Injective_map_NoDup; [|apply prod_nodup; apply seq_NoDup]. intros [a b] [c d]. unfold put. cbn [fst snd]. intros [= A B]. f_equal; lia.
      + destruct W0 as [A0 _]. destruct W1 as [A1 _]. intros [i j]. unfold inner. rewrite filter_In, in_map_iff, in_prod_iff, !in_seq, andb_true_iff. cbn [fst snd]. rewrite !inbox_spec. split.
        * intros H. exists ((i - o0)%nat, (j - o1)%nat). split; [unfold put; cbn [fst snd]; f_equal; lia|]. apply in_prod; apply in_seq; lia.
        * intros [[y x] [E H]]. unfold put in E. cbn [fst snd] in E. injection E as <- <-. apply in_prod_iff in H. rewrite !in_seq in H. lia.
    - rewrite map_map. apply Permutation_refl', map_ext_in. intros [y x] H. apply in_prod_iff in H. rewrite !in_seq in H. unfold put. cbn [fst snd]. apply inner_value; lia.
  Qed.
End Frame.

(** ** The distribution *)
Lemma nonnan_idem l : nonnan (nonnan l) = nonnan l.
Proof. unfold nonnan. induction l as [|a l IH]; [reflexivity|]. cbn [filter]. destruct (is_nan a) eqn:E; cbn [negb]; [exact IH|]. cbn [filter]. rewrite E. cbn [negb]. now rewrite IH. Qed.
Lemma nonnan_map f l : f NaN = NaN -> nonnan (map f l) = nonnan (map f (nonnan l)).
Proof.
  intros H. unfold nonnan. induction l as [|a l IH]; [reflexivity|]. cbn [map filter]. destruct (is_nan a) eqn:E; cbn [negb].
  - destruct a; try discriminate. rewrite H. exact IH.
  - cbn [map filter]. now rewrite IH.
Qed.
Lemma nanmean_of l l' : nonnan l = nonnan l' -> nanmean l = nanmean l'.
Proof. intros H. unfold nanmean, nansum, nancount. now rewrite H. Qed.
Lemma nanmean_seen l : nanmean l = nanmean (nonnan l).
Proof. apply nanmean_of. symmetry. apply nonnan_idem. Qed.
Lemma nanstd_seen l : nanstd l = nanstd (nonnan l).
Proof.
  unfold nanstd. rewrite <- (nanmean_seen l). f_equal. apply nanmean_of.
  apply nonnan_map. reflexivity.
Qed.
Definition same_dist (r' r : result (list (list fl) * (list R * list fl))) : Prop :=
  match r', r with Ok a', Ok a => snd a' = snd a | Err e', Err e => e' = e | _, _ => False end.
Lemma concat_maps {A B} (f : A -> B) l : concat (map (map f) l) = map f (concat l).
Proof. induction l as [|a l IH]; [reflexivity|]. cbn. now rewrite map_app, IH. Qed.
Lemma distribution_same nb a' a : Permutation (nonnan (concat a')) (nonnan (concat a)) -> same_dist (distribution nb a') (distribution nb a).
Proof.
  intros H. unfold distribution, standardize2. cbv zeta. rewrite !concat_maps.
  rewrite (nanmean_seen (concat a')), (nanstd_seen (concat a')), (Orders_Proofs.nanmean_perm _ _ H), (nanstd_perm _ _ H), <- nanmean_seen, <- nanstd_seen.
  set (m := nanmean (concat a)). set (sd := nanstd (concat a)).
  assert (Q : Permutation (nonnan (map (fun v => fdiv (fsub v m) sd) (concat a'))) (nonnan (map (fun v => fdiv (fsub v m) sd) (concat a)))).
  { rewrite (nonnan_map _ (concat a')), (nonnan_map _ (concat a)) by reflexivity. apply TurnedMoments_Proofs.perm_filter, Permutation_map, H. }
  unfold nonnan in Q. rewrite (counts_edges_perm _ _ nb Q).
  destruct (counts_edges _ nb) as [[h e]|e]; cbn [bind same_dist snd]; reflexivity.
Qed.
Lemma bins_nonnan img img' : filter is_fin (concat img) = filter is_fin (concat img') \/ Permutation (filter is_fin (concat img)) (filter is_fin (concat img')) -> default_bins img = default_bins img'.
Proof. intros H. unfold default_bins. cbv zeta. assert (E : length (filter is_fin (concat img)) = length (filter is_fin (concat img'))) by (destruct H as [->|H]; [reflexivity|now apply Permutation_length]). now rewrite E. Qed.
Lemma bins_blanks n0 n1 N0 N1 o0 o1 img : shape n0 n1 img -> (o0 + n0 <= N0)%nat -> (o1 + n1 <= N1)%nat ->
  default_bins (in_blanks n0 n1 N0 N1 o0 o1 img) = default_bins img.
Proof.
  intros S H0 H1. apply bins_nonnan. right. rewrite (shape_tab n0 n1 img S) at 2. unfold in_blanks. rewrite !concat_tab2.
  set (F := fun yx : nat * nat => if inbox n0 o0 (fst yx) && inbox n1 o1 (snd yx) then px img (fst yx - o0) (snd yx - o1) else NaN).
  set (put := fun q : nat * nat => ((o0 + fst q)%nat, (o1 + snd q)%nat)).
  assert (E : forall l, filter is_fin (map F l) = filter is_fin (map F (filter (fun q => inbox n0 o0 (fst q) && inbox n1 o1 (snd q)) l))).
  { induction l as [|q l IH]; [reflexivity|]. cbn [map filter]. unfold F at 1 2. destruct (inbox n0 o0 (fst q) && inbox n1 o1 (snd q)) eqn:B.
    - cbn [map filter]. unfold F at 3 4. rewrite B. destruct (is_fin _); now rewrite IH.
    - cbn [is_fin]. exact IH. }
  change (Permutation (filter is_fin (map F (list_prod (seq 0 N0) (seq 0 N1)))) (filter is_fin (map (fun yx => px img (fst yx) (snd yx)) (list_prod (seq 0 n0) (seq 0 n1))))).
  rewrite E. apply TurnedMoments_Proofs.perm_filter. transitivity (map F (map put (list_prod (seq 0 n0) (seq 0 n1)))).
  - apply Permutation_map, NoDup_Permutation.
    + apply NoDup_filter, pixels_nodup.
    + apply Injective_map_NoDup; [|apply pixels_nodup]. intros [a b] [c d]. unfold put. cbn [fst snd]. intros [= A B]. f_equal; lia.
    + intros [i j]. rewrite filter_In, in_map_iff, in_prod_iff, !in_seq, andb_true_iff. cbn [fst snd]. rewrite !inbox_spec. split.
      * intros H. exists ((i - o0)%nat, (j - o1)%nat). split; [unfold put; cbn [fst snd]; f_equal; lia|]. apply in_prod; apply in_seq; lia.
      * intros [[y x] [G H]]. unfold put in G. cbn [fst snd] in G. injection G as <- <-. apply in_prod_iff in H. rewrite !in_seq in H. lia.
  - rewrite map_map. apply Permutation_refl', map_ext_in. intros [y x] H. apply in_prod_iff in H. rewrite !in_seq in H. unfold put, F. cbn [fst snd].
    replace (inbox n0 o0 (o0 + y) && inbox n1 o1 (o1 + x)) with true by (symmetry; rewrite andb_true_iff, !inbox_spec; lia). f_equal; lia.
Qed.

(** ** One run *)
Lemma upto_same {A} (f' f : A -> result entry) l : (forall a, In a l -> same_dist (f' a) (f a)) ->
  snd (upto f' l) = snd (upto f l) /\ map (@snd (list (list fl)) (list R * list fl)) (fst (upto f' l)) = map snd (fst (upto f l)).
Proof.
  induction l as [|a l IH]; intros H; [split; reflexivity|]. cbn [upto]. pose proof (H a (or_introl eq_refl)) as Ha. unfold same_dist in Ha.
  destruct (f' a) as [b'|e'], (f a) as [b|e]; try contradiction; [|subst; split; reflexivity].
  destruct (IH (fun q Hq => H q (or_intror Hq))) as [I1 I2]. destruct (upto f' l) as [bs' x'], (upto f l) as [bs x]. cbn [fst snd map] in *. subst. split; [reflexivity|]. now rewrite Ha, I2.
Qed.
Theorem frame_run : forall s n0 n1 img N0 N1 o0 o1 N0' N1' o0' o1' curve_fit old_dist old_dist' old_row old_row' o o' p p' num_bins sigma_clip q,
  shape n0 n1 img -> o_lags o' = o_lags o -> to_pixel s (o_lags o) = Ok q ->
  (forall r, In r (q_vals q) -> 1 <= r) ->
  (o0 + n0 <= N0)%nat -> (o1 + n1 <= N1)%nat -> (o0' + n0 <= N0')%nat -> (o1' + n1 <= N1')%nat ->
  (forall r, In r (q_vals q) -> let lag := Z.to_nat (Int_part r) in
    wide_enough p n0 N0 o0 lag /\ wide_enough p n1 N1 o1 lag /\ wide_enough p' n0 N0' o0' lag /\ wide_enough p' n1 N1' o1' lag) ->
  same_statistics (run s N1' (in_blanks n0 n1 N0' N1' o0' o1' img) curve_fit old_dist' old_row' o' p' num_bins sigma_clip)
    (run s N1 (in_blanks n0 n1 N0 N1 o0 o1 img) curve_fit old_dist old_row o p num_bins sigma_clip).
Proof.
  intros s n0 n1 img N0 N1 o0 o1 N0' N1' o0' o1' cf od od' orow orow' o o' p p' nb c q S EL TP LG A0 A1 A0' A1' W.
  unfold run, do_make. rewrite EL, !(bins_blanks n0 n1) by assumption. set (n := match nb with None => _ | Some n => n end). clearbody n. rewrite TP.
  set (f' := fun r => distribution n (lag_difference p' N1' (in_blanks n0 n1 N0' N1' o0' o1' img) (Z.to_nat (Int_part r)))).
  set (f := fun r => distribution n (lag_difference p N1 (in_blanks n0 n1 N0 N1 o0 o1 img) (Z.to_nat (Int_part r)))).
  destruct (upto_same f' f (q_vals q)) as [U1 U2].
  { unfold f', f. intros r Hr. destruct (W r Hr) as [B0 [B1 [B0' B1']]]. assert (G : (1 <= Z.to_nat (Int_part r))%nat) by (assert (1 <= Int_part r)%Z by (apply le_Int_part; now apply LG); lia).
    apply distribution_same. rewrite (frame_differences p' n0 n1 N0' N1' o0' o1' _ img G B0' B1'). symmetry. now apply frame_differences. }
  clearbody f' f. unfold entry in *. destruct (upto f' (q_vals q)) as [ds' e'] eqn:UP'. destruct (upto f (q_vals q)) as [ds e] eqn:UP. cbn [fst snd] in U1, U2. subst e'.
  destruct e as [e|]; [split; [reflexivity|discriminate]|].
  pose proof (forall2_len _ _ _ (upto_ok _ _ _ UP)) as LD. pose proof (forall2_len _ _ _ (upto_ok _ _ _ UP')) as LD'.
  unfold entry in *. rewrite <- LD, <- LD', (pixel_count _ _ _ TP), Nat.sub_diag. cbn [seq map]. rewrite !app_nil_r.
  unfold do_fit. cbn [o_dists o_lags]. set (len := length (q_vals (o_lags o))).
  pose proof (fill_snd cf c _ _ (map orow' (seq 0 len)) (map orow (seq 0 len)) 0 U2 ltac:(now rewrite !map_length)) as FS.
  destruct (fill cf c (map orow' (seq 0 len)) 0 _) as [r' e'] eqn:F'. destruct (fill cf c (map orow (seq 0 len)) 0 ds) as [r e] eqn:F. cbn [snd] in FS. subst e'.
  split; [reflexivity|]. cbn [snd fst]. intros ->. cbn [o_lags o_rows o_dists]. split; [reflexivity|]. split.
  - apply fill_ok in F'; [|lia]. apply fill_ok in F; [|lia]. destruct F' as (w' & K' & -> & B'), F as (w & K & -> & B). pose proof (forall2_same cf c _ _ _ _ U2 K' K). subst w'.
    pose proof (forall2_len _ _ _ K) as LA. clear B B'. cbn [firstn app Nat.add]. unfold entry, row in *. rewrite !skipn_all2; [reflexivity| |]; rewrite map_length, seq_length; unfold len; rewrite <- (pixel_count _ _ _ TP); lia.
  - do 2 eexists. split; [reflexivity|]. split; [reflexivity|]. exact U2.
Qed.

(** ** A case: an image of 3 x 4 pixels with two bright ones *)
Definition pair_image : list (list fl) := [[Fin 0; Fin 0; Fin 0; Fin 0]; [Fin 0; Fin 8; Fin 4; Fin 0]; [Fin 0; Fin 0; NaN; Fin 0]].
Definition bright_image : list (list fl) := [[Fin 0; Fin 0; Fin 0; Fin 0]; [Fin 0; Fin 8; Fin 4; Fin 0]; [Fin 0; Fin 0; Fin 0; Fin 0]].
Lemma bright_inner : inner_differences 3 4 bright_image 1 = [Fin (-7); Fin (-2)] /\ inner_differences 3 4 pair_image 1 = [Fin (-7)].
Proof.
  assert (D : forall r, fdiv (Fin r) (Fin 4) = Fin (r / 4)) by (intros r; apply fdiv_fin; lra).
  split; unfold inner_differences; cbn [seq list_prod map app Nat.sub Nat.mul Nat.add fst snd]; unfold difference_at, px; cbn [nth Nat.sub Nat.add bright_image pair_image fadd]; rewrite ?D; cbn [fsub fadd fneg]; unfold nonnan; cbn [filter is_nan negb].
  - apply (f_equal2 cons); [apply f_equal; field|]. apply (f_equal2 cons); [apply f_equal; field|reflexivity].
  - apply (f_equal2 cons); [apply f_equal; field|reflexivity].
Qed.
Lemma bright_wide : wide_enough true 3 4 0 1 /\ wide_enough true 4 5 1 1 /\ wide_enough false 3 5 1 1 /\ wide_enough false 4 6 1 1.
Proof. unfold wide_enough. lia. Qed.
Lemma bright_lag r : In r (q_vals (mk_q [1] pix)) -> 1 <= r /\ Z.to_nat (Int_part r) = 1%nat.
Proof. intros [<-|[]]. split; [lra|]. replace 1 with (IZR 1) by reflexivity. now rewrite Scf_Proofs.Int_part_IZR. Qed.
