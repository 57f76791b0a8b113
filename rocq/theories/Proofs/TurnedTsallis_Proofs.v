(** Tsallis statistics of an image seen from another side. *)
From Coq Require Import Reals List Bool ZArith Arith Lra Lia Permutation.
From Verif Require Import Lib.PyBase Lib.RSum Lib.Fl Lib.Arr Lib.Hist Spec.Blank Spec.Lag Spec.Turned Spec.TurnedTsallis Model.Units Model.Tsallis Model.TsallisRun
  Proofs.Fl_Proofs Proofs.Hist_Proofs Proofs.Tsallis_Proofs Proofs.Tsallis2_Proofs Proofs.Tsallis3_Proofs Proofs.TsallisRun_Proofs.
From Verif Require Proofs.Orders_Proofs Proofs.MomentsRun5_Proofs Proofs.TurnedMoments_Proofs.
Import ListNotations.
Local Open Scope R_scope.

(** ** The four neighbours *)
Lemma combo_12 a b c d v : combo b a c d v = combo a b c d v.
Proof. unfold combo. now rewrite (Orders_Proofs.fadd_comm b a). Qed.
Lemma combo_34 a b c d v : combo a b d c v = combo a b c d v.
Proof. unfold combo. rewrite <- !Orders_Proofs.fadd_assoc. now rewrite (Orders_Proofs.fadd_comm d c). Qed.
Lemma combo_swap a b c d v : combo c d a b v = combo a b c d v.
Proof. unfold combo. rewrite <- !Orders_Proofs.fadd_assoc, (Orders_Proofs.fadd_assoc c d), (Orders_Proofs.fadd_comm (fadd c d)). now rewrite <- Orders_Proofs.fadd_assoc. Qed.

Definition zsource (v : view) (n0 n1 : nat) (ij : Z * Z) : Z * Z :=
  match v with
  | LeftRight => (fst ij, Z.of_nat n1 - 1 - snd ij)%Z
  | UpDown => (Z.of_nat n0 - 1 - fst ij, snd ij)%Z
  | Swapped => (snd ij, fst ij)
  | QuarterTurn => (Z.of_nat n0 - 1 - snd ij, fst ij)%Z
  end.
Lemma mirror_z n i : (0 < n)%nat -> ((Z.of_nat n - 1 - i) mod Z.of_nat n = Z.of_nat n - 1 - i mod Z.of_nat n)%Z.
Proof.
  intros H. pose proof (Z.mod_pos_bound i (Z.of_nat n) ltac:(lia)). pose proof (Z.div_mod i (Z.of_nat n) ltac:(lia)).
  symmetry. apply (Zmod_unique _ _ (- (i / Z.of_nat n))); lia.
Qed.
Lemma plane_seen per v n0 n1 img i j : (0 < n0)%nat -> (0 < n1)%nat ->
  Lag.seen per (rows_seen v n0 n1) (columns_seen v n0 n1) (seen_rows v n0 n1 img) i j =
  Lag.seen per n0 n1 img (fst (zsource v n0 n1 (i, j))) (snd (zsource v n0 n1 (i, j))).
Proof.
  intros H0 H1. unfold Lag.seen, seen_rows. set (a := rows_seen v n0 n1). set (b := columns_seen v n0 n1).
  assert (Ha : (0 < a)%nat) by (destruct v; assumption). assert (Hb : (0 < b)%nat) by (destruct v; assumption).
  pose proof (Z.mod_pos_bound i (Z.of_nat a) ltac:(lia)). pose proof (Z.mod_pos_bound j (Z.of_nat b) ltac:(lia)).
  destruct ((0 <=? i) && (i <? Z.of_nat a) && (0 <=? j) && (j <? Z.of_nat b))%Z%bool eqn:E.
  - rewrite !andb_true_iff, !Z.leb_le, !Z.ltb_lt in E. rewrite tab2_px by lia.
    assert (E' : ((0 <=? fst (zsource v n0 n1 (i, j))) && (fst (zsource v n0 n1 (i, j)) <? Z.of_nat n0) && (0 <=? snd (zsource v n0 n1 (i, j))) && (snd (zsource v n0 n1 (i, j)) <? Z.of_nat n1))%Z%bool = true).
    { rewrite !andb_true_iff, !Z.leb_le, !Z.ltb_lt. subst a b. destruct v; cbn [zsource fst snd rows_seen columns_seen] in *; lia. }
    rewrite E'. subst a b. destruct v; cbn [zsource fst snd rows_seen columns_seen Turned.seen] in *; unfold left_right, up_down, axes_swapped, quarter_turn; f_equal; lia.
  - assert (E' : ((0 <=? fst (zsource v n0 n1 (i, j))) && (fst (zsource v n0 n1 (i, j)) <? Z.of_nat n0) && (0 <=? snd (zsource v n0 n1 (i, j))) && (snd (zsource v n0 n1 (i, j)) <? Z.of_nat n1))%Z%bool = false).
    { apply not_true_iff_false. intros K. apply not_true_iff_false in E. apply E. rewrite !andb_true_iff, !Z.leb_le, !Z.ltb_lt in *. subst a b. destruct v; cbn [zsource fst snd rows_seen columns_seen] in *; lia. }
    rewrite E'. destruct per; [|reflexivity]. rewrite tab2_px by lia. subst a b. destruct v; cbn [zsource fst snd rows_seen columns_seen Turned.seen] in *; unfold left_right, up_down, axes_swapped, quarter_turn; rewrite ?mirror_z by assumption; f_equal; lia.
Qed.

Lemma difference_seen per v n0 n1 img lag : shape n0 n1 img -> (1 <= lag)%nat ->
  lag_difference per (columns_seen v n0 n1) (seen_rows v n0 n1 img) lag = seen_rows v n0 n1 (lag_difference per n1 img lag).
Proof.
  intros S L. assert (S' : shape (rows_seen v n0 n1) (columns_seen v n0 n1) (seen_rows v n0 n1 img)) by apply tab2_shape.
  rewrite (shape_tab _ _ _ (difference_shape per _ _ _ lag S' L)). unfold seen_rows at 2. apply tab2_ext. intros y x Hy Hx.
  rewrite (difference_px per (rows_seen v n0 n1)) by assumption. rewrite TurnedMoments_Proofs.seen_source.
  destruct (TurnedMoments_Proofs.source_in v n0 n1 y x Hy Hx) as [K0 K1]. rewrite (difference_px per n0) by assumption. cbv zeta. unfold four. cbv zeta. cbn [map nth fst snd].
  rewrite !plane_seen by lia. unfold seen_rows. rewrite tab2_px by assumption. rewrite TurnedMoments_Proofs.seen_source.
  destruct v; cbn [TurnedMoments_Proofs.source zsource fst snd rows_seen columns_seen] in *.
  - replace (Z.of_nat (n1 - 1 - x)) with (Z.of_nat n1 - 1 - Z.of_nat x)%Z by lia. rewrite combo_34. f_equal; f_equal; lia.
  - replace (Z.of_nat (n0 - 1 - y)) with (Z.of_nat n0 - 1 - Z.of_nat y)%Z by lia. rewrite combo_12. f_equal; f_equal; lia.
  - now rewrite combo_swap.
  - replace (Z.of_nat (n0 - 1 - x)) with (Z.of_nat n0 - 1 - Z.of_nat x)%Z by lia. rewrite combo_34, combo_swap. rewrite combo_12. rewrite combo_12. f_equal; f_equal; lia.
Qed.

(** ** The distribution *)
Lemma concat_tab2 {A} n0 n1 (f : nat -> nat -> A) : concat (tab2 n0 n1 f) = map (fun yx => f (fst yx) (snd yx)) (list_prod (seq 0 n0) (seq 0 n1)).
Proof.
  unfold tab2, tab1. induction (seq 0 n0) as [|i l IH]; [reflexivity|]. cbn [map concat list_prod]. rewrite map_app, map_map, IH. reflexivity.
Qed.
Lemma concat_seen v n0 n1 img : shape n0 n1 img -> Permutation (concat (seen_rows v n0 n1 img)) (concat img).
Proof.
  intros S. rewrite (shape_tab _ _ _ S) at 2. unfold seen_rows. rewrite !concat_tab2. apply (TurnedMoments_Proofs.pixels_seen v n0 n1 (px img) (Turned.seen v n0 n1 (px img))). reflexivity.
Qed.
Lemma nanstd_perm l l' : Permutation l l' -> nanstd l = nanstd l'.
Proof. intros P. unfold nanstd. rewrite (Orders_Proofs.nanmean_perm _ _ P). f_equal. apply Orders_Proofs.nanmean_perm, Permutation_map, P. Qed.
Lemma map_seen (f : fl -> fl) v n0 n1 img : shape n0 n1 img -> map (map f) (seen_rows v n0 n1 img) = seen_rows v n0 n1 (map (map f) img).
Proof.
  intros S. unfold seen_rows. rewrite map_tab2. apply tab2_ext. intros y x Hy Hx. rewrite !TurnedMoments_Proofs.seen_source. destruct (TurnedMoments_Proofs.source_in v n0 n1 y x Hy Hx) as [K0 K1].
  rewrite (shape_tab _ _ _ S) at 2. rewrite map_tab2, tab2_px by assumption. reflexivity.
Qed.
Lemma standardize_seen v n0 n1 img : shape n0 n1 img -> standardize2 (seen_rows v n0 n1 img) = seen_rows v n0 n1 (standardize2 img).
Proof.
  intros S. unfold standardize2. cbv zeta. rewrite (Orders_Proofs.nanmean_perm _ _ (concat_seen v _ _ _ S)), (nanstd_perm _ _ (concat_seen v _ _ _ S)). now apply map_seen.
Qed.
Lemma counts_perm x y e : Permutation x y -> counts x e = counts y e.
Proof. intros H. unfold counts. apply tab1_ext. intros i _. unfold cum_n, count_le, count_lt. now rewrite !(MomentsRun5_Proofs.filter_perm _ _ _ H). Qed.
Lemma counts_edges_perm l l' n : Permutation l l' -> counts_edges l n = counts_edges l' n.
Proof.
  intros P. unfold counts_edges. rewrite (TurnedMoments_Proofs.forallb_perm is_fin _ _ P). destruct (forallb is_fin l'); [|reflexivity]. pose proof (MomentsRun5_Proofs.fins_perm _ _ P) as Q.
  unfold bin_edges. rewrite (TurnedMoments_Proofs.outer_perm _ _ Q). destruct n as [|n]; [reflexivity|]. destruct (outer_edges (fins l')) as [a b]. cbn [bind]. now rewrite (counts_perm _ _ _ Q).
Qed.
Lemma std_shape n0 n1 img : shape n0 n1 img -> shape n0 n1 (standardize2 img).
Proof. intros S. unfold standardize2. cbv zeta. generalize (nanmean (concat img)) (nanstd (concat img)). intros m sd. rewrite (shape_tab _ _ _ S), map_tab2. apply tab2_shape. Qed.
Lemma distribution_seen v n0 n1 nb arr : shape n0 n1 arr ->
  distribution nb (seen_rows v n0 n1 arr) = match distribution nb arr with Ok (a, d) => Ok (seen_rows v n0 n1 a, d) | Err e => Err e end.
Proof.
  intros S. unfold distribution. cbv zeta. rewrite (standardize_seen v _ _ _ S).
  rewrite (counts_edges_perm _ _ nb (TurnedMoments_Proofs.perm_filter (fun v => negb (is_nan v)) _ _ (concat_seen v _ _ _ (std_shape _ _ _ S)))).
  destruct (counts_edges _ nb) as [[h e]|e]; reflexivity.
Qed.
Lemma bins_seen v n0 n1 img : shape n0 n1 img -> default_bins (seen_rows v n0 n1 img) = default_bins img.
Proof. intros S. unfold default_bins. cbv zeta. now rewrite (MomentsRun5_Proofs.filter_perm _ _ _ (concat_seen v _ _ _ S)). Qed.

(** ** One run *)
Lemma upto_seen {A B} (f' f : A -> result B) (g : B -> B) l :
  (forall a, In a l -> f' a = match f a with Ok b => Ok (g b) | Err e => Err e end) -> upto f' l = (map g (fst (upto f l)), snd (upto f l)).
Proof.
  induction l as [|a l IH]; intros H; [reflexivity|]. cbn [upto]. rewrite H by now left. destruct (f a) as [b|e]; [|reflexivity]. rewrite IH by (intros; apply H; now right).
  destruct (upto f l) as [bs e]. reflexivity.
Qed.
Lemma fill_snd cf c : forall (d' d : list entry) r' r i, map (@snd (list (list fl)) (list R * list fl)) d' = map snd d -> length r' = length r -> snd (fill cf c r' i d') = snd (fill cf c r i d).
Proof.
  induction d' as [|e' d' IH]; intros [|e d] r' r i E L; try discriminate; [reflexivity|]. cbn [map] in E. injection E as E1 E2. cbn [fill]. rewrite E1. destruct (fit_one cf c (snd e)) as [w|x]; [|reflexivity]. rewrite L.
  destruct (Nat.ltb i (length r)) eqn:Li; [|reflexivity]. apply Nat.ltb_lt in Li. apply IH; [exact E2|]. rewrite !app_length. cbn [length]. rewrite !firstn_length, !skipn_length. lia.
Qed.
Lemma forall2_same cf c : forall (d' d : list entry) n' n, map (@snd (list (list fl)) (list R * list fl)) d' = map snd d ->
  Forall2 (fun e w => fit_one cf c (snd e) = Ok w) d' n' -> Forall2 (fun e w => fit_one cf c (snd e) = Ok w) d n -> n' = n.
Proof.
  induction d' as [|e' d' IH]; intros [|e d] n' n E F' F; try discriminate; inversion F'; inversion F; subst; [reflexivity|]. cbn [map] in E. injection E as E1 E2. f_equal; [rewrite E1 in *; congruence|]. eapply IH; eassumption.
Qed.
Lemma run_seen s v n0 n1 img cf od od' orow orow' o o' p nb c : shape n0 n1 img -> o_lags o' = o_lags o -> set_lags s (Nat.min n0 n1) (Some (o_lags o)) = Ok (o_lags o) ->
  same_tsallis v n0 n1 (run s (columns_seen v n0 n1) (seen_rows v n0 n1 img) cf od' orow' o' p nb c) (run s n1 img cf od orow o p nb c).
Proof.
  intros S EL AL. unfold run, do_make. rewrite EL, (bins_seen v _ _ _ S). set (n := match nb with None => _ | Some n => n end). clearbody n.
  destruct (to_pixel s (o_lags o)) as [q|e] eqn:TP; [|split; [reflexivity|discriminate]].
  assert (LG : forall r, In r (q_vals q) -> (1 <= Z.to_nat (Int_part r))%nat).
  { intros r Hr. destruct (set_lags_spec s (Nat.min n0 n1) (o_lags o) q TP) as [_ K]. destruct (Rlt_le_dec r 1) as [Lt|Ge].
    - exfalso. rewrite K in AL; [discriminate|]. exists r. split; [exact Hr|]. intros [G _]. lra.
    - assert (1 <= Int_part r)%Z by (apply le_Int_part; exact Ge). lia. }
  rewrite (upto_seen _ (fun r => distribution n (lag_difference p n1 img (Z.to_nat (Int_part r)))) (fun e => (seen_rows v n0 n1 (fst e), snd e))).
  2: { intros r Hr. rewrite difference_seen by auto. rewrite distribution_seen by (apply difference_shape; auto). destruct (distribution n _) as [[a d]|e]; reflexivity. }
  destruct (upto _ (q_vals q)) as [ds e] eqn:UP. cbn [fst snd]. destruct e as [e|]; [split; [reflexivity|discriminate]|].
  pose proof (forall2_len _ _ _ (upto_ok _ _ _ UP)) as LD. rewrite map_length. rewrite <- LD. rewrite (pixel_count _ _ _ TP), Nat.sub_diag. cbn [seq map]. rewrite !app_nil_r.
  unfold do_fit. cbn [o_dists o_lags]. set (len := length (q_vals (o_lags o))).
  assert (SN : map (@snd (list (list fl)) (list R * list fl)) (map (fun e => (seen_rows v n0 n1 (fst e), snd e)) ds) = map snd ds) by (rewrite map_map; reflexivity).
  pose proof (fill_snd cf c _ _ (map orow' (seq 0 len)) (map orow (seq 0 len)) 0 SN ltac:(now rewrite !map_length)) as FS.
  destruct (fill cf c (map orow' (seq 0 len)) 0 _) as [r' e'] eqn:F'. destruct (fill cf c (map orow (seq 0 len)) 0 ds) as [r e] eqn:F. cbn [snd] in FS. subst e'.
  split; [reflexivity|]. cbn [snd fst]. intros ->. cbn [o_lags o_rows o_dists]. split; [reflexivity|]. split.
  - apply fill_ok in F'; [|lia]. apply fill_ok in F; [|lia]. destruct F' as (w' & A' & -> & B'), F as (w & A & -> & B). pose proof (forall2_same cf c _ _ _ _ SN A' A). subst w'.
    pose proof (forall2_len _ _ _ A) as LA. clear B B'. cbn [firstn app Nat.add]. unfold entry, row in *. rewrite !skipn_all2; [reflexivity| |]; rewrite map_length, seq_length; unfold len; rewrite <- (pixel_count _ _ _ TP); lia.
  - do 2 eexists. split; [reflexivity|]. split; [reflexivity|]. clear. induction ds as [|e ds IH]; [constructor|]. cbn [map]. constructor; [split; reflexivity|exact IH].
Qed.
