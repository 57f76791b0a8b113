(** Proofs for C317: local moments of images with blank surroundings. *)
From Coq Require Import Reals List Bool ZArith Arith Lra Lia Permutation FinFun.
From Verif Require Import Lib.PyBase Lib.RSum Lib.Fl Lib.Arr Lib.Hist Spec.Blank Spec.Correlation Spec.ScfFrame Spec.MomentsFrame Model.Units Model.StatMoments
  Proofs.Fl_Proofs Proofs.ScfFrame_Proofs.
From Verif Require Proofs.Moments_Proofs Proofs.Moments2_Proofs Proofs.TurnedMoments_Proofs.
Import ListNotations.
Local Open Scope R_scope.

Lemma placed_box n0 n1 o0 o1 a i j : placed n0 n1 o0 o1 a i j = if inbox n0 o0 i && inbox n1 o1 j then a (i - o0)%nat (j - o1)%nat else NaN.
Proof. reflexivity. Qed.

(** ** The window of a pixel of the image *)
Lemma window_at p n0 n1 N0 N1 o0 o1 r a y x s t : apart p n0 N0 o0 r -> apart p n1 N1 o1 r -> (y < n0)%nat -> (x < n1)%nat -> (s < 2 * r + 1)%nat -> (t < 2 * r + 1)%nat ->
  slice2 (pad N0 N1 r p (placed n0 n1 o0 o1 a)) (o0 + y + r) (o1 + x + r) r s t = slice2 (pad n0 n1 r false a) (y + r) (x + r) r s t.
Proof.
  intros [A0 B0] [A1 B1] Hy Hx Hs Ht. unfold slice2.
  replace (o0 + y + r - r + s)%nat with (o0 + y + s)%nat by lia. replace (o1 + x + r - r + t)%nat with (o1 + x + t)%nat by lia.
  replace (y + r - r + s)%nat with (y + s)%nat by lia. replace (x + r - r + t)%nat with (x + t)%nat by lia.
  assert (E : pad n0 n1 r false a (y + s)%nat (x + t)%nat = if has_partner n0 (Z.of_nat r - Z.of_nat s) y && has_partner n1 (Z.of_nat r - Z.of_nat t) x then a (y + s - r)%nat (x + t - r)%nat else NaN).
  { unfold pad. match goal with |- (if ?b then _ else _) = (if ?c then _ else _) => assert (F : b = c) end; [|now rewrite F].
    apply eq_true_iff_eq. unfold has_partner. rewrite !andb_true_iff, !Nat.leb_le, !Nat.ltb_lt, !Z.leb_le, !Z.ltb_lt. lia. }
  rewrite E. destruct p.
  - unfold pad. specialize (B0 eq_refl). specialize (B1 eq_refl).
    replace (Z.of_nat (o0 + y + s) - Z.of_nat r)%Z with (Z.of_nat (o0 + y) - (Z.of_nat r - Z.of_nat s))%Z by lia.
    replace (Z.of_nat (o1 + x + t) - Z.of_nat r)%Z with (Z.of_nat (o1 + x) - (Z.of_nat r - Z.of_nat t))%Z by lia.
    fold (partner N0 (Z.of_nat r - Z.of_nat s) (o0 + y)) (partner N1 (Z.of_nat r - Z.of_nat t) (o1 + x)). rewrite placed_box.
    destruct (axis_partner n0 N0 o0 (Z.of_nat r - Z.of_nat s) y A0 ltac:(lia) Hy) as [E0 F0].
    destruct (axis_partner n1 N1 o1 (Z.of_nat r - Z.of_nat t) x A1 ltac:(lia) Hx) as [E1 F1]. rewrite E0, E1.
    destruct (has_partner n0 _ y) eqn:P0; [|reflexivity]. destruct (has_partner n1 _ x) eqn:P1; [|reflexivity]. cbn [andb]. rewrite F0, F1 by reflexivity.
    unfold has_partner in P0, P1. rewrite andb_true_iff, Z.leb_le, Z.ltb_lt in P0, P1. unfold partner. rewrite !Z.mod_small by lia. f_equal; lia.
  - unfold pad. match goal with |- (if ?b then _ else _) = (if ?c then _ else _) => destruct b eqn:F; destruct c eqn:G end; try reflexivity.
    + rewrite placed_box. unfold has_partner in G. rewrite !andb_true_iff, !Z.leb_le, !Z.ltb_lt in G.
      replace (inbox n0 o0 (o0 + y + s - r) && inbox n1 o1 (o1 + x + t - r)) with true by (symmetry; rewrite andb_true_iff, !inbox_spec; lia). f_equal; lia.
    + rewrite placed_box. apply not_true_iff_false in G. unfold has_partner in G. rewrite !andb_true_iff, !Z.leb_le, !Z.ltb_lt in G. rewrite !andb_true_iff, !Nat.leb_le, !Nat.ltb_lt in F.
      replace (inbox n0 o0 (o0 + y + s - r) && inbox n1 o1 (o1 + x + t - r)) with false; [reflexivity|]. symmetry. apply not_true_iff_false. rewrite andb_true_iff, !inbox_spec. lia.
    + exfalso. apply not_true_iff_false in F. apply F. unfold has_partner in G. rewrite !andb_true_iff, !Z.leb_le, !Z.ltb_lt in G. rewrite !andb_true_iff, !Nat.leb_le, !Nat.ltb_lt. lia.
Qed.
Lemma flat_ext n m (a b : image) : (forall s t, (s < n)%nat -> (t < m)%nat -> a s t = b s t) -> flat n m a = flat n m b.
Proof. intros H. unfold flat. apply map_ext_in. intros [s t] Hp. apply in_prod_iff in Hp. rewrite !in_seq in Hp. cbn [fst snd]. apply H; lia. Qed.
Theorem frame_moments : forall p n0 n1 N0 N1 o0 o1 r min_frac data weights y x, apart p n0 N0 o0 r -> apart p n1 N1 o1 r -> (y < n0)%nat -> (x < n1)%nat ->
  local_moments N0 N1 r p min_frac (placed n0 n1 o0 o1 data) (placed n0 n1 o0 o1 weights) (o0 + y) (o1 + x) = local_moments n0 n1 r false min_frac data weights y x.
Proof.
  intros p n0 n1 N0 N1 o0 o1 r mf data w y x A0 A1 Hy Hx. unfold local_moments, valid_frac. cbv zeta.
  rewrite (flat_ext _ _ (slice2 (pad N0 N1 r p (placed n0 n1 o0 o1 data)) (o0 + y + r) (o1 + x + r) r) (slice2 (pad n0 n1 r false data) (y + r) (x + r) r)) by (intros; now apply window_at).
  rewrite (flat_ext _ _ (slice2 (pad N0 N1 r p (placed n0 n1 o0 o1 w)) (o0 + y + r) (o1 + x + r) r) (slice2 (pad n0 n1 r false w) (y + r) (x + r) r)) by (intros; now apply window_at).
  rewrite (flat_ext _ _ (fun s t => fmul (slice2 (pad N0 N1 r p (placed n0 n1 o0 o1 data)) (o0 + y + r) (o1 + x + r) r s t) (circular_region r s t)) (fun s t => fmul (slice2 (pad n0 n1 r false data) (y + r) (x + r) r s t) (circular_region r s t))) by (intros; now rewrite window_at).
  rewrite (flat_ext _ _ (fun s t => fmul (slice2 (pad N0 N1 r p (placed n0 n1 o0 o1 w)) (o0 + y + r) (o1 + x + r) r s t) (circular_region r s t)) (fun s t => fmul (slice2 (pad n0 n1 r false w) (y + r) (x + r) r s t) (circular_region r s t))) by (intros; now rewrite window_at).
  reflexivity.
Qed.

(** ** A pixel of the surroundings *)
Lemma row_bound n0 o0 r Y : inbox n0 o0 Y = false -> exists c, (forall s, (s < 2 * r + 1)%nat -> (r <= Y + s)%nat -> inbox n0 o0 (Y + s - r) = true -> (c <= s < c + r)%nat).
Proof.
  intros H. apply not_true_iff_false in H. rewrite inbox_spec in H. destruct (Nat.lt_ge_cases Y o0) as [L|L].
  - exists (r + 1)%nat. intros s Hs Hr B. apply inbox_spec in B. lia.
  - exists 0%nat. intros s Hs Hr B. apply inbox_spec in B. lia.
Qed.
Lemma window_out n0 n1 N0 N1 o0 o1 r a Y X : inbox n0 o0 Y && inbox n1 o1 X = false ->
  (length (filter is_fin (flat (2 * r + 1) (2 * r + 1) (slice2 (pad N0 N1 r false (placed n0 n1 o0 o1 a)) (Y + r) (X + r) r))) <= r * (2 * r + 1))%nat.
Proof.
  intros H. unfold flat. set (f := fun q : nat * nat => _). set (m := (2 * r + 1)%nat).
  assert (G : forall s t, is_fin (f (s, t)) = true -> (r <= Y + s)%nat /\ (r <= X + t)%nat /\ inbox n0 o0 (Y + s - r) = true /\ inbox n1 o1 (X + t - r) = true).
  { intros s t. unfold f. cbn [fst snd]. unfold slice2, pad. replace (Y + r - r + s)%nat with (Y + s)%nat by lia. replace (X + r - r + t)%nat with (X + t)%nat by lia.
    match goal with |- context [if ?b then _ else _] => destruct b eqn:F end; [|discriminate]. rewrite placed_box. match goal with |- context [if ?b then _ else _] => destruct b eqn:B end; [|discriminate].
    intros _. rewrite !andb_true_iff, !Nat.leb_le, !Nat.ltb_lt in F. apply andb_true_iff in B. lia || (repeat split; [lia|lia|tauto|tauto]). }
  assert (Fl : length (filter is_fin (map f (list_prod (seq 0 m) (seq 0 m)))) = length (filter (fun q => is_fin (f q)) (list_prod (seq 0 m) (seq 0 m)))).
  { generalize (list_prod (seq 0 m) (seq 0 m)). induction l as [|q l IH]; [reflexivity|]. cbn [map filter]. destruct (is_fin (f q)); cbn [length]; now rewrite IH. }
  rewrite Fl. apply andb_false_iff in H. destruct H as [H|H].
  - destruct (row_bound n0 o0 r Y H) as [c C]. replace (r * m)%nat with (length (list_prod (seq c r) (seq 0 m))) by (rewrite prod_length, !seq_length; reflexivity). apply NoDup_incl_length; [apply NoDup_filter, pixels_nodup|].
    intros [s t] Hq. apply filter_In in Hq. destruct Hq as [Hq Fq]. apply in_prod_iff in Hq. rewrite !in_seq in Hq. destruct (G s t Fq) as [G1 [G2 [G3 G4]]].
    apply in_prod; apply in_seq; [apply C; try assumption; unfold m in Hq; lia|lia].
  - destruct (row_bound n1 o1 r X H) as [c C]. replace (r * m)%nat with (length (list_prod (seq 0 m) (seq c r))) by (rewrite prod_length, !seq_length; apply Nat.mul_comm). apply NoDup_incl_length; [apply NoDup_filter, pixels_nodup|].
    intros [s t] Hq. apply filter_In in Hq. destruct Hq as [Hq Fq]. apply in_prod_iff in Hq. rewrite !in_seq in Hq. destruct (G s t Fq) as [G1 [G2 [G3 G4]]].
    apply in_prod; apply in_seq; [lia|apply C; try assumption; unfold m in Hq; lia].
Qed.
Theorem frame_outside : forall n0 n1 N0 N1 o0 o1 r min_frac data weights Y X, 1 / 2 <= min_frac ->
  ~ ((o0 <= Y < o0 + n0)%nat /\ (o1 <= X < o1 + n1)%nat) ->
  local_moments N0 N1 r false min_frac (placed n0 n1 o0 o1 data) weights Y X = (NaN, NaN, NaN, NaN).
Proof.
  intros n0 n1 N0 N1 o0 o1 r mf data w Y X M H. assert (B : inbox n0 o0 Y && inbox n1 o1 X = false) by (apply not_true_iff_false; now rewrite andb_true_iff, !inbox_spec).
  unfold local_moments. cbv zeta. assert (V : Rltb (valid_frac (2 * r + 1) (slice2 (pad N0 N1 r false (placed n0 n1 o0 o1 data)) (Y + r) (X + r) r)) mf = true).
  2: { rewrite V. reflexivity. }
  unfold valid_frac. pose proof (window_out n0 n1 N0 N1 o0 o1 r data Y X B) as L. set (k := length _) in *.
  match goal with |- Rltb ?v mf = true => destruct (Rltb_spec v mf) as [|K]; [reflexivity|exfalso] end. apply le_INR in L. rewrite !mult_INR, plus_INR, mult_INR in L. cbn [INR] in L.
  rewrite mult_INR, plus_INR, mult_INR in K. cbn [INR] in K. pose proof (pos_INR r) as P. set (d := (1 + 1) * INR r + 1) in *. assert (D : 0 < d) by (unfold d; lra).
  assert (Q : INR k / (d * d) < 1 / 2); [|lra]. apply (Rmult_lt_reg_r (d * d)); [nra|]. unfold Rdiv at 1. rewrite Rmult_assoc, Rinv_l, Rmult_1_r by nra. assert (INR r * d < 1 / 2 * (d * d)) by (unfold d; nra). lra.
Qed.

(** ** The histograms of the maps *)
Lemma box_perm n0 n1 N0 N1 o0 o1 : (o0 + n0 <= N0)%nat -> (o1 + n1 <= N1)%nat ->
  Permutation (filter (fun q => inbox n0 o0 (fst q) && inbox n1 o1 (snd q)) (list_prod (seq 0 N0) (seq 0 N1)))
    (map (fun q : nat * nat => ((o0 + fst q)%nat, (o1 + snd q)%nat)) (list_prod (seq 0 n0) (seq 0 n1))).
Proof.
  intros H0 H1. apply NoDup_Permutation.
  - apply NoDup_filter, pixels_nodup.
  - apply Injective_map_NoDup; [|apply pixels_nodup]. intros [a b] [c d]. cbn [fst snd]. intros [= A B]. f_equal; lia.
  - intros [i j]. rewrite filter_In, in_map_iff, in_prod_iff, !in_seq, andb_true_iff. cbn [fst snd]. rewrite !inbox_spec. split.
    + intros H. exists ((i - o0)%nat, (j - o1)%nat). split; [cbn [fst snd]; f_equal; lia|]. apply in_prod; apply in_seq; lia.
    + intros [[y x] [G H]]. cbn [fst snd] in G. injection G as <- <-. apply in_prod_iff in H. rewrite !in_seq in H. lia.
Qed.
Lemma nonnan_some {A} (f : A -> fl) (b : A -> bool) l : (forall a, In a l -> b a = false -> f a = NaN) -> nonnan (map f l) = nonnan (map f (filter b l)).
Proof.
  induction l as [|a l IH]; intros H; [reflexivity|]. cbn [map filter]. assert (IH' := IH (fun q Hq => H q (or_intror Hq))).
  destruct (b a) eqn:Eb; cbn [map]; unfold nonnan in *; cbn [filter]; rewrite IH'; [reflexivity|]. rewrite (H a (or_introl eq_refl) Eb). reflexivity.
Qed.
Theorem frame_map_values : forall k n0 n1 N0 N1 o0 o1 r min_frac data weights, (o0 + n0 <= N0)%nat -> (o1 + n1 <= N1)%nat -> 1 / 2 <= min_frac ->
  Permutation (nonnan (flat N0 N1 (fun y x => moment k (local_moments N0 N1 r false min_frac (placed n0 n1 o0 o1 data) (placed n0 n1 o0 o1 weights) y x))))
    (nonnan (flat n0 n1 (fun y x => moment k (local_moments n0 n1 r false min_frac data weights y x)))).
Proof.
  intros k n0 n1 N0 N1 o0 o1 r mf data w H0 H1 M. unfold flat at 1.
  rewrite (nonnan_some _ (fun q => inbox n0 o0 (fst q) && inbox n1 o1 (snd q))).
  2: { intros [i j] _ B. cbn [fst snd] in *. rewrite frame_outside by (try assumption; intros F; rewrite andb_false_iff in B; rewrite <- !not_true_iff_false, !inbox_spec in B; tauto). now destruct k as [|[|[|k]]]. }
  apply TurnedMoments_Proofs.perm_filter. rewrite (box_perm n0 n1 N0 N1 o0 o1 H0 H1), map_map. apply Permutation_refl', map_ext_in. intros [y x] H. apply in_prod_iff in H. rewrite !in_seq in H. cbn [fst snd].
  rewrite (frame_moments false n0 n1 N0 N1 o0 o1) by (solve [lia | split; [assumption|discriminate]]). reflexivity.
Qed.
Lemma nonnan_twice l : nonnan (nonnan l) = nonnan l.
Proof. unfold nonnan. induction l as [|a l IH]; [reflexivity|]. cbn [filter]. destruct (negb (is_nan a)) eqn:E; [cbn [filter]; now rewrite E, IH|exact IH]. Qed.
Theorem frame_histograms : forall k n0 n1 N0 N1 o0 o1 r min_frac data weights bins nbins, (o0 + n0 <= N0)%nat -> (o1 + n1 <= N1)%nat -> 1 / 2 <= min_frac ->
  spatial_histogram (flat N0 N1 (fun y x => moment k (local_moments N0 N1 r false min_frac (placed n0 n1 o0 o1 data) (placed n0 n1 o0 o1 weights) y x))) bins nbins =
  spatial_histogram (flat n0 n1 (fun y x => moment k (local_moments n0 n1 r false min_frac data weights y x))) bins nbins.
Proof.
  intros. assert (T : forall l, spatial_histogram l bins nbins = spatial_histogram (nonnan l) bins nbins) by (intros l; unfold spatial_histogram; now rewrite nonnan_twice).
  rewrite (T (flat N0 N1 _)), (T (flat n0 n1 _)). apply TurnedMoments_Proofs.spatial_perm. now apply frame_map_values.
Qed.

(** ** The moments of the whole image *)
Theorem frame_whole : forall n0 n1 N0 N1 o0 o1 data weights, (o0 + n0 <= N0)%nat -> (o1 + n1 <= N1)%nat ->
  array_moments N0 N1 (placed n0 n1 o0 o1 data) (Some (placed n0 n1 o0 o1 weights)) = array_moments n0 n1 data (Some weights).
Proof.
  intros n0 n1 N0 N1 o0 o1 data w H0 H1. unfold array_moments. cbn [weights_of]. unfold flat.
  rewrite (Moments2_Proofs.cmI_drop (fun q => inbox n0 o0 (fst q) && inbox n1 o1 (snd q)) (fun q => placed n0 n1 o0 o1 data (fst q) (snd q)) (fun q => placed n0 n1 o0 o1 w (fst q) (snd q))).
  2: { intros q _ B. rewrite placed_box, B. reflexivity. }
  set (g := fun q : nat * nat => (placed n0 n1 o0 o1 data (fst q) (snd q), placed n0 n1 o0 o1 w (fst q) (snd q))).
  set (h := fun q : nat * nat => (data (fst q) (snd q), w (fst q) (snd q))).
  set (big := filter _ (list_prod (seq 0 N0) (seq 0 N1))). set (small := list_prod (seq 0 n0) (seq 0 n1)).
  transitivity (Moments_Proofs.cm (map g big)); [unfold Moments_Proofs.cm; now rewrite !map_map|].
  transitivity (Moments_Proofs.cm (map h small)); [|unfold Moments_Proofs.cm; now rewrite !map_map].
  apply TurnedMoments_Proofs.cm_perm. unfold big. rewrite (box_perm n0 n1 N0 N1 o0 o1 H0 H1), map_map. apply Permutation_refl', map_ext_in.
  intros [y x] H. apply in_prod_iff in H. rewrite !in_seq in H. unfold g, h. cbn [fst snd]. rewrite !placed_box.
  replace (inbox n0 o0 (o0 + y) && inbox n1 o1 (o1 + x)) with true by (symmetry; rewrite andb_true_iff, !inbox_spec; lia).
  f_equal; f_equal; lia.
Qed.
Lemma one_mean c : fst (fst (fst (array_moments 1 1 (fun _ _ => Fin c) None))) = Fin c.
Proof.
  unfold array_moments, flat, compute_moments. cbn [list_prod seq map app weights_of fst snd map2]. unfold nansum. cbn [fins nonnan filter is_nan negb fold_right fmul fadd].
  unfold fsum. cbn [fold_right fadd fmul fdiv]. unfold fdiv. match goal with |- context [Reqb ?a 0] => destruct (Reqb_spec a 0) end; [lra|]. f_equal. field.
Qed.
Theorem frame_default_refuted : ~ (forall n0 n1 N0 N1 o0 o1 data, (o0 + n0 <= N0)%nat -> (o1 + n1 <= N1)%nat ->
  array_moments N0 N1 (placed n0 n1 o0 o1 data) None = array_moments n0 n1 data None).
Proof.
  intros H. specialize (H 1%nat 1%nat 1%nat 2%nat 0%nat 0%nat (fun _ _ => Fin 1) (le_n _) ltac:(repeat constructor)).
  apply (f_equal (fun m => fst (fst (fst m)))) in H. rewrite one_mean in H.
  pose proof (Moments2_Proofs.blank_bias [(Some 1, 1); (None, 1)]) as B. cbv zeta in B.
  assert (S : lsum (map snd [(Some 1, 1); (@None R, 1)]) = 2) by (unfold lsum; cbn; lra).
  assert (T : Spec.Distrib.total (flat_map (fun p => match fst p with Some x => [(x, snd p)] | None => [] end) [(Some 1, 1); (None, 1)]) = 1) by (unfold Spec.Distrib.total, lsum; cbn; lra).
  rewrite S, T in B. specialize (B ltac:(lra) ltac:(lra)).
  assert (E : Fin 1 = Fin (Spec.Distrib.wmean [(1, 1)] * (1 / 2))) by (rewrite <- H; exact B).
  injection E as E. unfold Spec.Distrib.wmean, Spec.Distrib.wavg, Spec.Distrib.total, lsum in E. cbn in E. lra.
Qed.
