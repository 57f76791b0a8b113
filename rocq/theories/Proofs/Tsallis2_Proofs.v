From Coq Require Import Reals List Bool ZArith Arith Lia Lra Sorted.
From Verif Require Import Lib.PyBase Lib.PySlice Lib.RSum Lib.Fl Lib.Arr Lib.Hist Spec.Lag Spec.Blank Model.Units Model.StatsUtils Model.Tsallis
  Proofs.StatsUtils_Proofs Proofs.StatsUtils2_Proofs Proofs.Fl_Proofs Proofs.Tsallis_Proofs.
Import ListNotations.
Local Open Scope R_scope.

(** ** lags *)
Lemma ln2_pos : 0 < ln 2. Proof. rewrite <- ln_1. apply ln_increasing; lra. Qed.
Lemma le_Int_part z r : (z <= Int_part r)%Z <-> IZR z <= r.
Proof.
  destruct (base_Int_part r) as [A B]. split; intros H.
  - apply IZR_le in H. lra.
  - destruct (Z_le_gt_dec z (Int_part r)) as [|G]; [assumption | exfalso]. assert (K : (Int_part r + 1 <= z)%Z) by lia. apply IZR_le in K. rewrite plus_IZR in K. lra.
Qed.
Lemma log2_le k n : (1 <= n)%nat -> (Z.of_nat k <= Int_part (ln (INR n / 2) / ln 2))%Z <-> 2 * 2 ^ k <= INR n.
Proof.
  intros N. apply le_INR in N. cbn [INR] in N. rewrite le_Int_part, <- INR_IZR_INZ. pose proof ln2_pos as P.
  assert (E : 2 ^ k = exp (INR k * ln 2)) by (rewrite <- ln_pow by lra; rewrite exp_ln; [reflexivity | apply pow_lt; lra]).
  split; intros H.
  - assert (L : INR k * ln 2 <= ln (INR n / 2)) by (apply (Rmult_le_compat_r (ln 2)) in H; [unfold Rdiv in H at 1; rewrite Rmult_assoc, Rinv_l, Rmult_1_r in H by lra; exact H | lra]).
    assert (X : exp (INR k * ln 2) <= exp (ln (INR n / 2))) by (destruct L as [L | L]; [left; now apply exp_increasing | right; now rewrite L]).
    rewrite exp_ln in X by lra. lra.
  - assert (X : 2 ^ k <= INR n / 2) by lra. assert (Q : 0 < 2 ^ k) by (apply pow_lt; lra).
    assert (L : ln (2 ^ k) <= ln (INR n / 2)) by (destruct X as [X | X]; [left; now apply ln_increasing | right; now rewrite X]).
    rewrite ln_pow in L by lra. apply (Rmult_le_reg_r (ln 2)); [lra |]. unfold Rdiv at 1. rewrite Rmult_assoc, Rinv_l, Rmult_1_r by lra. exact L.
Qed.
Theorem default_lags_spec n : (1 <= n)%nat ->
  (forall x, In x (default_lags n) <-> exists k, x = 2 ^ k /\ 2 * x <= INR n) /\ StronglySorted Rlt (default_lags n).
Proof.
  intros N. unfold default_lags. cbv zeta. set (M := Int_part _). split.
  - intros x. rewrite in_map_iff. split.
    + intros [k [<- H]]. apply in_seq in H. exists k. split; [reflexivity |]. apply log2_le; [exact N |]. fold M. lia.
    + intros [k [-> H]]. exists k. split; [reflexivity |]. apply log2_le in H; [| exact N]. fold M in H. apply in_seq. lia.
  - generalize 0%nat as a. generalize (Z.to_nat (M + 1)) as m. induction m as [|m IH]; intros a; cbn [seq map]; constructor; [apply IH |].
    apply Forall_forall. intros y Hy. apply in_map_iff in Hy. destruct Hy as [k [<- Hk]]. apply in_seq in Hk. apply Rlt_pow; [lra | lia].
Qed.

Lemma Int_part_eq z r : IZR z <= r < IZR z + 1 -> Int_part r = z.
Proof. intros H. apply Z.le_antisymm; [| apply le_Int_part; lra]. destruct (base_Int_part r). assert (IZR (Int_part r) < IZR (z + 1)) by (rewrite plus_IZR; lra). apply lt_IZR in H2. lia. Qed.
Lemma half_cmp z n : IZR z - INR n / 2 <= 1 / 10 ^ 10 <-> 2 * IZR z <= INR n.
Proof.
  rewrite INR_IZR_INZ. split; intros H.
  - rewrite <- mult_IZR. apply IZR_le. apply Z.lt_succ_r, lt_IZR. rewrite succ_IZR, mult_IZR.
    assert (1 / 10 ^ 10 < 1 / 2); [| lra]. unfold Rdiv. rewrite !Rmult_1_l. apply Rinv_lt_contravar; [apply Rmult_lt_0_compat; [lra | apply pow_lt; lra] |]. cbn. lra.
  - assert (0 < 1 / 10 ^ 10); [| lra]. apply Rdiv_lt_0_compat; [lra | apply pow_lt; lra].
Qed.
Theorem set_lags_spec s n q p : to_pixel s q = Ok p ->
  ((forall r, In r (q_vals p) -> lag_ok n r) -> set_lags s n (Some q) = Ok q) /\
  ((exists r, In r (q_vals p) /\ ~ lag_ok n r) -> set_lags s n (Some q) = Err ValueError).
Proof.
  intros E. unfold set_lags. rewrite E. cbn [bind].
  assert (D : forall r, lag_ok n r <-> 1 <= r /\ 2 * IZR (Int_part r) <= INR n).
  { intros r. unfold lag_ok. split; intros [H K]; split; auto.
    - destruct K as [z [Z1 Z2]]. now rewrite (Int_part_eq z).
    - exists (Int_part r). destruct (base_Int_part r). split; lra. }
  split.
  - intros H. destruct (existsb (fun r => Rltb r 1) (q_vals p)) eqn:A.
    { apply existsb_exists in A. destruct A as [r [I A]]. destruct (Rltb_spec r 1); [| discriminate]. specialize (H r I). apply D in H. lra. }
    match goal with |- context [existsb ?f ?l] => destruct (existsb f l) eqn:B end; [| reflexivity].
    apply existsb_exists in B. destruct B as [r [I B]]. specialize (H r I). apply D in H. destruct H as [_ H]. apply half_cmp in H.
    destruct (Rltb_spec (1 / 10 ^ 10) (IZR (Int_part r) - INR n / 2)); [lra | discriminate].
  - intros [r [I H]]. destruct (existsb (fun r => Rltb r 1) (q_vals p)) eqn:A; [reflexivity |].
    match goal with |- context [existsb ?f ?l] => assert (B : existsb f l = true) end; [| now rewrite B].
    apply existsb_exists. exists r. split; [exact I |].
    destruct (Rltb_spec (1 / 10 ^ 10) (IZR (Int_part r) - INR n / 2)) as [|G]; [reflexivity | exfalso]. apply Rnot_lt_le, half_cmp in G.
    assert (L : 1 <= r). { apply Rnot_lt_le. intros L. assert (T : existsb (fun r => Rltb r 1) (q_vals p) = true); [| congruence]. apply existsb_exists. exists r. split; [exact I |]. destruct (Rltb_spec r 1); [reflexivity | lra]. }
    apply H, D. auto.
Qed.
Lemma pow2_ge k : 1 <= 2 ^ k. Proof. apply pow_R1_Rle. lra. Qed.
Theorem default_lags_accepted s n : (1 <= n)%nat -> init_lags s n None = Ok (mk_q (default_lags n) pix).
Proof.
  intros N. unfold init_lags. apply (proj1 (set_lags_spec s n (mk_q (default_lags n) pix) (mk_q (default_lags n) pix) eq_refl)). cbn [q_vals]. intros r H.
  apply (proj1 (default_lags_spec n N)) in H. destruct H as [k [-> H]]. split; [apply pow2_ge |].
  exists (2 ^ Z.of_nat k)%Z. rewrite <- pow_IZR. split; [lra | exact H].
Qed.

(** ** sums *)
Lemma concat_tab2_sum n0 n1 (g : nat -> nat -> R) : lsum (concat (tab2 n0 n1 g)) = rsum n0 (fun i => rsum n1 (g i)).
Proof.
  unfold tab2, tab1. rewrite rsum_lsum. induction (seq 0 n0) as [|a l IH]; [reflexivity |]. cbn [map concat]. rewrite lsum_app, lsum_cons, IH. f_equal. now rewrite rsum_lsum.
Qed.
Lemma rsum_wrap n (f : nat -> R) s : rsum n (fun i => f (wrap n (Z.of_nat i - s))) = rsum n f.
Proof.
  destruct (Nat.eq_dec n 0) as [->|Hn]; [reflexivity |]. apply (rsum_reindex n f (fun i => wrap n (Z.of_nat i - s))).
  - intros. apply wrap_lt. lia.
  - intros i j Hi Hj H. unfold wrap in H. apply (f_equal Z.of_nat) in H.
    rewrite !Z2Nat.id in H by (apply Z.mod_pos_bound; lia).
    assert (D : ((Z.of_nat i - Z.of_nat j) mod Z.of_nat n = 0)%Z).
    { replace (Z.of_nat i - Z.of_nat j)%Z with ((Z.of_nat i - s) - (Z.of_nat j - s))%Z by lia. rewrite Zminus_mod, H, Z.sub_diag. apply Z.mod_0_l. lia. }
    apply Z.mod_divide in D; [| lia]. destruct D as [q D]. assert (q = 0)%Z by nia. subst. lia.
Qed.
Lemma all_finite_tab n0 n1 img : shape n0 n1 img -> all_finite img -> exists g, img = tab2 n0 n1 (fun i j => Fin (g i j)).
Proof.
  intros S F. exists (fun i j => match px img i j with Fin r => r | _ => 0 end). rewrite (shape_tab _ _ _ S) at 1. apply tab2_ext. intros i j Hi Hj.
  specialize (F _ (px_in n0 n1 img i j S Hi Hj)). destruct (px img i j); try discriminate. reflexivity.
Qed.
Lemma fsum_tab2 n0 n1 g : fsum (concat (tab2 n0 n1 (fun i j => Fin (g i j)))) = Fin (rsum n0 (fun i => rsum n1 (g i))).
Proof.
  rewrite <- concat_tab2_sum, <- fsum_Fin. f_equal. rewrite concat_map. f_equal. symmetry. apply map_tab2.
Qed.
Theorem difference_sum n0 n1 img lag : shape n0 n1 img -> all_finite img -> fsum (concat (lag_difference true n1 img lag)) = Fin 0.
Proof.
  intros S F. destruct (all_finite_tab _ _ _ S F) as [g ->]. rewrite difference_periodic.
  rewrite (tab2_ext n0 n1 _ (fun i j => Fin ((g (wrap n0 (Z.of_nat i - Z.of_nat lag)) j + g (wrap n0 (Z.of_nat i - - Z.of_nat lag)) j + g i (wrap n1 (Z.of_nat j - Z.of_nat lag)) + g i (wrap n1 (Z.of_nat j - - Z.of_nat lag))) / 4 - g i j))).
  2:{ intros. unfold neigh. apply combo_fin. }
  rewrite fsum_tab2. f_equal. set (T := rsum n0 (fun i => rsum n1 (g i))).
  assert (A : forall s, rsum n0 (fun i => rsum n1 (fun j => g (wrap n0 (Z.of_nat i - s)) j)) = T) by (intros s; unfold T; exact (rsum_wrap n0 (fun i => rsum n1 (g i)) s)).
  assert (B : forall s, rsum n0 (fun i => rsum n1 (fun j => g i (wrap n1 (Z.of_nat j - s)))) = T) by (intros s; unfold T; apply rsum_ext; intros; exact (rsum_wrap n1 (g i) s)).
  transitivity ((T + T + T + T) / 4 - T); [| lra]. rewrite <- (A (Z.of_nat lag)) at 1. rewrite <- (A (- Z.of_nat lag)%Z) at 1. rewrite <- (B (Z.of_nat lag)) at 1. rewrite <- (B (- Z.of_nat lag)%Z) at 1.
  unfold T at 1. rewrite <- !rsum_plus. unfold Rdiv. rewrite <- rsum_scal_r, <- rsum_minus. apply rsum_ext. intros i Hi. rewrite <- !rsum_plus, <- rsum_scal_r, <- rsum_minus. reflexivity.
Qed.

(** ** factor and offset *)
Definition affine (a b : R) (v : fl) : fl := fadd (fmul (Fin a) v) (Fin b).
Lemma combo_affine a b u v w x y : blankable u -> blankable v -> blankable w -> blankable x -> blankable y ->
  combo (affine a b u) (affine a b v) (affine a b w) (affine a b x) (affine a b y) = fmul (Fin a) (combo u v w x y).
Proof.
  intros U V W X Y. destruct (blankable_cases u U) as [->|[u' ->]], (blankable_cases v V) as [->|[v' ->]], (blankable_cases w W) as [->|[w' ->]], (blankable_cases x X) as [->|[x' ->]], (blankable_cases y Y) as [->|[y' ->]];
  unfold affine; cbn [fadd fmul]; try rewrite !combo_fin; unfold combo; cbn [fadd fmul fdiv fsub fneg]; try reflexivity.
  all: try (unfold fdiv; destruct (Reqb_spec 4 0); [lra |]; reflexivity).
  cbn. f_equal. field.
Qed.
Lemma scale_offset_tab a b n0 n1 f : scale_offset a b (tab2 n0 n1 f) = tab2 n0 n1 (fun i j => affine a b (f i j)).
Proof. unfold scale_offset. apply map_tab2. Qed.
Theorem difference_affine n0 n1 img lag a b : shape n0 n1 img -> numbers img ->
  lag_difference true n1 (scale_offset a b img) lag = map (map (fmul (Fin a))) (lag_difference true n1 img lag).
Proof.
  intros S N. assert (B : forall i j, (i < n0)%nat -> (j < n1)%nat -> blankable (px img i j)).
  { unfold numbers in N. rewrite Forall_forall in N. intros. apply N, (px_in n0 n1); auto. }
  rewrite (shape_tab _ _ _ S), scale_offset_tab, !difference_periodic, map_tab2. apply tab2_ext. intros i j Hi Hj. unfold neigh. apply combo_affine; apply B; auto using wrap_lt; apply wrap_lt; lia.
Qed.
Theorem difference_offset n0 n1 img lag c : shape n0 n1 img -> numbers img ->
  lag_difference true n1 (map (map (fun v => fadd v (Fin c))) img) lag = lag_difference true n1 img lag.
Proof.
  intros S N. replace (map (map (fun v => fadd v (Fin c))) img) with (scale_offset 1 c img).
  - rewrite (difference_affine n0) by auto. transitivity (map (fun r : list fl => r) (lag_difference true n1 img lag)); [| apply map_id]. apply map_ext. intros r. transitivity (map (fun v : fl => v) r); [| apply map_id]. apply map_ext.
    intros [r0| | |]; cbn; rewrite ?Rmult_1_l; try reflexivity; unfold sinf; destruct (Rltb_spec 0 1); try lra; reflexivity.
  - unfold scale_offset. apply map_ext_in. intros r Hr. apply map_ext_in. intros v Hv. assert (V : blankable v) by (unfold numbers in N; rewrite Forall_forall in N; apply N, in_concat; eauto).
    destruct v; cbn in *; try contradiction; rewrite ?Rmult_1_l; reflexivity.
Qed.
