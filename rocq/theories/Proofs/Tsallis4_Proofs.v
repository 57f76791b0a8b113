From Coq Require Import Reals List Bool ZArith Arith Lia Lra Sorted.
From Verif Require Import Lib.PyBase Lib.PySlice Lib.RSum Lib.Fl Lib.Arr Lib.Hist Spec.Lag Spec.Blank Spec.Bins Spec.Distrib Model.Units Model.StatsUtils Model.Tsallis
  Proofs.StatsUtils_Proofs Proofs.StatsUtils2_Proofs Proofs.Fl_Proofs Proofs.Hist_Proofs Proofs.Tsallis_Proofs Proofs.Tsallis2_Proofs Proofs.Tsallis3_Proofs.
Import ListNotations.
Local Open Scope R_scope.

(** ** the histogram *)
Lemma ln10_pos : 0 < ln 10. Proof. rewrite <- ln_1. apply ln_increasing; lra. Qed.
Lemma pow10_log r : 0 < r -> Rpower 10 (ln r / ln 10) = r.
Proof. intros H. unfold Rpower. pose proof ln10_pos. replace (ln r / ln 10 * ln 10) with (ln r) by (field; lra). now apply exp_ln. Qed.
Lemma numbers_std arr : numbers arr -> Forall blankable (concat (standardize2 arr)).
Proof.
  intros N. rewrite std2_concat. unfold standardize. apply Forall_forall. intros v Hv. apply in_map_iff in Hv. destruct Hv as [u [<- Hu]]. rewrite standardize_values by auto. destruct u; try exact I. destruct (Reqb _ 0); exact I.
Qed.
Lemma filter_nonnan x : Forall blankable x -> filter (fun v => negb (is_nan v)) x = map Fin (fins x).
Proof. induction x as [|v x IH]; intros B; [reflexivity |]. inversion B; subst. destruct v; cbn in *; try contradiction; rewrite IH; auto. Qed.
Lemma all_fin l : forallb is_fin (map Fin l) = true. Proof. induction l; auto. Qed.

Theorem distribution_hist nb arr : numbers arr -> (1 <= nb)%nat ->
  exists data edges xs ys, distribution nb arr = Ok (data, (xs, ys)) /\
    length edges = (nb + 1)%nat /\ increasing edges /\ length xs = nb /\ length ys = nb /\
    (forall v, In v (fins (concat data)) -> in_range edges v) /\
    (forall k, (k < nb)%nat -> nth k xs 0 = (nth k edges 0 + nth (S k) edges 0) / 2) /\
    (fins (concat data) <> [] -> forall k, (k < nb)%nat ->
       let c := length (filter (in_binb edges k) (fins (concat data))) in
       (c = 0%nat -> nth k ys NaN = NInf) /\
       ((0 < c)%nat -> exists y, nth k ys NaN = Fin y /\ y <= 0 /\ Rpower 10 y = INR c / INR (length (fins (concat data))))).
Proof.
  intros N K. pose proof (numbers_std arr N) as B. set (data := standardize2 arr) in *. set (f := fins (concat data)).
  assert (BE : exists edges, bin_edges f (NumBins nb) = Ok edges).
  { destruct nb as [|nb]; [lia |]. cbn [bin_edges]. destruct (outer_edges f). eauto. }
  destruct BE as [edges BE]. destruct (auto_edges _ _ _ BE) as [_ [LE [IE RE]]].
  exists data, edges, (mid edges), (map (fun h => flog10 (fdiv (Fin h) (Fin (lsum (counts f edges))))) (counts f edges)).
  split. { unfold distribution. cbv zeta. fold data. rewrite filter_nonnan by exact B. unfold counts_edges. rewrite all_fin, fins_map_Fin. fold f. rewrite BE. reflexivity. }
  split; [exact LE |]. split; [exact IE |]. split; [unfold mid; rewrite tab1_length; lia |]. split; [rewrite map_length, counts_length; lia |].
  split; [exact RE |]. split.
  { intros k Hk. unfold mid. rewrite tab1_nth by lia. reflexivity. }
  fold f. intros NE k Hk c.
  assert (TOT : lsum (counts f edges) = INR (length f)).
  { rewrite counts_sum by lia. rewrite count_le_all by (intros x Hx; apply RE in Hx; destruct Hx; replace (length edges - 1)%nat with (length edges - 1)%nat by lia; assumption). rewrite count_lt_none by (intros x Hx; apply RE in Hx; destruct Hx; assumption). cbn [INR]. ring. }
  assert (PT : 0 < INR (length f)) by (apply lt_0_INR; destruct f; [contradiction | cbn; lia]).
  rewrite (nth_indep _ NaN (flog10 (fdiv (Fin 0) (Fin (lsum (counts f edges)))))) by (rewrite map_length, counts_length; lia).
  rewrite (map_nth (fun h => flog10 (fdiv (Fin h) (Fin (lsum (counts f edges)))))). rewrite counts_are by (auto; lia). fold c. rewrite TOT.
  unfold fdiv. destruct (Reqb_spec (INR (length f)) 0); [lra |]. split.
  - intros ->. cbn [INR]. unfold flog10. replace (0 / INR (length f)) with 0 by (unfold Rdiv; ring). destruct (Rltb_spec 0 0); [lra | reflexivity].
  - intros C. assert (PC : 0 < INR c) by (apply lt_0_INR; exact C). assert (PR : 0 < INR c / INR (length f)) by (apply Rdiv_lt_0_compat; lra).
    unfold flog10. destruct (Rltb_spec 0 (INR c / INR (length f))); [| lra]. eexists. split; [reflexivity |]. split.
    + assert (LE1 : INR c / INR (length f) <= 1).
      { apply (Rmult_le_reg_r (INR (length f))); [exact PT |]. unfold Rdiv. rewrite Rmult_assoc, Rinv_l, Rmult_1_r, Rmult_1_l by lra. apply le_INR. unfold c. clear. induction f as [|x l IH]; cbn; [lia |]. destruct (in_binb edges k x); cbn; lia. }
      assert (L0 : ln (INR c / INR (length f)) <= 0). { rewrite <- ln_1. destruct LE1 as [L|L]; [left; apply ln_increasing; lra | right; now rewrite L]. }
      pose proof ln10_pos. apply (Rmult_le_reg_r (ln 10)); [lra |]. unfold Rdiv at 1. rewrite Rmult_assoc, Rinv_l, Rmult_1_r, Rmult_0_l by lra. exact L0.
    + apply pow10_log, PR.
Qed.
Theorem default_bins_spec img : let n := length (fins (concat img)) in
  (n <= default_bins img * default_bins img)%nat /\ forall m, (n <= m * m)%nat -> (default_bins img <= m)%nat.
Proof.
  intros n. assert (E : length (filter is_fin (concat img)) = n).
  { unfold n. clear. induction (concat img) as [|v l IH]; [reflexivity |]. destruct v; cbn; try exact IH. now f_equal. }
  unfold default_bins. rewrite E. pose proof (Nat.sqrt_spec n (Nat.le_0_l n)) as [A B]. destruct (Nat.eqb_spec (Nat.sqrt n * Nat.sqrt n) n) as [Q|Q].
  - split; [lia |]. intros m H. apply Nat.nlt_ge. intros L. nia.
  - split; [lia |]. intros m H. apply Nat.nlt_ge. intros L. assert (m <= Nat.sqrt n)%nat by lia. nia.
Qed.

(** ** the Tsallis function *)
Lemma tsallis_value x loga w q : 1 < q -> 0 < w ->
  tsallis_function (Fin x) loga w q = Fin (-1 / (q - 1) * (ln (1 + (q - 1) * (x * x / w)) / ln 10 + loga)).
Proof.
  intros Q W. unfold tsallis_function, fsqr. cbn [fmul]. unfold fdiv. destruct (Reqb_spec w 0); [lra |]. cbn [fmul fadd].
  assert (P : 0 <= (q - 1) * (x * x / w)). { apply Rmult_le_pos; [lra |]. unfold Rdiv. apply Rmult_le_pos; [apply Rle_0_sqr | left; apply Rinv_0_lt_compat; lra]. }
  unfold flog10. destruct (Rltb_spec 0 (1 + (q - 1) * (x * x / w))); [| lra]. reflexivity.
Qed.
Lemma neg_inv q : 1 < q -> -1 / (q - 1) < 0.
Proof. intros. assert (0 < / (q - 1)) by (apply Rinv_0_lt_compat; lra). unfold Rdiv. lra. Qed.
Theorem tsallis_even_peaked loga w q : 1 < q -> 0 < w -> exists f,
  (forall x, tsallis_function (Fin x) loga w q = Fin (f x)) /\
  (forall x, f (- x) = f x) /\ (forall x, f x <= f 0) /\ (forall x, f x = f 0 -> x = 0) /\
  (forall x y, 0 <= x < y -> f y < f x).
Proof.
  intros Q W. exists (fun x => -1 / (q - 1) * (ln (1 + (q - 1) * (x * x / w)) / ln 10 + loga)). split; [intros; now apply tsallis_value |].
  split. { intros x. now replace (- x * - x) with (x * x) by ring. }
  assert (D : forall x y, 0 <= x < y -> -1 / (q - 1) * (ln (1 + (q - 1) * (y * y / w)) / ln 10 + loga) < -1 / (q - 1) * (ln (1 + (q - 1) * (x * x / w)) / ln 10 + loga)).
  { intros x y H. apply Rmult_lt_gt_compat_neg_l; [now apply neg_inv |]. apply Rplus_lt_compat_r. unfold Rdiv at 1 3. apply Rmult_lt_compat_r; [apply Rinv_0_lt_compat, ln10_pos |].
    assert (I : 0 < / w) by (apply Rinv_0_lt_compat; lra). assert (P : 0 <= (q - 1) * (x * x / w)) by (apply Rmult_le_pos; [lra |]; apply Rmult_le_pos; [apply Rle_0_sqr | lra]).
    apply ln_increasing; [lra |]. apply Rplus_lt_compat_l, Rmult_lt_compat_l; [lra |]. unfold Rdiv. apply Rmult_lt_compat_r; [exact I |]. nra. }
  assert (A : forall x, x <> 0 -> -1 / (q - 1) * (ln (1 + (q - 1) * (x * x / w)) / ln 10 + loga) < -1 / (q - 1) * (ln (1 + (q - 1) * (0 * 0 / w)) / ln 10 + loga)).
  { intros x X. assert (E : x * x = Rabs x * Rabs x) by (rewrite <- Rabs_mult; symmetry; apply Rabs_right, Rle_ge, Rle_0_sqr). rewrite E. apply D. pose proof (Rabs_pos_lt x X). lra. }
  split. { intros x. destruct (Req_dec x 0) as [->|X]; [lra | left; now apply A]. }
  split; [| exact D]. intros x E. destruct (Req_dec x 0) as [|X]; [assumption |]. specialize (A x X). lra.
Qed.
Theorem tsallis_peak loga w q : 1 < q -> 0 < w -> tsallis_function (Fin 0) loga w q = Fin (- loga / (q - 1)).
Proof.
  intros Q W. rewrite tsallis_value by auto. f_equal. replace (1 + (q - 1) * (0 * 0 / w)) with 1 by (field; lra). rewrite ln_1. pose proof ln10_pos. field. lra.
Qed.
Lemma deriv_log a u x : 0 <= a -> derivable_pt_lim (fun x => u * ln (1 + a * (x * x))) x (u * (/ (1 + a * (x * x)) * (a * (x + x)))).
Proof.
  intros A. assert (P : 0 < 1 + a * (x * x)) by (pose proof (Rle_0_sqr x) as S; unfold Rsqr in S; nra).
  apply (derivable_pt_lim_scal (fun x => ln (1 + a * (x * x)))).
  apply (derivable_pt_lim_comp (fun x => 1 + a * (x * x)) ln).
  - replace (a * (x + x)) with (0 + a * (1 * x + x * 1)) by ring.
    apply (derivable_pt_lim_plus (fun _ => 1) (fun x => a * (x * x))); [apply derivable_pt_lim_const |].
    apply (derivable_pt_lim_scal (fun x => x * x)). apply (derivable_pt_lim_mult (fun x => x) (fun x => x)); apply derivable_pt_lim_id.
  - now apply derivable_pt_lim_ln.
Qed.
Theorem tsallis_identifiable loga w q loga' w' q' : 1 < q -> 0 < w -> 1 < q' -> 0 < w' ->
  (forall x, tsallis_function (Fin x) loga w q = tsallis_function (Fin x) loga' w' q') -> loga = loga' /\ w = w' /\ q = q'.
Proof.
  intros Q W Q' W' H. assert (V : forall x, -1 / (q - 1) * (ln (1 + (q - 1) * (x * x / w)) / ln 10 + loga) = -1 / (q' - 1) * (ln (1 + (q' - 1) * (x * x / w')) / ln 10 + loga')).
  { intros x. specialize (H x). rewrite !tsallis_value in H by auto. congruence. }
  pose proof ln10_pos as L10.
  assert (P0 : loga / (q - 1) = loga' / (q' - 1)).
  { specialize (H 0). rewrite !tsallis_peak in H by auto. assert (E : - loga / (q - 1) = - loga' / (q' - 1)) by congruence. unfold Rdiv in *. lra. }
  set (u := / (q - 1)) in *. set (u' := / (q' - 1)) in *. set (a := (q - 1) / w). set (a' := (q' - 1) / w').
  assert (U : 0 < u) by (apply Rinv_0_lt_compat; lra). assert (U' : 0 < u') by (apply Rinv_0_lt_compat; lra).
  assert (A : 0 < a) by (apply Rdiv_lt_0_compat; lra). assert (A' : 0 < a') by (apply Rdiv_lt_0_compat; lra).
  assert (G : forall x, u * ln (1 + a * (x * x)) = u' * ln (1 + a' * (x * x))).
  { intros x. specialize (V x). unfold Rdiv at 1 4 in V. fold u u' in V.
    replace ((q - 1) * (x * x / w)) with (a * (x * x)) in V by (unfold a; field; lra). replace ((q' - 1) * (x * x / w')) with (a' * (x * x)) in V by (unfold a'; field; lra).
    unfold Rdiv in P0. fold u u' in P0. set (X := ln (1 + a * (x * x))) in *. set (Y := ln (1 + a' * (x * x))) in *.
    assert (E : u * (X / ln 10) = u' * (Y / ln 10)) by lra.
    apply (Rmult_eq_reg_r (/ ln 10)); [| apply Rinv_neq_0_compat; lra]. unfold Rdiv in E. lra. }
  assert (DD : forall x, u * (/ (1 + a * (x * x)) * (a * (x + x))) = u' * (/ (1 + a' * (x * x)) * (a' * (x + x)))).
  { intros x. apply (uniqueness_limite (fun x => u * ln (1 + a * (x * x))) x); [apply deriv_log; lra |].
    apply derivable_pt_lim_ext with (f := fun x => u' * ln (1 + a' * (x * x))); [intros; now rewrite G | apply deriv_log; lra]. }
  assert (C : forall t, t = 1 \/ t = 2 -> u * a * (1 + a' * (t * t)) = u' * a' * (1 + a * (t * t))).
  { intros t T. specialize (DD t). assert (0 < 1 + a * (t * t)) by (destruct T as [-> | ->]; nra). assert (0 < 1 + a' * (t * t)) by (destruct T as [-> | ->]; nra).
    assert (T0 : 0 < t + t) by (destruct T as [-> | ->]; lra).
    apply (Rmult_eq_reg_r ((t + t) * / (1 + a * (t * t)) * / (1 + a' * (t * t)))).
    - transitivity (u * (/ (1 + a * (t * t)) * (a * (t + t)))); [field; lra |]. rewrite DD. field; lra.
    - apply Rgt_not_eq. apply Rmult_gt_0_compat; [apply Rmult_gt_0_compat; [lra |] |]; apply Rinv_0_lt_compat; lra. }
  pose proof (C 1 (or_introl eq_refl)) as C1. pose proof (C 2 (or_intror eq_refl)) as C2.
  assert (E1 : u * a = u' * a') by nra. assert (E2 : a = a') by (assert (u * a * (a' - a) = 0) by nra; apply Rmult_integral in H0; destruct H0 as [H0 | H0]; [nra | lra]).
  assert (E3 : u = u') by (apply (Rmult_eq_reg_r a); [rewrite E1; now rewrite E2 | lra]).
  assert (EQ : q = q') by (apply Rinv_eq_reg in E3 || (unfold u, u' in E3; apply (f_equal Rinv) in E3; rewrite !Rinv_inv in E3); lra).
  subst q'. split; [| split; [| reflexivity]].
  - apply (Rmult_eq_reg_r u); [exact P0 | lra].
  - unfold a, a' in E2. apply (f_equal Rinv) in E2. unfold Rdiv in E2. rewrite !Rinv_mult, !Rinv_inv in E2. fold u in E2. apply (Rmult_eq_reg_l u); lra.
Qed.
