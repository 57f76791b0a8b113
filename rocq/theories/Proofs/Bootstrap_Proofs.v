(** Proofs for C323: bootstrapped uncertainties. *)
From Coq Require Import Reals List ZArith Arith Bool Lra Lia.
From Verif Require Import Lib.PyBase Lib.Fl Lib.RSum Lib.Arr Lib.Bins Spec.Bins Spec.Bootstrap Model.Bootstrap.
Import ListNotations.
Local Open Scope R_scope.

(** ** Deviations of lists *)
Lemma sum_sq_about l a : l <> [] ->
  lsum (map (fun x => (x - a) * (x - a)) l) = lsum (map (fun x => (x - average l) * (x - average l)) l) + INR (length l) * ((average l - a) * (average l - a)).
Proof.
  intros N. assert (L : INR (length l) <> 0) by (apply not_0_INR; destruct l; [congruence|discriminate]).
  assert (E : forall c, lsum (map (fun x => (x - c) * (x - c)) l) = lsum (map (fun x => x * x) l) - 2 * c * lsum l + INR (length l) * (c * c)).
  { intros c. clear N L. induction l as [|x l IH]; [cbn; ring|]. cbn [map length]. rewrite !lsum_cons, IH, S_INR. ring. }
  rewrite (E a), (E (average l)). unfold average. field. exact L.
Qed.
Lemma std_nonneg l : 0 <= np_std l.
Proof. apply sqrt_pos. Qed.
Lemma std_range l lo hi : l <> [] -> (forall x, In x l -> lo <= x <= hi) -> np_std l <= (hi - lo) / 2.
Proof.
  intros N H. assert (L : 0 < INR (length l)) by (apply lt_0_INR; destruct l; [congruence|cbn; lia]).
  assert (D : 0 <= (hi - lo) / 2) by (destruct l as [|x l]; [congruence|specialize (H x (or_introl eq_refl)); lra]).
  unfold np_std. fold (average l). apply Rle_trans with (sqrt (((hi - lo) / 2) * ((hi - lo) / 2))); [|rewrite sqrt_square by exact D; lra]. apply sqrt_le_1_alt.
  apply (Rmult_le_reg_r (INR (length l))); [exact L|]. unfold Rdiv at 1. rewrite Rmult_assoc, Rinv_l, Rmult_1_r by lra.
  pose proof (sum_sq_about l ((hi + lo) / 2) N) as S. set (q := lsum (map (fun x => (x - average l) * (x - average l)) l)) in *.
  assert (Q : lsum (map (fun x => (x - (hi + lo) / 2) * (x - (hi + lo) / 2)) l) <= lsum (map (fun _ : R => ((hi - lo) / 2) * ((hi - lo) / 2)) l)).
  { apply lsum_map_le. intros x Hx. specialize (H x Hx). nra. }
  rewrite lsum_map_const in Q. pose proof (Rle_0_sqr (average l - (hi + lo) / 2)) as P. unfold Rsqr in P. nra.
Qed.
Lemma std_scaled k l : 0 <= k -> np_std (map (Rmult k) l) = k * np_std l.
Proof.
  intros K. unfold np_std. rewrite map_length, map_map. cbv zeta.
  assert (S : lsum (map (Rmult k) l) = k * lsum l) by (rewrite <- (map_id l) at 2; apply (lsum_map_scal k (fun x => x) l)). rewrite S.
  set (m := lsum l / INR (length l)). replace (k * lsum l / INR (length l)) with (k * m) by (unfold m, Rdiv; ring).
  rewrite (lsum_map_ext (fun x => (k * x - k * m) * (k * x - k * m)) (fun x => (k * k) * ((x - m) * (x - m)))) by (intros; ring). rewrite lsum_map_scal.
  unfold Rdiv. rewrite Rmult_assoc, sqrt_mult_alt by nra. now rewrite sqrt_square.
Qed.

(** ** The bins *)
Section Errors.
Variable tppf : nat -> fl.
Variable draw : nat -> nat -> list nat.

Lemma boot_std_range it i data lo hi r : (forall b, drawn_indices (length data) (draw i b)) -> data <> [] -> (forall x, In x data -> lo <= x <= hi) ->
  boot_std draw it i data = Ok r -> 0 <= r <= (hi - lo) / 2.
Proof.
  intros D N H. unfold boot_std, bootstrap. destruct (Z.ltb_spec it 1); [discriminate|]. cbn [bind]. intros [= <-]. rewrite map_length, seq_length.
  assert (P : 0 < INR (Z.to_nat it)) by (apply lt_0_INR; lia). set (f := fun b => np_std _).
  assert (F : forall b, 0 <= f b <= (hi - lo) / 2).
  { intros b. split; [apply std_nonneg|]. destruct (D b) as [L I]. apply std_range.
    - intros E. apply (f_equal (@length R)) in E. rewrite map_length, L in E. destruct data; [congruence|discriminate].
    - intros x Hx. apply in_map_iff in Hx. destruct Hx as [j [<- Hj]]. apply H, nth_In. now apply I. }
  assert (A : 0 <= lsum (map f (seq 0 (Z.to_nat it)))) by (apply lsum_nonneg; intros x Hx; apply in_map_iff in Hx; destruct Hx as [b [<- _]]; apply F).
  assert (B : lsum (map f (seq 0 (Z.to_nat it))) <= lsum (map (fun _ : nat => (hi - lo) / 2) (seq 0 (Z.to_nat it)))) by (apply lsum_map_le; intros b _; apply F).
  rewrite lsum_map_const, seq_length in B. split; [apply Rmult_le_pos; [exact A|left; now apply Rinv_0_lt_compat]|].
  apply (Rmult_le_reg_r (INR (Z.to_nat it))); [exact P|]. unfold Rdiv at 1. rewrite Rmult_assoc, Rinv_l, Rmult_1_r by lra. lra.
Qed.
Lemma bins_nth it : forall bins i errs j data, boot_bins tppf draw it i bins = Ok errs -> nth_error bins j = Some data ->
  (length data <= 1 -> nth_error errs j = Some NaN)%nat /\
  (2 <= length data -> exists r, boot_std draw it (i + j) data = Ok r /\ nth_error errs j = Some (t_factor tppf (length data) r))%nat.
Proof.
  induction bins as [|d bins IH]; intros i errs j data E N; [destruct j; discriminate|]. cbn [boot_bins] in E.
  destruct (match d with [] => Ok NaN | _ => r <- boot_std draw it i d ;; Ok (Fin r) end) as [s|e] eqn:B; [|discriminate]. cbn [bind] in E.
  destruct (boot_bins tppf draw it (S i) bins) as [others|e] eqn:O; [|discriminate]. cbn [bind] in E. injection E as <-. destruct j as [|j].
  - cbn [nth_error] in *. injection N as ->. split; intros L.
    + destruct (Nat.leb_spec (length data) 1); [reflexivity|lia].
    + destruct (Nat.leb_spec (length data) 1); [lia|]. destruct data as [|x data]; [cbn in L; lia|]. rewrite Nat.add_0_r. destruct (boot_std draw it i (x :: data)) as [r|e]; [|discriminate].
      cbn [bind] in B. injection B as <-. exists r. split; reflexivity.
  - cbn [nth_error] in *. replace (i + S j)%nat with (S i + j)%nat by lia. now apply (IH (S i) others j data O).
Qed.
Lemma binned_nth {V} edges sample (values : list V) j : (j < length edges - 1)%nat -> nth_error (binned_statistic (fun l => l) edges sample values) j = Some (in_bin_values edges sample values j).
Proof. intros H. unfold binned_statistic, tab1. rewrite nth_error_map. rewrite (nth_error_nth' _ 0%nat) by (now rewrite seq_length). rewrite seq_nth by exact H. reflexivity. Qed.
Lemma errors_of_bins0 : forall it edges sample values errs j lo hi, boot_errors tppf draw it edges sample values = Ok errs -> (j < length edges - 1)%nat ->
  (forall b, drawn_indices (length (in_bin_values edges sample values j)) (draw j b)) -> (forall x, In x (in_bin_values edges sample values j) -> lo <= x <= hi) ->
  (length (in_bin_values edges sample values j) <= 1 -> nth_error errs j = Some NaN)%nat /\
  ((2 <= length (in_bin_values edges sample values j))%nat -> exists s, nth_error errs j = Some (t_factor tppf (length (in_bin_values edges sample values j)) s) /\ 0 <= s <= (hi - lo) / 2).
Proof.
  intros it edges sample values errs j lo hi E J D H. destruct (bins_nth it _ _ _ j _ E (binned_nth edges sample values j J)) as [A B]. split; [exact A|].
  intros L. destruct (B L) as [r [R N]]. exists r. split; [exact N|]. cbn [Nat.add] in R. apply (boot_std_range it j _ lo hi r D); auto. intros X. rewrite X in L. cbn in L. lia.
Qed.
(** No iterations *)
Lemma none_bins it bins : (it < 1)%Z -> forall i, (forall d, In d bins -> d = []) \/ boot_bins tppf draw it i bins = Err ValueError.
Proof.
  intros H. induction bins as [|d bins IH]; intros i; [left; intros d []|]. destruct d as [|x d].
  - destruct (IH (S i)) as [A|A]; [left; intros d [<-|I]; auto|right]. cbn [boot_bins bind]. now rewrite A.
  - right. cbn [boot_bins]. unfold boot_std, bootstrap. destruct (Z.ltb_spec it 1); [reflexivity|lia].
Qed.
Lemma no_iterations0 : forall it edges sample values j x, (it < 1)%Z -> (j < length edges - 1)%nat -> In x (in_bin_values edges sample values j) ->
  boot_errors tppf draw it edges sample values = Err ValueError.
Proof.
  intros it edges sample values j x H J X. unfold boot_errors. destruct (none_bins it (binned_statistic (fun l => l) edges sample values) H 0) as [A|A]; [|exact A].
  specialize (A _ (nth_error_In _ _ (binned_nth edges sample values j J))). rewrite A in X. destruct X.
Qed.
End Errors.

(** ** All resamples *)
Section All.
Variable data : list R.
Let n := length data.
Let f i := nth i data 0.
Let X := lsum data.
Let Q := lsum (map (fun x => x * x) data).
Lemma nths_self (l : list R) : map (fun i => nth i l 0) (seq 0 (length l)) = l.
Proof. induction l as [|x l IH]; [reflexivity|]. cbn [length seq map nth]. f_equal. rewrite <- seq_shift, map_map. exact IH. Qed.
Lemma seq_sum (g : R -> R) : lsum (map (fun i => g (f i)) (seq 0 n)) = lsum (map g data).
Proof. unfold f, n. rewrite <- (map_map (fun i => nth i data 0) g). now rewrite nths_self. Qed.
Lemma all_sum (g : list nat -> R) k : lsum (map g (all_lists n (S k))) = lsum (map (fun t => lsum (map (fun i => g (i :: t)) (seq 0 n))) (all_lists n k)).
Proof.
  cbn [all_lists]. induction (all_lists n k) as [|t T IH]; [reflexivity|]. cbn [flat_map map]. rewrite map_app, lsum_app, lsum_cons, IH. f_equal. now rewrite map_map.
Qed.
Lemma all_length k : INR (length (all_lists n k)) = INR n ^ k.
Proof.
  induction k as [|k IH]; [reflexivity|]. assert (E : forall c m, lsum (map (fun _ : list nat => c) m) = INR (length m) * c) by (intros; apply lsum_map_const).
  pose proof (all_sum (fun _ => 1) k) as A. rewrite E in A. rewrite (lsum_map_ext _ (fun _ => INR n)) in A.
  2:{ intros t _. rewrite lsum_map_const, seq_length. ring. }
  rewrite E, IH in A. cbn [pow]. lra.
Qed.
Lemma sum_add_const (g : R -> R) c : lsum (map (fun i => g (f i) + c) (seq 0 n)) = lsum (map g data) + INR n * c.
Proof. rewrite lsum_map_plus, seq_sum, lsum_map_const, seq_length. reflexivity. Qed.
(** Sums over all lists of a sum over the list *)
Lemma all_first (g : R -> R) k : INR n * lsum (map (fun t => lsum (map g (resample data t))) (all_lists n k)) = INR k * INR n ^ k * lsum (map g data).
Proof.
  induction k as [|k IH]; [cbn; ring|]. rewrite all_sum.
  rewrite (lsum_map_ext _ (fun t => lsum (map g data) + INR n * lsum (map g (resample data t)))).
  2:{ intros t _. rewrite <- sum_add_const. apply lsum_map_ext. intros i _. unfold resample. cbn [map]. rewrite lsum_cons. reflexivity. }
  rewrite lsum_map_plus, lsum_map_const, lsum_map_scal, IH, all_length, S_INR. cbn [pow]. ring.
Qed.
Lemma all_second k : INR n * INR n * lsum (map (fun t => lsum (resample data t) * lsum (resample data t)) (all_lists n k)) =
  INR n ^ k * (INR k * INR n * Q + INR k * (INR k - 1) * (X * X)).
Proof.
  induction k as [|k IH]; [cbn; ring|]. rewrite all_sum.
  rewrite (lsum_map_ext _ (fun t => Q + (2 * X * lsum (resample data t) + INR n * (lsum (resample data t) * lsum (resample data t))))).
  2:{ intros t _. set (s := lsum (resample data t)).
      rewrite (lsum_map_ext _ (fun i => (f i * f i + 2 * s * f i) + s * s)) by (intros i _; unfold resample; cbn [map]; rewrite lsum_cons; fold (resample data t); fold s; fold (f i); ring).
      rewrite (sum_add_const (fun x => x * x + 2 * s * x)), lsum_map_plus, lsum_map_scal, map_id. fold X. fold Q. ring. }
  rewrite !lsum_map_plus, lsum_map_const, !lsum_map_scal, all_length.
  pose proof (all_first (fun x => x) k) as F. rewrite map_id in F. fold X in F.
  rewrite (lsum_map_ext (fun t => lsum (map (fun x => x) (resample data t))) (fun t => lsum (resample data t))) in F by (intros; now rewrite map_id).
  set (a := lsum (map (fun t => lsum (resample data t)) (all_lists n k))) in *. set (b := lsum (map (fun t => lsum (resample data t) * lsum (resample data t)) (all_lists n k))) in *.
  rewrite S_INR. cbn [pow].
  transitivity (INR n * INR n * (INR n ^ k * Q) + 2 * X * INR n * (INR n * a) + INR n * (INR n * INR n * b)); [ring|]. rewrite F, IH. ring.
Qed.
Lemma var_sums l : l <> [] -> lsum (map (fun x => (x - average l) * (x - average l)) l) / INR (length l) =
  lsum (map (fun x => x * x) l) / INR (length l) - (lsum l * lsum l) / (INR (length l) * INR (length l)).
Proof.
  intros N. assert (L : INR (length l) <> 0) by (apply not_0_INR; destruct l; [congruence|discriminate]).
  pose proof (sum_sq_about l 0 N) as E. rewrite (lsum_map_ext (fun x => (x - 0) * (x - 0)) (fun x => x * x)) in E by (intros; ring). rewrite E. unfold average. field. exact L.
Qed.
Lemma all_lists_length t k : In t (all_lists n k) -> length t = k.
Proof.
  revert t. induction k as [|k IH]; intros t; cbn [all_lists]; [intros [<-|[]]; reflexivity|]. intros H. apply in_flat_map in H. destruct H as [u [U H]]. apply in_map_iff in H. destruct H as [i [<- _]]. cbn. f_equal. now apply IH.
Qed.
Lemma avg_sqrt (l : list R) : l <> [] -> (forall x, In x l -> 0 <= x) -> average (map sqrt l) <= sqrt (average l).
Proof.
  intros N H. assert (L : 0 < INR (length l)) by (apply lt_0_INR; destruct l; [congruence|cbn; lia]).
  assert (N' : map sqrt l <> []) by (destruct l; [congruence|discriminate]). pose proof (var_sums (map sqrt l) N') as V. rewrite map_length, (map_map sqrt (fun x => x * x)) in V.
  assert (S : lsum (map (fun x => sqrt x * sqrt x) l) = lsum l).
  { transitivity (lsum (map (fun x => x) l)); [|now rewrite map_id]. apply lsum_map_ext. intros x Hx. now apply sqrt_sqrt, H. }
  rewrite S in V. assert (P : 0 <= lsum (map (fun x => (x - average (map sqrt l)) * (x - average (map sqrt l))) (map sqrt l)) / INR (length l)).
  { apply Rmult_le_pos; [|left; now apply Rinv_0_lt_compat]. apply lsum_nonneg. intros x Hx. apply in_map_iff in Hx. destruct Hx as [y [<- _]]. apply Rle_0_sqr. }
  rewrite V in P. assert (A : 0 <= average (map sqrt l)).
  { unfold average. rewrite map_length. apply Rmult_le_pos; [|left; now apply Rinv_0_lt_compat]. apply lsum_nonneg. intros x Hx. apply in_map_iff in Hx. destruct Hx as [y [<- _]]. apply sqrt_pos. }
  rewrite <- (sqrt_square (average (map sqrt l))) by exact A. apply sqrt_le_1_alt. unfold average in *. rewrite map_length in *.
  replace (lsum (map sqrt l) / INR (length l) * (lsum (map sqrt l) / INR (length l))) with (lsum (map sqrt l) * lsum (map sqrt l) / (INR (length l) * INR (length l))) by (field; lra). lra.
Qed.
Theorem all_resamples : (2 <= length data)%nat ->
  average (map (fun t => np_std (resample data t)) (all_lists (length data) (length data))) <= (INR (length data) - 1) / INR (length data) * sample_std data.
Proof.
  intros D. fold n in D |- *. assert (P : 2 <= INR n) by (change 2 with (INR 2); now apply le_INR).
  assert (NE : all_lists n n <> []). { intros E. pose proof (all_length n) as A. rewrite E in A. cbn [length INR] in A. assert (0 < INR n ^ n) by (apply pow_lt; lra). lra. }
  set (v := fun t => lsum (map (fun x => (x - average (resample data t)) * (x - average (resample data t))) (resample data t)) / INR (length (resample data t))).
  assert (E : map (fun t => np_std (resample data t)) (all_lists n n) = map sqrt (map v (all_lists n n))) by (rewrite map_map; reflexivity). rewrite E. clear E.
  eapply Rle_trans.
  { apply avg_sqrt; [intros E; apply map_eq_nil in E; contradiction|]. intros x Hx. apply in_map_iff in Hx. destruct Hx as [t [<- Ht]]. unfold v. unfold resample at 4. rewrite map_length, (all_lists_length t n Ht).
    apply Rmult_le_pos; [|left; apply Rinv_0_lt_compat; lra]. apply lsum_nonneg. intros y Hy. apply in_map_iff in Hy. destruct Hy as [z [<- _]]. apply Rle_0_sqr. }
  assert (V : lsum (map v (all_lists n n)) = lsum (map (fun t => lsum (map (fun x => x * x) (resample data t))) (all_lists n n)) / INR n - lsum (map (fun t => lsum (resample data t) * lsum (resample data t)) (all_lists n n)) / (INR n * INR n)).
  { unfold Rdiv. rewrite <- !lsum_map_scal_r, <- lsum_map_minus. apply lsum_map_ext. intros t Ht. unfold v.
    assert (LT : length (resample data t) = n) by (unfold resample; rewrite map_length; now apply all_lists_length). rewrite var_sums; [rewrite LT; reflexivity|]. intros E. rewrite E in LT. cbn in LT. lia. }
  pose proof (all_first (fun x => x * x) n) as F. fold Q in F. pose proof (all_second n) as G.
  set (a := lsum (map (fun t => lsum (map (fun x => x * x) (resample data t))) (all_lists n n))) in *. set (b := lsum (map (fun t => lsum (resample data t) * lsum (resample data t)) (all_lists n n))) in *.
  assert (W : 0 < INR n ^ n) by (apply pow_lt; lra).
  assert (Fa : a = INR n ^ n * Q). { apply (Rmult_eq_reg_l (INR n)); [|lra]. rewrite F. ring. }
  assert (Gb : b = INR n ^ n * (INR n * INR n * Q + INR n * (INR n - 1) * (X * X)) / (INR n * INR n)). { apply (Rmult_eq_reg_l (INR n * INR n)); [|nra]. rewrite G. field. lra. }
  assert (DN : data <> []) by (intros E; unfold n in D; rewrite E in D; cbn in D; lia). pose proof (var_sums data DN) as VD. fold n X Q in VD.
  set (q := lsum (map (fun x => (x - average data) * (x - average data)) data)) in *.
  unfold average at 1. rewrite map_length, all_length, V, Fa, Gb.
  unfold sample_std. fold n q. rewrite minus_INR by lia. cbn [INR].
  assert (q0 : 0 <= q) by (apply lsum_nonneg; intros y Hy; apply in_map_iff in Hy; destruct Hy as [z [<- _]]; apply Rle_0_sqr).
  assert (K : 0 <= (INR n - 1) / INR n) by (apply Rmult_le_pos; [lra|left; apply Rinv_0_lt_compat; lra]).
  rewrite <- (sqrt_square ((INR n - 1) / INR n)) by exact K. rewrite <- sqrt_mult_alt by nra. right. f_equal.
  transitivity ((INR n - 1) / INR n * (Q / INR n - X * X / (INR n * INR n))); [field; split; lra|]. rewrite <- VD. field. lra.
Qed.
(** Adequacy of all_lists *)
Lemma all_lists_iff t k : In t (all_lists n k) <-> length t = k /\ forall i, In i t -> (i < n)%nat.
Proof.
  revert t. induction k as [|k IH]; intros t; cbn [all_lists].
  - split; [intros [<-|[]]; split; [reflexivity|intros i []]|]. intros [L _]. destruct t; [now left|discriminate].
  - rewrite in_flat_map. split.
    + intros [u [U H]]. apply in_map_iff in H. destruct H as [i [<- I]]. apply in_seq in I. apply IH in U. destruct U as [L A]. split; [cbn; congruence|]. intros j [<-|J]; [lia|now apply A].
    + intros [L A]. destruct t as [|i t]; [discriminate|]. exists t. split; [apply IH; split; [now injection L|intros j J; apply A; now right]|]. apply in_map_iff. exists i. split; [reflexivity|]. apply in_seq. specialize (A i (or_introl eq_refl)). lia.
Qed.
End All.
(** ** Scale *)
Theorem boot_std_scaled draw it i data k r : 0 <= k -> boot_std draw it i data = Ok r -> boot_std draw it i (map (Rmult k) data) = Ok (k * r).
Proof.
  intros K. unfold boot_std, bootstrap. destruct (it <? 1)%Z; [discriminate|]. cbn [bind]. intros [= <-]. f_equal. rewrite !map_length. unfold Rdiv. rewrite <- Rmult_assoc, <- lsum_map_scal. f_equal. apply lsum_map_ext. intros b _.
  rewrite <- std_scaled by exact K. f_equal. rewrite map_map. apply map_ext. intros j. rewrite <- (Rmult_0_r k) at 1. now rewrite map_nth.
Qed.

(** ** With the points in the bins *)
Lemma values_in_bin edges j ps d : increasing edges -> (2 <= length edges)%nat -> values_in edges j ps d -> in_bin_values edges (map fst ps) (map snd ps) j = d.
Proof.
  intros I L H. unfold in_bin_values. induction H as [|x v ps d B H IH|x v ps d B H IH]; [reflexivity| |]; cbn [map fst snd combine filter].
  - apply (bin_number_spec edges x j I L) in B. rewrite B. cbn [opt_eqb]. rewrite Nat.eqb_refl. cbn [map snd]. now rewrite IH.
  - destruct (opt_eqb (bin_number edges x) j) eqn:O; [|exact IH]. exfalso. apply B, (bin_number_spec edges x j I L). destruct (bin_number edges x) as [i|]; [|discriminate]. cbn in O. apply Nat.eqb_eq in O. now subst.
Qed.
Theorem errors_of_bins : forall tppf draw it edges ps errs j d, increasing edges -> boot_errors tppf draw it edges (map fst ps) (map snd ps) = Ok errs -> (S j < length edges)%nat ->
  values_in edges j ps d -> (forall b, drawn_indices (length d) (draw j b)) ->
  ((length d <= 1)%nat -> nth_error errs j = Some NaN) /\
  ((2 <= length d)%nat -> exists s, nth_error errs j = Some (t_factor tppf (length d) s) /\ 0 <= s /\ forall lo hi, (forall x, In x d -> lo <= x <= hi) -> s <= (hi - lo) / 2).
Proof.
  intros tppf draw it edges ps errs j d I E J V D. assert (V' := values_in_bin edges j ps d I ltac:(lia) V). destruct (bins_nth tppf draw it _ _ _ j _ E (binned_nth edges (map fst ps) (map snd ps) j ltac:(lia))) as [A B]. rewrite V' in A, B. split; [exact A|].
  intros L. destruct (B L) as [r [R N]]. cbn [Nat.add] in R. assert (dn : d <> []) by (intros X; rewrite X in L; cbn in L; lia). exists r. split; [exact N|]. split.
  - unfold boot_std, bootstrap in R. destruct (it <? 1)%Z; [discriminate|]. cbn [bind] in R. injection R as <-. rewrite map_length, seq_length.
    destruct (Z.to_nat it) as [|k]; [cbn; unfold Rdiv; lra|]. apply Rmult_le_pos; [|left; apply Rinv_0_lt_compat, lt_0_INR; lia]. apply lsum_nonneg. intros x Hx. apply in_map_iff in Hx. destruct Hx as [b [<- _]]. apply std_nonneg.
  - intros lo hi H. now apply (boot_std_range draw it j d lo hi r D dn H).
Qed.
Theorem no_iterations : forall tppf draw it edges ps j d, increasing edges -> (S j < length edges)%nat -> values_in edges j ps d -> d <> [] -> (it < 1)%Z ->
  boot_errors tppf draw it edges (map fst ps) (map snd ps) = Err ValueError.
Proof.
  intros tppf draw it edges ps j d I J V N H. destruct d as [|x d]; [congruence|]. apply (no_iterations0 tppf draw it _ _ _ j x H); [lia|]. rewrite (values_in_bin edges j ps _ I ltac:(lia) V). now left.
Qed.
Lemma bins_ok tppf draw it bins : (1 <= it)%Z -> forall i, exists errs, boot_bins tppf draw it i bins = Ok errs /\ length errs = length bins.
Proof.
  intros H. induction bins as [|d bins IH]; intros i; [exists []; split; reflexivity|]. destruct (IH (S i)) as [o [O L]]. cbn [boot_bins]. rewrite O. unfold boot_std, bootstrap. destruct (Z.ltb_spec it 1); [lia|].
  destruct d; cbn [bind]; eexists; (split; [reflexivity|cbn [length]; congruence]).
Qed.
Theorem some_iterations : forall tppf draw it edges ps, (1 <= it)%Z -> exists errs, boot_errors tppf draw it edges (map fst ps) (map snd ps) = Ok errs /\ length errs = (length edges - 1)%nat.
Proof. intros tppf draw it edges ps H. destruct (bins_ok tppf draw it (binned_statistic (fun l => l) edges (map fst ps) (map snd ps)) H 0) as [errs [E L]]. exists errs. split; [exact E|]. rewrite L. unfold binned_statistic, tab1. now rewrite map_length, seq_length. Qed.
(** In units of the values *)
Theorem scaled : forall tppf draw it edges ps k errs j d, 0 <= k -> increasing edges -> (S j < length edges)%nat -> values_in edges j ps d -> (2 <= length d)%nat ->
  boot_errors tppf draw it edges (map fst ps) (map snd ps) = Ok errs ->
  exists errs' s, boot_errors tppf draw it edges (map fst ps) (map (fun p => k * snd p) ps) = Ok errs' /\
    nth_error errs j = Some (t_factor tppf (length d) s) /\ nth_error errs' j = Some (t_factor tppf (length d) (k * s)).
Proof.
  intros tppf draw it edges ps k errs j d K I J V L E. set (qs := map (fun p => (fst p, k * snd p)) ps).
  assert (E1 : map fst ps = map fst qs) by (unfold qs; rewrite map_map; reflexivity). assert (E2 : map (fun p => k * snd p) ps = map snd qs) by (unfold qs; rewrite map_map; reflexivity).
  assert (V2 : values_in edges j qs (map (Rmult k) d)) by (unfold qs; clear -V; induction V; cbn [map fst snd]; [constructor|now apply v_in|now apply v_out]).
  assert (it1 : (1 <= it)%Z). { destruct (Z_lt_le_dec it 1) as [H|H]; [|exact H]. assert (dn : d <> []) by (intros X; rewrite X in L; cbn in L; lia). rewrite (no_iterations tppf draw it edges ps j d I J V dn H) in E. discriminate. }
  destruct (some_iterations tppf draw it edges qs it1) as [errs' [E' _]].
  destruct (bins_nth tppf draw it _ _ _ j _ E (binned_nth edges (map fst ps) (map snd ps) j ltac:(lia))) as [_ B]. rewrite (values_in_bin edges j ps d I ltac:(lia) V) in B. destruct (B L) as [s [S N]].
  destruct (bins_nth tppf draw it _ _ _ j _ E' (binned_nth edges (map fst qs) (map snd qs) j ltac:(lia))) as [_ B']. rewrite (values_in_bin edges j qs _ I ltac:(lia) V2), map_length in B'. destruct (B' L) as [s' [S' N']].
  exists errs', s. rewrite E1, E2. split; [exact E'|]. split; [exact N|]. rewrite N'. f_equal. f_equal. apply (boot_std_scaled draw it (0 + j) d k s K) in S. rewrite S in S'. now injection S'.
Qed.
(** ** The expectation *)
Theorem expected : forall data, (2 <= length data)%nat ->
  (forall t, In t (all_lists (length data) (length data)) <-> drawn_indices (length data) t) /\
  average (map (fun t => np_std (resample data t)) (all_lists (length data) (length data))) <= (INR (length data) - 1) / INR (length data) * sample_std data.
Proof. intros data H. split; [intros t; apply all_lists_iff|now apply all_resamples]. Qed.
(** One iteration per resample, in any order: the statistic of a bin *)
Theorem every_resample : forall draw bin data it r, (2 <= length data)%nat ->
  map (draw bin) (seq 0 (Z.to_nat it)) = all_lists (length data) (length data) -> boot_std draw it bin data = Ok r -> r <= (INR (length data) - 1) / INR (length data) * sample_std data.
Proof.
  intros draw bin data it r L M. unfold boot_std, bootstrap. destruct (it <? 1)%Z; [discriminate|]. cbn [bind]. intros [= <-].
  rewrite <- (map_map (draw bin) (fun t => np_std (map (fun i => nth i data 0) t))), M. now apply all_resamples.
Qed.
