(** Proofs about histograms and ECDFs. *)
From Coq Require Import Reals List Bool Arith Lra Lia.
From Verif Require Import Lib.PyBase Lib.RSum Lib.Fl Lib.Arr Lib.Hist Spec.Bins Spec.Distrib.
Import ListNotations.
Local Open Scope R_scope.

Lemma count_lt_le data e : (count_lt data e <= count_le data e)%nat.
Proof.
  unfold count_lt, count_le. induction data as [|x l IH]; cbn [filter length]; [lia|].
  destruct (Rltb_spec x e), (Rleb_spec x e); cbn [length]; try lra; lia.
Qed.
Lemma count_le_lt data a b : a < b -> (count_le data a <= count_lt data b)%nat.
Proof.
  intros H. unfold count_lt, count_le. induction data as [|x l IH]; cbn [filter length]; [lia|].
  destruct (Rleb_spec x a), (Rltb_spec x b); cbn [length]; try lra; lia.
Qed.
Lemma count_lt_mono data a b : a <= b -> (count_lt data a <= count_lt data b)%nat.
Proof.
  intros H. unfold count_lt. induction data as [|x l IH]; cbn [filter length]; [lia|].
  destruct (Rltb_spec x a), (Rltb_spec x b); cbn [length]; try lra; lia.
Qed.
Lemma count_le_mono data a b : a <= b -> (count_le data a <= count_le data b)%nat.
Proof.
  intros H. unfold count_le. induction data as [|x l IH]; cbn [filter length]; [lia|].
  destruct (Rleb_spec x a), (Rleb_spec x b); cbn [length]; try lra; lia.
Qed.
Lemma count_le_all data a : (forall x, In x data -> x <= a) -> count_le data a = length data.
Proof.
  intros H. unfold count_le. induction data as [|x l IH]; cbn [filter length]; [reflexivity|].
  destruct (Rleb_spec x a) as [L|L]; [cbn [length]; rewrite IH; [reflexivity|intros; apply H; now right]|].
  exfalso. specialize (H x (or_introl eq_refl)). lra.
Qed.
Lemma count_lt_none data a : (forall x, In x data -> a <= x) -> count_lt data a = 0%nat.
Proof.
  intros H. unfold count_lt. induction data as [|x l IH]; cbn [filter length]; [reflexivity|].
  destruct (Rltb_spec x a) as [L|L]; [exfalso; specialize (H x (or_introl eq_refl)); lra|]. apply IH. intros; apply H; now right.
Qed.
Lemma count_le_length data a : (count_le data a <= length data)%nat.
Proof. unfold count_le. induction data as [|x l IH]; cbn [filter length]; [lia|]. destruct (Rleb x a); cbn [length]; lia. Qed.

(** cum_n grows. *)
Lemma cum_mono data edges i : increasing edges -> (S i < length edges)%nat -> cum_n data edges i <= cum_n data edges (S i).
Proof.
  intros H Hi. unfold cum_n. destruct (Nat.eqb_spec (S i) (length edges)); [lia|].
  assert (L : nth i edges 0 < nth (S i) edges 0) by (apply H; lia).
  destruct (Nat.eqb_spec (S (S i)) (length edges)); apply le_INR.
  - pose proof (count_lt_mono data _ _ (Rlt_le _ _ L)). pose proof (count_lt_le data (nth (S i) edges 0)). lia.
  - apply count_lt_mono. lra.
Qed.
Lemma counts_nth data edges i : (S i < length edges)%nat -> nth i (counts data edges) 0 = cum_n data edges (S i) - cum_n data edges i.
Proof. intros H. unfold counts. now rewrite tab1_nth by lia. Qed.
Lemma counts_length data edges : length (counts data edges) = (length edges - 1)%nat.
Proof. apply tab1_length. Qed.
Lemma telescope (c : nat -> R) n : rsum n (fun i => c (S i) - c i) = c n - c 0%nat.
Proof. induction n as [|n IH]; cbn [rsum]; [ring|]. rewrite IH. ring. Qed.

Lemma counts_sum data edges : (2 <= length edges)%nat ->
  lsum (counts data edges) = INR (count_le data (nth (length edges - 1) edges 0)) - INR (count_lt data (nth 0 edges 0)).
Proof.
  intros H. rewrite (lsum_nth _ 0), counts_length. rewrite (rsum_ext _ _ (fun i => cum_n data edges (S i) - cum_n data edges i)) by (intros i Hi; apply counts_nth; lia).
  rewrite telescope. unfold cum_n. destruct (Nat.eqb_spec (S (length edges - 1)) (length edges)); [|lia]. destruct (Nat.eqb_spec 1 (length edges)); [lia|]. reflexivity.
Qed.

Lemma counts_are data edges i : increasing edges -> (S i < length edges)%nat ->
  nth i (counts data edges) 0 = INR (length (filter (in_binb edges i) data)).
Proof.
  intros H Hi. rewrite counts_nth by exact Hi. assert (L : nth i edges 0 < nth (S i) edges 0) by (apply H; lia). unfold cum_n, in_binb.
  destruct (Nat.eqb_spec (S i) (length edges)); [lia|]. destruct (Nat.eqb_spec (S (S i)) (length edges)).
  all: set (a := nth i edges 0) in *; set (b := nth (S i) edges 0) in *.
  - assert (E : (count_le data b = count_lt data a + length (filter (fun x => Rleb a x && Rleb x b) data))%nat).
    { unfold count_le, count_lt. induction data as [|x l IH]; cbn [filter length]; [reflexivity|].
      destruct (Rleb_spec x b), (Rltb_spec x a), (Rleb_spec a x); cbn [andb length]; try lra; lia. }
    rewrite E, plus_INR. ring.
  - assert (E : (count_lt data b = count_lt data a + length (filter (fun x => Rleb a x && Rltb x b) data))%nat).
    { unfold count_lt. induction data as [|x l IH]; cbn [filter length]; [reflexivity|].
      destruct (Rltb_spec x b), (Rltb_spec x a), (Rleb_spec a x); cbn [andb length]; try lra; lia. }
    rewrite E, plus_INR. ring.
Qed.

Lemma total_pos data edges x : increasing edges -> (2 <= length edges)%nat -> In x data -> in_range edges x -> 0 < lsum (counts data edges).
Proof.
  intros H HL Hx [R1 R2]. rewrite counts_sum by exact HL. apply Rlt_Rminus. apply lt_INR.
  assert (N : nth 0 edges 0 < nth (length edges - 1) edges 0) by (apply H; lia).
  clear H. induction data as [|y l IH]; [destruct Hx|]. unfold count_le, count_lt in *. cbn [filter].
  destruct Hx as [->|Hx].
  - destruct (Rleb_spec x (nth (length edges - 1) edges 0)); [|lra]. destruct (Rltb_spec x (nth 0 edges 0)); [lra|]. cbn [length].
    assert (K := count_lt_le l (nth 0 edges 0)). assert (K2 := count_le_mono l _ _ (Rlt_le _ _ N)). unfold count_lt, count_le in K, K2. lia.
  - specialize (IH Hx). destruct (Rltb_spec y (nth 0 edges 0)), (Rleb_spec y (nth (length edges - 1) edges 0)); cbn [length]; try lra; lia.
Qed.

Lemma density_pdf data edges x : increasing edges -> (2 <= length edges)%nat -> In x data -> in_range edges x ->
  is_pdf edges (density data edges) /\
  forall i, (S i < length edges)%nat ->
    nth i (density data edges) NaN = Fin (INR (length (filter (in_binb edges i) data)) / (nth (S i) edges 0 - nth i edges 0) / lsum (counts data edges)).
Proof.
  intros H HL Hx Hr. assert (T := total_pos data edges x H HL Hx Hr).
  set (v := tab1 (length edges - 1) (fun i => nth i (counts data edges) 0 / (nth (S i) edges 0 - nth i edges 0) / lsum (counts data edges))).
  assert (E : density data edges = map Fin v).
  { unfold density, v. cbv zeta. rewrite tab1_map. apply tab1_ext. intros i Hi.
    assert (L : nth i edges 0 < nth (S i) edges 0) by (apply H; lia). rewrite !fdiv_fin by lra. reflexivity. }
  assert (LV : length v = (length edges - 1)%nat) by apply tab1_length.
  assert (NV : forall i, (i < length edges - 1)%nat -> nth i v 0 = nth i (counts data edges) 0 / (nth (S i) edges 0 - nth i edges 0) / lsum (counts data edges)).
  { intros i Hi. unfold v. now rewrite tab1_nth. }
  split.
  - exists v. split; [exact E|]. split; [lia|]. split.
    + intros y Hy. apply In_nth with (d := 0) in Hy. destruct Hy as [i [Hi <-]]. rewrite LV in Hi. rewrite NV by exact Hi.
      assert (L : nth i edges 0 < nth (S i) edges 0) by (apply H; lia).
      rewrite counts_nth by lia. assert (M := cum_mono data edges i H ltac:(lia)).
      apply Rmult_le_pos; [|left; now apply Rinv_0_lt_compat]. apply Rmult_le_pos; [lra|]. left. apply Rinv_0_lt_compat. lra.
    + rewrite LV. rewrite (rsum_ext _ _ (fun i => nth i (counts data edges) 0 * / lsum (counts data edges))).
      * rewrite rsum_scal_r. rewrite <- counts_length with (data := data), <- lsum_nth. apply Rinv_r. lra.
      * intros i Hi. rewrite NV by exact Hi. assert (L : nth i edges 0 < nth (S i) edges 0) by (apply H; lia). field. split; lra.
  - intros i Hi. rewrite E, nth_indep with (d' := Fin 0) by (rewrite map_length; lia). rewrite map_nth, NV by lia. now rewrite counts_are.
Qed.

(** ** Automatic edges *)
Lemma lmin_le x l : lmin x l <= x /\ (forall y, In y l -> lmin x l <= y).
Proof.
  revert x. induction l as [|z l IH]; intros x; cbn [lmin]; [split; [lra|intros y []]|]. destruct (IH (Rmin x z)) as [A B].
  pose proof (Rmin_l x z). pose proof (Rmin_r x z). split; [lra|]. intros y [<-|Hy]; [lra|now apply B].
Qed.
Lemma lmax_ge x l : x <= lmax x l /\ (forall y, In y l -> y <= lmax x l).
Proof.
  revert x. induction l as [|z l IH]; intros x; cbn [lmax]; [split; [lra|intros y []]|]. destruct (IH (Rmax x z)) as [A B].
  pose proof (Rmax_l x z). pose proof (Rmax_r x z). split; [lra|]. intros y [<-|Hy]; [lra|now apply B].
Qed.
Lemma lmax_in x l : In (lmax x l) (x :: l).
Proof.
  revert x. induction l as [|z l IH]; intros x; cbn [lmax]; [now left|]. destruct (IH (Rmax x z)) as [E|E]; [|right; now right].
  rewrite <- E. unfold Rmax. destruct (Rle_dec x z); [right; now left|now left].
Qed.
Lemma outer_spec data a b : outer_edges data = (a, b) -> a < b /\ (forall x, In x data -> a <= x <= b).
Proof.
  destruct data as [|x r]; cbn [outer_edges].
  - intros E. inversion E; subst. split; [lra|]. intros x [].
  - destruct (lmin_le x r) as [A1 A2], (lmax_ge x r) as [B1 B2]. intros E.
    assert (K : a <= lmin x r /\ lmax x r <= b /\ a < b).
    { destruct (Reqb_spec (lmin x r) (lmax x r)); inversion E; subst; lra. }
    split; [lra|]. intros y [<-|Hy]; [lra|]. specialize (A2 y Hy). specialize (B2 y Hy). lra.
Qed.
Lemma auto_edges data n edges : bin_edges data (NumBins n) = Ok edges ->
  (1 <= n)%nat /\ length edges = (n + 1)%nat /\ increasing edges /\ (forall x, In x data -> in_range edges x).
Proof.
  destruct n as [|n]; [discriminate|]. cbn [bin_edges]. destruct (outer_edges data) as [a b] eqn:O. intros E.
  apply (f_equal (fun r => match r with Ok l => l | Err _ => [] end)) in E. subst edges. set (m := S n).
  destruct (outer_spec data a b O) as [Hab Hin]. assert (P : 0 < INR m) by (apply lt_0_INR; unfold m; lia).
  assert (N : forall k, (k < m + 1)%nat -> nth k (tab1 (m + 1) (fun k => a + INR k * ((b - a) / INR m))) 0 = a + INR k * ((b - a) / INR m)) by (intros k Hk; now rewrite tab1_nth).
  split; [lia|]. split; [apply tab1_length|]. split.
  - intros i j [Hij Hj]. rewrite tab1_length in Hj. rewrite !N by lia. apply Rplus_lt_compat_l. apply Rmult_lt_compat_r; [|now apply lt_INR]. apply Rdiv_lt_0_compat; lra.
  - intros x Hx. unfold in_range. rewrite tab1_length. replace (m + 1 - 1)%nat with m by lia. rewrite !N by lia. cbn [INR].
    replace (a + 0 * ((b - a) / INR m)) with a by ring. replace (a + INR m * ((b - a) / INR m)) with b by (field; lra). now apply Hin.
Qed.
Lemma nondec_spec l : nondecreasing l = true <-> forall i, (S i < length l)%nat -> nth i l 0 <= nth (S i) l 0.
Proof.
  induction l as [|a l IH]; [cbn; split; [intros _ i Hi; lia|reflexivity]|]. destruct l as [|b l]; [cbn; split; [intros _ i Hi; lia|reflexivity]|].
  change (nondecreasing (a :: b :: l)) with (Rleb a b && nondecreasing (b :: l)). rewrite andb_true_iff, IH. split.
  - intros [H1 H2] [|i] Hi; cbn [nth]; [destruct (Rleb_spec a b); [assumption|discriminate]|]. apply H2. cbn in *. lia.
  - intros H. split; [destruct (Rleb_spec a b) as [|N]; [reflexivity|]; exfalso; apply N; apply (H 0%nat); cbn; lia|].
    intros i Hi. apply (H (S i)). cbn in *. lia.
Qed.
Lemma incr_nondec l : increasing l -> nondecreasing l = true.
Proof. intros H. apply nondec_spec. intros i Hi. left. apply H. lia. Qed.

Lemma histogram_auto data n h edges : data <> [] -> histogram data (NumBins n) = Ok (h, edges) -> is_pdf edges h.
Proof.
  intros Hd E. unfold histogram, bind in E. destruct (bin_edges data (NumBins n)) as [e|] eqn:B; [|discriminate].
  inversion E; subst. destruct (auto_edges _ _ _ B) as [H1 [H2 [H3 H4]]]. destruct data as [|x r]; [contradiction|].
  apply (density_pdf (x :: r) edges x); auto; [lia|now left|apply H4; now left].
Qed.
Lemma histogram_edges data edges x : increasing edges -> (2 <= length edges)%nat -> In x data -> in_range edges x ->
  histogram data (Edges edges) = Ok (density data edges, edges) /\ is_pdf edges (density data edges).
Proof.
  intros H HL Hx Hr. split; [unfold histogram, bind; cbn [bin_edges]; now rewrite incr_nondec|]. now apply (density_pdf data edges x).
Qed.

(** ** ECDF *)
Lemma ecdf_val data x : data <> [] -> ecdf data x = Fin (INR (count_le data x) / INR (length data)).
Proof. intros H. unfold ecdf. apply fdiv_fin. apply not_0_INR. destruct data; [contradiction|discriminate]. Qed.
Lemma ecdf_bounds data x v : data <> [] -> ecdf data x = Fin v -> 0 <= v <= 1.
Proof.
  intros H E. rewrite ecdf_val in E by exact H. inversion E; subst. assert (P : 0 < INR (length data)) by (apply lt_0_INR; destruct data; [contradiction|cbn; lia]).
  pose proof (pos_INR (count_le data x)). pose proof (le_INR _ _ (count_le_length data x)). split.
  - apply Rmult_le_pos; [lra|]. left. now apply Rinv_0_lt_compat.
  - apply Rmult_le_reg_r with (INR (length data)); [exact P|]. unfold Rdiv. rewrite Rmult_assoc, Rinv_l by lra. lra.
Qed.
Lemma ecdf_mono data x y u v : data <> [] -> x <= y -> ecdf data x = Fin u -> ecdf data y = Fin v -> u <= v.
Proof.
  intros H L E1 E2. rewrite ecdf_val in E1, E2 by exact H. inversion E1; inversion E2; subst. apply Rmult_le_compat_r; [|apply le_INR; now apply count_le_mono].
  left. apply Rinv_0_lt_compat. apply lt_0_INR. destruct data; [contradiction|cbn; lia].
Qed.
Lemma ecdf_top data x : data <> [] -> (forall y, In y data -> y <= x) -> ecdf data x = Fin 1.
Proof.
  intros H T. rewrite ecdf_val by exact H. rewrite count_le_all by exact T. f_equal. apply Rinv_r. apply not_0_INR. destruct data; [contradiction|discriminate].
Qed.
