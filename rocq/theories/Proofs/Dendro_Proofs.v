From Coq Require Import Reals List Bool ZArith Lia Lra Arith.
From Verif Require Import Lib.PyBase Lib.RSum Lib.Fl Lib.Arr Lib.Hist Spec.Blank Spec.Bins Spec.Distrib Spec.Tree Model.StatsUtils Model.Dendro.
From Verif Require Import Proofs.Fl_Proofs Proofs.FlAlg_Proofs Proofs.StatsUtils2_Proofs Proofs.Hist_Proofs.
Import ListNotations.
Local Open Scope R_scope.

(** Cumulative sums. *)
Lemma mecdf_val v : lsum v <> 0 -> mecdf_row (map Fin v) = map Fin (tab1 (length v) (fun k => lsum (firstn (S k) v) / lsum v)).
Proof.
  intros S. unfold mecdf_row. rewrite fsum_Fin. rewrite map_map. rewrite (map_ext (fun x => fdiv (Fin x) (Fin (lsum v))) (fun x => Fin (x / lsum v))) by (intro; now apply fdiv_fin).
  rewrite map_length, tab1_map. apply tab1_ext. intros k Hk.
  rewrite <- (map_map (fun x => x / lsum v) Fin), firstn_map, fsum_Fin. f_equal. rewrite firstn_map. unfold Rdiv. now rewrite lsum_map_scal_r, map_id.
Qed.
Lemma firstn_le v i j : (forall x, In x v -> 0 <= x) -> (i <= j)%nat -> lsum (firstn i v) <= lsum (firstn j v).
Proof.
  intros P. revert i j. induction v as [|a v IH]; intros i j L; [rewrite !firstn_nil; lra|].
  assert (Q : forall x, In x v -> 0 <= x) by (intros; apply P; now right).
  destruct i as [|i]; destruct j as [|j]; try lia; cbn [firstn]; [lra| |].
  - rewrite lsum_cons. change (lsum []) with 0. pose proof (P a (or_introl eq_refl)). pose proof (IH Q 0%nat j ltac:(lia)). cbn [firstn] in *. change (lsum []) with 0 in *. lra.
  - rewrite !lsum_cons. pose proof (IH Q i j ltac:(lia)). lra.
Qed.
Lemma mecdf_distribution v : (forall x, In x v -> 0 <= x) -> 0 < lsum v -> distribution (mecdf_row (map Fin v)).
Proof.
  intros P SP. rewrite mecdf_val by lra. eexists; split; [reflexivity|]. rewrite tab1_length.
  assert (I : 0 < / lsum v) by now apply Rinv_0_lt_compat.
  assert (L : (0 < length v)%nat) by (destruct v; [change (lsum []) with 0 in SP; lra | cbn; lia]).
  split; [|split; [exact L|]].
  - intros i j H. rewrite !tab1_nth by lia. assert (K : 0 <= lsum (firstn (S i) v)) by (apply (firstn_le v 0 (S i) P); lia).
    pose proof (firstn_le v (S i) (S j) P ltac:(lia)). pose proof (firstn_le v (S j) (length v) P ltac:(lia)) as T. rewrite firstn_all in T. unfold Rdiv. split; [split|]; try nra.
    rewrite <- (Rinv_r (lsum v)) by lra. apply Rmult_le_compat_r; lra.
  - rewrite tab1_nth by lia. replace (S (length v - 1)) with (length v) by lia. rewrite firstn_all. apply Rinv_r; lra.
Qed.
Lemma fsum_nan l : In NaN l -> fsum l = NaN.
Proof.
  induction l as [|x l IH]; intros H; [destruct H|]. change (fsum (x :: l)) with (fadd x (fsum l)). destruct H as [->|H]; [reflexivity|]. rewrite IH by exact H. now destruct x.
Qed.
Lemma mecdf_nan row : In NaN row -> mecdf_row row = repeat NaN (length row).
Proof.
  intros H. unfold mecdf_row. rewrite (fsum_nan _ H). rewrite map_length.
  assert (E : map (fun v => fdiv v NaN) row = repeat NaN (length row)) by (clear; induction row as [|x r IH]; cbn; [reflexivity|]; rewrite IH; now destruct x).
  rewrite E. clear. induction (length row) as [|n IH]; [reflexivity|]. 
  rewrite (tab1_ext (S n) _ (fun _ => NaN)); [|intros k Hk; cbn; reflexivity].
  clear IH. assert (Q : forall m, tab1 m (fun _ : nat => NaN) = repeat NaN m).
  { intros m. apply (nth_ext _ _ NaN NaN); [now rewrite tab1_length, repeat_length|]. intros k Hk. rewrite tab1_length in Hk. rewrite tab1_nth by exact Hk. symmetry. apply nth_repeat. }
  apply Q.
Qed.

(** Thresholds. *)
Lemma diffs_spec l : diffs_pos l = true <-> increasing l.
Proof.
  assert (G : diffs_pos l = true <-> forall i, (S i < length l)%nat -> nth i l 0 < nth (S i) l 0).
  { induction l as [|a l IH]; [cbn; split; [intros _ i Hi; lia|reflexivity]|]. destruct l as [|b l]; [cbn; split; [intros _ i Hi; lia|reflexivity]|].
    change (diffs_pos (a :: b :: l)) with (Rltb a b && diffs_pos (b :: l)). rewrite andb_true_iff, IH. split.
    - intros [H1 H2] [|i] Hi; cbn [nth]; [destruct (Rltb_spec a b); [assumption|discriminate]|]. apply H2. cbn in *. lia.
    - intros H. split; [destruct (Rltb_spec a b) as [|K]; [reflexivity|exfalso; apply K; apply (H 0%nat); cbn; lia]|]. intros i Hi. apply (H (S i)). cbn in *. lia. }
  rewrite G. split; intros H.
  - intros i j [H1 H2]. induction j as [|j IH]; [lia|]. destruct (Nat.eq_dec i j) as [->|N]; [now apply H|]. apply Rlt_trans with (nth j l 0); [apply IH; lia|now apply H].
  - intros i Hi. apply H. lia.
Qed.
Lemma set_array param l : (increasing l -> set_min_deltas param (DArray l) = Ok (A1 l)) /\ (~ increasing l -> set_min_deltas param (DArray l) = Err ValueError).
Proof.
  cbn. split; intros H.
  - apply diffs_spec in H. now rewrite H.
  - destruct (diffs_pos l) eqn:E; [exfalso; apply H; now apply diffs_spec|reflexivity].
Qed.
Lemma set_list param l a : length l <> 1%nat -> set_min_deltas param (DList l) = Ok a -> nd_len a <> length l.
Proof. cbn. intros N. destruct (diffs_pos l); [|discriminate]. intros E. inversion E; subst. cbn. lia. Qed.
Lemma set_scalar param r : set_min_deltas param (DScalar r) = Err ValueError.
Proof. now destruct param. Qed.

Lemma auto_spec m d data num M : 
  is_max M (filter (fun v => Rltb m v) (fins data)) -> d < M - m -> (1 <= num)%nat ->
  exists l, autoset_min_deltas (Some m) (Some d) data num = Ok (A1 l) /\ length l = num /\ nth 0 l 0 = d /\
    (forall i, (S i < num)%nat -> nth (S i) l 0 - nth i l 0 = (M - m - d) / INR num) /\
    (forall x, In x l -> d <= x < M - m).
Proof.
  intros [I1 I2] L N. assert (F : fins (filter (fun v => fltb (Fin m) v) data) = filter (fun v => Rltb m v) (fins data)).
  { clear. induction data as [|x r IH]; [reflexivity|]. destruct x as [q| | |]; cbn [filter fltb]; try exact IH.
    change (fins (Fin q :: r)) with (q :: fins r). cbn [filter]. destruct (Rltb m q); [|exact IH]. change (q :: fins (filter (fun v => fltb (Fin m) v) r) = q :: filter (fun v => Rltb m v) (fins r)). f_equal. exact IH. }
  unfold autoset_min_deltas. rewrite F. destruct (filter (fun v => Rltb m v) (fins data)) as [|x r] eqn:E; [destruct I1|].
  assert (EM : lmax x r = M).
  { apply Rle_antisym; [apply I2; apply lmax_in|]. destruct I1 as [<-|H]; [exact (proj1 (lmax_ge x r))|exact (proj2 (lmax_ge x r) _ H)]. }
  rewrite EM. clear EM I1 I2 E F. set (p := M - m) in *.
  assert (FL : length (firstn num (linspace d p (num + 1))) = num) by (rewrite firstn_length, linspace_length; lia).
  assert (FN : forall i, (i < num)%nat -> nth i (firstn num (linspace d p (num + 1))) 0 = d + INR i * ((p - d) / INR num)).
  { intros i Hi.
    replace (nth i (firstn num (linspace d p (num + 1))) 0) with (nth i (linspace d p (num + 1)) 0).
    - rewrite linspace_nth by lia. now replace (num + 1 - 1)%nat with num by lia.
    - rewrite <- (firstn_skipn num (linspace d p (num + 1))) at 1. rewrite app_nth1 by (rewrite FL; lia). reflexivity. }
  assert (NP : 0 < INR num) by (apply lt_0_INR; lia). assert (W : 0 < (p - d) / INR num) by (apply Rdiv_lt_0_compat; lra).
  eexists. split; [|split; [exact FL|split; [|split]]].
  - apply set_array. intros i j [H1 H2]. rewrite FL in H2. rewrite !FN by lia. apply lt_INR in H1. nra.
  - rewrite FN by lia. cbn [INR]. ring.
  - intros i Hi. rewrite !FN by lia. rewrite S_INR. ring.
  - intros y Hy. apply (In_nth _ _ 0) in Hy. destruct Hy as [i [Hi <-]]. rewrite FL in Hi. rewrite FN by exact Hi. pose proof (pos_INR i). apply lt_INR in Hi. split; [nra|].
    replace p with (d + INR num * ((p - d) / INR num)) at 2 by (field; lra). nra.
Qed.
Lemma auto_missing d data num l : autoset_min_deltas None d data num <> Ok l.
Proof. cbn. destruct (Nat.leb num 1); discriminate. Qed.

(** Pruning. *)
Section Compute.
Context {D : Type} (build : R -> D) (prune : R -> D -> D) (num : D -> nat) (vmax : D -> list R).
Lemma steps_spec r : forall d out last, prune_steps prune num vmax d r = (out, last) ->
  length out = length r /\ last = fold_left (fun d x => prune x d) r d /\
  forall k dflt, (k < length r)%nat -> nth k out dflt = let e := fold_left (fun d x => prune x d) (firstn (S k) r) d in (num e, vmax e).
Proof.
  induction r as [|x r IH]; intros d out last E; cbn in E; [inversion E; subst; cbn; repeat split; intros; lia|].
  destruct (prune_steps prune num vmax (prune x d) r) as [o l] eqn:P. inversion E; subst. destruct (IH _ _ _ P) as [H1 [H2 H3]]. cbn [length fold_left].
  split; [now rewrite H1|]. split; [exact H2|]. intros [|k] df Hk; [reflexivity|]. cbn [nth]. rewrite H3 by lia. reflexivity.
Qed.
Lemma compute_spec d0 r obj out last : compute_dendro build prune num vmax (d0 :: r) obj = Ok (out, last) ->
  let start := match obj with None => build d0 | Some d => d end in
  let after k := fold_left (fun d x => prune x d) (firstn k r) start in
  length out = S (length r) /\ last = after (length r) /\ forall k dflt, (k <= length r)%nat -> nth k out dflt = (num (after k), vmax (after k)).
Proof.
  cbn zeta. unfold compute_dendro. set (s := match obj with None => build d0 | Some d => d end). destruct (prune_steps prune num vmax s r) as [o l] eqn:P. intros E. inversion E; subst.
  destruct (steps_spec _ _ _ _ P) as [H1 [H2 H3]]. rewrite firstn_all. split; [cbn; now rewrite H1|]. split; [exact H2|]. intros [|k] df Hk; [reflexivity|]. cbn [nth]. now rewrite H3 by lia.
Qed.
Lemma compute_noninc deltas obj out last : (forall x d, (num (prune x d) <= num d)%nat) -> compute_dendro build prune num vmax deltas obj = Ok (out, last) -> nonincreasing (map fst out).
Proof.
  intros M E. destruct deltas as [|d0 r]; [discriminate|]. destruct (compute_spec _ _ _ _ _ E) as [L [_ H]]. cbn zeta in *. set (s := match obj with None => build d0 | Some d => d end) in *.
  intros i j [H1 H2]. rewrite map_length, L in H2. 
  assert (G : forall k, (k <= length r)%nat -> nth k (map fst out) 0%nat = num (fold_left (fun d x => prune x d) (firstn k r) s)).
  { intros k Hk. rewrite (nth_indep _ 0%nat (fst (0%nat, @nil R))) by (rewrite map_length, L; lia). now rewrite map_nth, H by lia. }
  rewrite !G by lia. clear G.
  clear H E. induction j as [|j IH]; [replace i with 0%nat by lia; lia|]. destruct (Nat.eq_dec i (S j)) as [->|N]; [lia|]. apply Nat.le_trans with (num (fold_left (fun d x => prune x d) (firstn j r) s)); [|apply IH; lia].
  assert (K : (j < length r)%nat) by lia. clearbody s. clear - K M. revert s j K. induction r as [|x r IH]; intros s j K; [cbn in K; lia|]. destruct j as [|j]; [cbn; apply M|]. cbn [firstn fold_left]. apply IH. cbn in K. lia.
Qed.
Lemma prune_again_id l x s : (forall d a b, a <= b -> prune a (prune b d) = prune b d) -> (forall y, In y l -> y <= x) ->
  fold_left (fun d a => prune a d) l (prune x s) = prune x s.
Proof.
  intros P. revert s. induction l as [|y l IH]; intros s H; [reflexivity|]. cbn [fold_left]. rewrite P by (apply H; now left). apply IH. intros; apply H; now right.
Qed.
Lemma rerun d0 r d out last out2 last2 : (forall d a b, a <= b -> prune a (prune b d) = prune b d) -> increasing (d0 :: r) ->
  compute_dendro build prune num vmax (d0 :: r) (Some d) = Ok (out, last) ->
  compute_dendro build prune num vmax (d0 :: r) (Some last) = Ok (out2, last2) ->
  last2 = last /\ forall k dflt, (k < length out)%nat -> nth k out2 dflt = nth (length out - 1) out dflt.
Proof.
  intros P I E1 E2. destruct (compute_spec _ _ _ _ _ E1) as [L1 [A1 H1]]. destruct (compute_spec _ _ _ _ _ E2) as [L2 [A2 H2]]. cbn zeta in *.
  assert (K : forall k, (k <= length r)%nat -> fold_left (fun d x => prune x d) (firstn k r) last = last).
  { intros k Hk. destruct (Nat.eq_dec (length r) 0) as [Z|Z]; [assert (k = 0)%nat by lia; now subst k|]. 
    destruct (@exists_last _ r) as [r' [x Er]]; [intros ->; apply Z; reflexivity|].
    rewrite firstn_all in A1. assert (Q : last = prune x (fold_left (fun d x => prune x d) r' d)) by (rewrite A1, Er; now rewrite fold_left_app).
    rewrite Q at 1. rewrite prune_again_id; [now rewrite <- Q|exact P|]. intros y Hy.
    assert (Hy2 : In y r) by (rewrite <- (firstn_skipn k r); apply in_or_app; now left). rewrite Er in Hy2. apply in_app_or in Hy2. destruct Hy2 as [Hy2|[<-|[]]]; [|lra].
    apply (In_nth _ _ 0) in Hy2. destruct Hy2 as [i [Hi <-]]. left.
    pose proof (I (S i) (S (length r'))) as V. cbn [nth length] in V. rewrite Er in V. rewrite app_length in V. rewrite app_nth1, app_nth2 in V by lia. rewrite Nat.sub_diag in V. apply V. cbn [length]. lia. }
  split; [rewrite A2; apply K; lia|]. intros k df Hk. rewrite L1 in *. rewrite H2 by lia. rewrite H1 by lia. rewrite K by lia. replace (S (length r) - 1)%nat with (length r) by lia. now rewrite <- A1.
Qed.
End Compute.

(** Histograms of one dendrogram. *)
Lemma hists_none mn values hs : make_hists mn None values = Ok hs ->
  length hs = length values /\ forall i, (i < length values)%nat ->
    let v := nth i values [] in
    if Nat.ltb (length v) mn then nth i hs ([], []) = ([], []) else
    exists edges, bin_edges v (NumBins (Nat.sqrt (length v))) = Ok edges /\ nth i hs ([], []) = (mid edges, counts v edges).
Proof.
  revert hs. induction values as [|v r IH]; intros hs E; cbn [make_hists] in E; [inversion E; split; [reflexivity|intros i Hi; cbn in Hi; lia]|].
  cbn zeta. destruct (Nat.ltb (length v) mn) eqn:N.
  - unfold bind in E. destruct (make_hists mn None r) as [rest|] eqn:Er; [|discriminate]. inversion E; subst. destruct (IH _ eq_refl) as [L H]. cbn [length]. split; [now rewrite L|].
    intros [|i] Hi; cbn [nth]; [now rewrite N|]. apply H. lia.
  - unfold bind, np_histogram, bind in E. destruct (bin_edges v (NumBins (Nat.sqrt (length v)))) as [e|] eqn:B; [|discriminate]. destruct (make_hists mn None r) as [rest|] eqn:Er; [|discriminate]. inversion E; subst. destruct (IH _ eq_refl) as [L H]. cbn [length]. split; [now rewrite L|].
    intros [|i] Hi; cbn [nth]; [rewrite N; now exists e|]. apply H. lia.
Qed.
Lemma hists_bins mn b values hs : make_hists mn (Some b) values = Ok hs ->
  length hs = length values /\ forall i, (i < length values)%nat ->
    let v := nth i values [] in
    if Nat.ltb (length v) mn then nth i hs ([], []) = ([], []) else
    exists edges, bin_edges v (if existsb (fun w => negb (Nat.ltb (length w) mn)) (firstn i values) then NumBins (Nat.sqrt (length v)) else b) = Ok edges /\ nth i hs ([], []) = (mid edges, counts v edges).
Proof.
  revert hs. induction values as [|v r IH]; intros hs E; cbn [make_hists] in E; [inversion E; split; [reflexivity|intros i Hi; cbn in Hi; lia]|].
  cbn zeta. destruct (Nat.ltb (length v) mn) eqn:N.
  - unfold bind in E. destruct (make_hists mn (Some b) r) as [rest|] eqn:Er; [|discriminate]. inversion E; subst. destruct (IH _ eq_refl) as [L H]. cbn [length]. split; [now rewrite L|].
    intros [|i] Hi; cbn [nth]; [now rewrite N|]. cbn [firstn existsb]. rewrite N. cbn [negb orb]. apply H. lia.
  - unfold bind, np_histogram, bind in E. destruct (bin_edges v b) as [e|] eqn:B; [|discriminate]. destruct (make_hists mn None r) as [rest|] eqn:Er; [|discriminate]. inversion E; subst. destruct (hists_none _ _ _ Er) as [L H]. cbn [length]. split; [now rewrite L|].
    intros [|i] Hi; cbn [nth]; [rewrite N; now exists e|]. cbn [firstn existsb]. rewrite N. cbn [negb orb]. apply H. lia.
Qed.

(** Cut-offs. *)
Lemma argwhere_in l m i : In i (argwhere_gt l m) <-> qualifies l m i.
Proof. unfold argwhere_gt, qualifies. rewrite filter_In, in_seq. destruct (Nat.ltb_spec m (nth i l 0%nat)); intuition (try lia; try discriminate). Qed.
Lemma last_filter_seq (p : nat -> bool) n d : forall i, In i (filter p (seq 0 n)) -> (i <= last (filter p (seq 0 n)) d)%nat /\ In (last (filter p (seq 0 n)) d) (filter p (seq 0 n)).
Proof.
  induction n as [|n IH]; intros i H; [destruct H|]. rewrite seq_S, filter_app in *. cbn [filter Nat.add] in *. destruct (p n) eqn:P.
  - rewrite last_last. split; [|apply in_or_app; right; now left]. apply in_app_or in H. destruct H as [H|[<-|[]]]; [|lia]. apply filter_In in H. destruct H as [H _]. apply in_seq in H. lia.
  - rewrite app_nil_r in *. now apply IH.
Qed.
Lemma one_cutoff_spec l m : (exists i, (0 < i)%nat /\ qualifies l m i) ->
  exists c, one_cutoff l m = Ok c /\ qualifies l m c /\ (0 < c)%nat /\ forall i, qualifies l m i -> (i <= c)%nat.
Proof.
  intros [i [P Q]]. unfold one_cutoff. pose proof (proj2 (argwhere_in l m i) Q) as I.
  assert (E : existsb (fun i => negb (Nat.eqb i 0)) (argwhere_gt l m) = true) by (apply existsb_exists; exists i; split; [exact I|]; destruct (Nat.eqb_spec i 0); [lia|reflexivity]).
  rewrite E. eexists; split; [reflexivity|]. destruct (last_filter_seq _ _ 0%nat i I) as [A B].
  split; [now apply argwhere_in|]. fold (argwhere_gt l m) in *. split; [lia|]. intros j Hj. apply argwhere_in in Hj. now apply (last_filter_seq _ _ 0%nat j Hj).
Qed.
Lemma one_cutoff_fail l m : ~ (exists i, (0 < i)%nat /\ qualifies l m i) -> one_cutoff l m = Err ValueError.
Proof.
  intros N. unfold one_cutoff. destruct (existsb _ _) eqn:E; [|reflexivity]. exfalso. apply N. apply existsb_exists in E. destruct E as [i [I P]]. exists i. split; [destruct (Nat.eqb_spec i 0); [discriminate|lia]|now apply argwhere_in].
Qed.
Lemma cutoff_iff l1 l2 m : is_ok (cutoff l1 l2 m) = true <-> (exists i, (0 < i)%nat /\ qualifies l1 m i) /\ (exists i, (0 < i)%nat /\ qualifies l2 m i).
Proof.
  unfold cutoff, bind. split.
  - intros H. split.
    + destruct (one_cutoff l1 m) eqn:E; [|discriminate]. unfold one_cutoff in E. destruct (existsb _ _) eqn:X; [|discriminate]. apply existsb_exists in X. destruct X as [i [I P]]. exists i. split; [destruct (Nat.eqb_spec i 0); [discriminate|lia]|now apply argwhere_in].
    + destruct (one_cutoff l1 m); [|discriminate]. destruct (one_cutoff l2 m) eqn:E; [|discriminate]. unfold one_cutoff in E. destruct (existsb _ _) eqn:X; [|discriminate]. apply existsb_exists in X. destruct X as [i [I P]]. exists i. split; [destruct (Nat.eqb_spec i 0); [discriminate|lia]|now apply argwhere_in].
  - intros [A B]. destruct (one_cutoff_spec _ _ A) as [c [-> _]]. destruct (one_cutoff_spec _ _ B) as [c2 [-> _]]. reflexivity.
Qed.
Lemma cutoff_used l1 l2 m c : nonincreasing l1 -> nonincreasing l2 -> length l1 = length l2 -> cutoff l1 l2 m = Ok c ->
  (forall i, qualifies l1 m i /\ qualifies l2 m i <-> (i <= c)%nat) /\ (1 <= c < length l1)%nat.
Proof.
  intros N1 N2 L E. assert (O : is_ok (cutoff l1 l2 m) = true) by now rewrite E. apply cutoff_iff in O. destruct O as [A B].
  unfold cutoff, bind in E. destruct (one_cutoff_spec _ _ A) as [c1 [E1 [[Q1 Q1'] [P1 M1]]]]. destruct (one_cutoff_spec _ _ B) as [c2 [E2 [[Q2 Q2'] [P2 M2]]]]. rewrite E1, E2 in E. inversion E; subst. split; [|lia].
  intros i. split; [intros [H K]; apply M1 in H; apply M2 in K; lia|]. intros H. split; split; try lia.
  - pose proof (N1 i c1 ltac:(lia)). lia.
  - pose proof (N2 i c2 ltac:(lia)). lia.
Qed.
Lemma cutoff_first l1 l2 m : qualifies l1 m 0 -> (forall i, (0 < i)%nat -> ~ qualifies l1 m i) -> cutoff l1 l2 m = Err ValueError.
Proof. intros _ H. unfold cutoff, bind. rewrite one_cutoff_fail; [reflexivity|]. intros [i [P Q]]. now apply (H i). Qed.

(** Keywords and thresholds of a comparison. *)
Lemma kwargs_second run1 k l : In KMakeHists l \/ In KVerbose l -> distance_kwargs run1 true k (Some l) = Err TypeError.
Proof.
  intros H. assert (E : existsb is_reserved l = true) by (apply existsb_exists; destruct H as [H|H]; eexists; split; try exact H; reflexivity).
  unfold distance_kwargs, bind, run_kwargs. rewrite E. destruct run1; [|reflexivity].
  assert (Z : existsb is_reserved (pop_reserved k) = false) by (unfold pop_reserved; clear; induction k as [|x k IH]; [reflexivity|]; cbn; destruct (is_reserved x) eqn:X; cbn; [exact IH|now rewrite X]).
  rewrite Z. reflexivity.
Qed.
Lemma pop_none k : existsb is_reserved (pop_reserved k) = false.
Proof. unfold pop_reserved. induction k as [|x k IH]; [reflexivity|]. cbn. destruct (is_reserved x) eqn:X; cbn; [exact IH|now rewrite X]. Qed.
Lemma kwargs_shared run1 k : exists k', distance_kwargs run1 true k None = Ok k' /\ k' = filter (fun x => negb (is_reserved x)) k.
Proof.
  unfold distance_kwargs, bind, run_kwargs. destruct run1; rewrite ?pop_none.
  - assert (E : pop_reserved (pop_reserved k) = pop_reserved k) by (unfold pop_reserved; induction k as [|x k IH]; [reflexivity|]; cbn; destruct (is_reserved x) eqn:X; cbn; [exact IH|rewrite X; cbn; now rewrite IH]).
    eexists; split; [reflexivity|]. exact E.
  - eexists; split; reflexivity.
Qed.
Lemma used_object d slope md u again : used_deltas (Object d slope) md = Ok (u, again) -> u = d.
Proof. cbn. destruct (Nat.eqb _ _); [|discriminate]. intros E. now inversion E. Qed.
Lemma all_eq_spec a b : length a = length b -> (all_eq a b = true <-> a = b).
Proof.
  revert b. induction a as [|x a IH]; intros [|y b] L; try discriminate; [split; reflexivity|]. cbn. rewrite andb_true_iff, IH by (cbn in L; lia). destruct (Reqb_spec x y) as [E|E].
  - subst. split; [intros [_ ->]; reflexivity|]. intros H. inversion H. now split.
  - split; [intros [H _]; discriminate|]. intros H. inversion H. contradiction.
Qed.
