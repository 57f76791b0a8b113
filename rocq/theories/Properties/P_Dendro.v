(** Dendrogram statistics (C67, C74, C164-C172).

    [num] are the numbers of features and [vals] the peak values, one entry per min_delta; the
    dendrogram itself is any object with an in-place [prune]. *)
From Coq Require Import Reals List Bool ZArith Arith Lia Lra.
From Verif Require Import Lib.PyBase Lib.RSum Lib.Fl Lib.Arr Lib.Hist Spec.Blank Spec.Bins Spec.Distrib Spec.Tree Model.StatsUtils Model.Dendro
  Proofs.Hist_Proofs Proofs.Dendro_Proofs Proofs.Dendro2_Proofs Proofs.Dendro3_Proofs Proofs.Dendro4_Proofs Proofs.Dendro5_Proofs.
Import ListNotations.
Local Open Scope R_scope.

(** A comparable pair used in the examples. *)
Lemma pair_comparable : comparable [8; 2]%nat [8; 2]%nat [[1; 2; 3; 4; 5; 6; 7; 8]; [1; 3]] [[0; 1; 1; 1; 2; 2; 3; 9]; [2; 4]] 2.
Proof.
  split; [lia|]. do 4 (split; [cbn; lia|]). intros i Hi. destruct i as [|[|i]]; [| |lia]; cbn [nth]; (split; [lia|split; [lia|split]]).
  - exists 1, 2. repeat split; cbn; auto; lra.
  - exists 0, 1. repeat split; cbn; auto; lra.
  - exists 1, 3. repeat split; cbn; auto; lra.
  - exists 2, 4. repeat split; cbn; auto; lra.
Qed.

(** ** C67 *)
Theorem C67_rows_partial : forall v, (forall x, In x v -> 0 <= x) -> 0 < lsum v ->
  distribution (mecdf_row (map Fin v)) /\
  mecdf_row (map Fin v) = map Fin (tab1 (length v) (fun k => lsum (firstn (S k) v) / lsum v)).
Proof. intros v H S. split; [now apply mecdf_distribution|apply mecdf_val; lra]. Qed.
Print Assumptions C67_rows_partial.
(** Missing: rows padded with blanks. *)
Theorem C67_padded_refuted : forall v k, (0 < k)%nat -> mecdf_row (padded v k) = repeat NaN (length v + k).
Proof.
  intros v k H. rewrite mecdf_nan; [now rewrite padded_length|]. unfold padded. apply in_or_app. right. destruct k; [lia|now left].
Qed.
Print Assumptions C67_padded_refuted.
Theorem C67_comparison_refuted : forall num1 num2 vals1 vals2 cut nb h1 h2 d i, comparable num1 num2 vals1 vals2 cut ->
  histogram_stat num1 num2 vals1 vals2 cut NBest = Ok (nb, h1, h2, d) -> (i < cut)%nat -> (nth i nb 0 < list_max nb)%nat ->
  mecdf_row (nth i h1 []) = repeat NaN (list_max nb) /\ mecdf_row (nth i h2 []) = repeat NaN (list_max nb).
Proof. exact stat_mecdf_nan. Qed.
Print Assumptions C67_comparison_refuted.
Example C67_case : mecdf_row (map Fin [1; 0; 3]) = map Fin [1 / 4; 1 / 4; 1].
Proof. destruct (C67_rows_partial [1; 0; 3]) as [_ E]; [intros x [<-|[<-|[<-|[]]]]; lra|cbn; lra|]. rewrite E. cbn. repeat (apply (f_equal2 cons); [f_equal; lra|]). reflexivity. Qed.
(** With 8 and 2 features there are 2 bins and 1 bin. *)
Example C67_comparison_case : exists nb h1 h2 d, histogram_stat [8; 2]%nat [8; 2]%nat [[1; 2; 3; 4; 5; 6; 7; 8]; [1; 3]] [[0; 1; 1; 1; 2; 2; 3; 9]; [2; 4]] 2 NBest = Ok (nb, h1, h2, d) /\
  (nth 1 nb 0 < list_max nb)%nat.
Proof.
  destruct (stat_spec _ _ _ _ _ _ pair_comparable (or_introl eq_refl)) as [nb [h1 [h2 [d [D [E [L [_ [_ [_ [_ H]]]]]]]]]]]. exists nb, h1, h2, (Fin d). split; [exact E|].
  destruct (H 0%nat ltac:(lia)) as [_ [A _]]. destruct (H 1%nat ltac:(lia)) as [_ [B _]]. cbn zeta in A, B. specialize (A eq_refl). specialize (B eq_refl). destruct nb as [|x [|y [|z r]]]; try discriminate. cbn [nth] in *. cbn [list_max fold_right]. nia.
Qed.

(** ** C74 *)
Theorem C74_first_partial : forall mn b values hs i, make_hists mn (Some b) values = Ok hs -> (i < length values)%nat -> (mn <= length (nth i values []))%nat ->
  (forall j, (j < i)%nat -> (length (nth j values []) < mn)%nat) ->
  exists edges, bin_edges (nth i values []) b = Ok edges /\ nth i hs ([], []) = (mid edges, counts (nth i values []) edges).
Proof. exact hist_first. Qed.
Print Assumptions C74_first_partial.
(** Missing: all later histograms. *)
Theorem C74_bins_refuted : forall mn n values hs i j, make_hists mn (Some (NumBins n)) values = Ok hs -> (i < j < length values)%nat ->
  (mn <= length (nth i values []))%nat -> (mn <= length (nth j values []))%nat -> Nat.sqrt (length (nth j values [])) <> n ->
  length (snd (nth j hs ([], []))) = Nat.sqrt (length (nth j values [])) /\ length (snd (nth j hs ([], []))) <> n.
Proof. exact hist_not_requested. Qed.
Print Assumptions C74_bins_refuted.
Theorem C74_comparison_bins : forall num1 num2 vals1 vals2 cut n nb h1 h2 d, comparable num1 num2 vals1 vals2 cut -> (1 <= n)%nat ->
  histogram_stat num1 num2 vals1 vals2 cut (NInt n) = Ok (nb, h1, h2, d) ->
  length h1 = cut /\ length h2 = cut /\
  forall i, (i < cut)%nat -> (exists v1, nth i h1 [] = map Fin v1 /\ length v1 = n) /\ (exists v2, nth i h2 [] = map Fin v2 /\ length v2 = n).
Proof. exact stat_requested. Qed.
Print Assumptions C74_comparison_bins.
Theorem C74_cutoff_partial : forall l1 l2 m, is_ok (cutoff l1 l2 m) = true <->
  (exists i, (0 < i)%nat /\ qualifies l1 m i) /\ (exists i, (0 < i)%nat /\ qualifies l2 m i).
Proof. exact cutoff_iff. Qed.
Print Assumptions C74_cutoff_partial.
(** Missing: a comparison where only the first threshold qualifies. *)
Theorem C74_cutoff_refuted : forall l1 l2 m, qualifies l1 m 0 -> (forall i, (0 < i)%nat -> ~ qualifies l1 m i) -> cutoff l1 l2 m = Err ValueError.
Proof. exact cutoff_first. Qed.
Print Assumptions C74_cutoff_refuted.
Example C74_case : cutoff [120; 50]%nat [200; 110]%nat 100 = Err ValueError /\ qualifies [120; 50]%nat 100 0 /\ qualifies [200; 110]%nat 100 0 /\
  cutoff [120; 101; 50]%nat [200; 110; 105]%nat 100 = Ok 1%nat.
Proof. unfold qualifies. cbn [length nth]. repeat split; try lia; vm_compute; reflexivity. Qed.
Example C74_bins_case : exists hs, make_hists 2 (Some (NumBins 5)) [[0; 1; 2]; [0; 1; 2; 3]] = Ok hs /\ length (snd (nth 0 hs ([], []))) = 5%nat /\ length (snd (nth 1 hs ([], []))) = 2%nat.
Proof.
  unfold make_hists. cbn [length Nat.ltb Nat.leb]. unfold np_histogram, bind, bin_edges.
  destruct (outer_edges [0; 1; 2]) as [a b]. change (Nat.sqrt 4) with 2%nat. destruct (outer_edges [0; 1; 2; 3]) as [c d]. cbn [fst snd]. eexists. split; [reflexivity|]. cbn [nth snd]. rewrite !counts_length, !tab1_length. split; reflexivity.
Qed.

(** ** C164 *)
Theorem C164_array_partial : forall param l,
  (increasing l -> set_min_deltas param (DArray l) = Ok (A1 l)) /\ (~ increasing l -> set_min_deltas param (DArray l) = Err ValueError).
Proof. exact set_array. Qed.
Print Assumptions C164_array_partial.
(** Missing: lists and single numbers. *)
Theorem C164_list_refuted : forall param l a, length l <> 1%nat -> set_min_deltas param (DList l) = Ok a -> nd_len a <> length l.
Proof. exact set_list. Qed.
Print Assumptions C164_list_refuted.
Theorem C164_number_refuted : forall param r, set_min_deltas param (DScalar r) = Err ValueError.
Proof. exact set_scalar. Qed.
Print Assumptions C164_number_refuted.
Example C164_case : increasing [1; 2; 5] /\ ~ increasing [1; 1] /\ set_min_deltas None (DList [1; 2; 5]) = Ok (A2 [[1; 2; 5]]).
Proof.
  assert (A : increasing [1; 2; 5]) by (apply diffs_spec; cbn; destruct (Rltb_spec 1 2), (Rltb_spec 2 5); try lra; reflexivity).
  split; [exact A|]. split; [intros H; specialize (H 0%nat 1%nat); cbn in H; specialize (H ltac:(lia)); lra|]. apply diffs_spec in A. unfold set_min_deltas. now rewrite A.
Qed.

(** ** C165 *)
Theorem C165_auto_partial : forall m d data num M, is_max M (filter (fun v => Rltb m v) (fins data)) -> d < M - m -> (1 <= num)%nat ->
  exists l, autoset_min_deltas (Some m) (Some d) data num = Ok (A1 l) /\ length l = num /\ nth 0 l 0 = d /\
    (forall i, (S i < num)%nat -> nth (S i) l 0 - nth i l 0 = (M - m - d) / INR num) /\
    (forall x, In x l -> d <= x < M - m).
Proof. exact auto_spec. Qed.
Print Assumptions C165_auto_partial.
(** Missing: parameters without min_value, for which the code has a default. *)
Theorem C165_no_min_value_refuted : forall d data num l, autoset_min_deltas None d data num <> Ok l.
Proof. exact auto_missing. Qed.
Print Assumptions C165_no_min_value_refuted.
Example C165_case : is_max 5 (filter (fun v => Rltb 1 v) (fins [Fin 0; NaN; Fin 5; Fin 3])) /\ 1 / 2 < 5 - 1.
Proof.
  split; [|lra]. cbn [fins flat_map app filter]. destruct (Rltb_spec 1 0), (Rltb_spec 1 5), (Rltb_spec 1 3); try lra. split; [now left|]. intros y [<-|[<-|[]]]; lra.
Qed.

(** ** C166 *)
Theorem C166_pruned : forall (D : Type) build prune (num : D -> nat) vmax d0 r obj out last,
  compute_dendro build prune num vmax (d0 :: r) obj = Ok (out, last) ->
  let start := match obj with None => build d0 | Some d => d end in
  let after k := fold_left (fun d x => prune x d) (firstn k r) start in
  length out = S (length r) /\ last = after (length r) /\ forall k dflt, (k <= length r)%nat -> nth k out dflt = (num (after k), vmax (after k)).
Proof. intros. eapply compute_spec; eassumption. Qed.
Print Assumptions C166_pruned.
Theorem C166_nonincreasing : forall (D : Type) build prune (num : D -> nat) vmax deltas obj out last, (forall x d, (num (prune x d) <= num d)%nat) ->
  compute_dendro build prune num vmax deltas obj = Ok (out, last) -> nonincreasing (map fst out).
Proof. intros. eapply compute_noninc; eassumption. Qed.
Print Assumptions C166_nonincreasing.
(** The caller's object is pruned: a second run sees only the last pruning. *)
Theorem C166_same_object_refuted : forall (D : Type) build prune (num : D -> nat) vmax d0 r d out last out2 last2,
  (forall d a b, a <= b -> prune a (prune b d) = prune b d) -> increasing (d0 :: r) ->
  compute_dendro build prune num vmax (d0 :: r) (Some d) = Ok (out, last) ->
  compute_dendro build prune num vmax (d0 :: r) (Some last) = Ok (out2, last2) ->
  last2 = last /\ forall k dflt, (k < length out)%nat -> nth k out2 dflt = nth (length out - 1) out dflt.
Proof. intros. eapply rerun; eassumption. Qed.
Print Assumptions C166_same_object_refuted.
(** A dendrogram as the heights of its structures; pruning keeps those of at least the given height. *)
Example C166_case : let prune := fun (x : R) (l : list R) => filter (fun h => Rleb x h) l in
  (forall d a b, a <= b -> prune a (prune b d) = prune b d) /\
  compute_dendro (fun _ => []) prune (@length R) (fun l => l) [1; 2] (Some [1; 1; 3]) = Ok ([(3%nat, [1; 1; 3]); (1%nat, [3])], [3]) /\
  compute_dendro (fun _ => []) prune (@length R) (fun l => l) [1; 2] (Some [3]) = Ok ([(1%nat, [3]); (1%nat, [3])], [3]).
Proof.
  cbv zeta. split.
  - intros d a b L. induction d as [|h d IH]; [reflexivity|]. cbn [filter]. destruct (Rleb_spec b h); [|exact IH]. cbn [filter]. destruct (Rleb_spec a h); [|lra]. now rewrite IH.
  - unfold compute_dendro. cbn [prune_steps filter]. destruct (Rleb_spec 2 1), (Rleb_spec 2 3); try lra. split; reflexivity.
Qed.

(** ** C167 *)
Theorem C167_used_refuted : forall l1 l2 m c, nonincreasing l1 -> nonincreasing l2 -> length l1 = length l2 -> cutoff l1 l2 m = Ok c ->
  (forall i, qualifies l1 m i /\ qualifies l2 m i <-> (i <= c)%nat) /\ (1 <= c < length l1)%nat.
Proof. exact cutoff_used. Qed.
Print Assumptions C167_used_refuted.
(** The distance uses the thresholds before [c] only: the one at [c] qualifies as well. *)
Theorem C167_histograms_partial : forall l1 l2 m c vals1 vals2 nbins, nonincreasing l1 -> nonincreasing l2 -> length l1 = length l2 -> cutoff l1 l2 m = Ok c ->
  length vals1 = length l1 -> length vals2 = length l1 -> (forall i, (i < c)%nat -> varied (nth i vals1 []) /\ varied (nth i vals2 [])) ->
  nbins = NBest \/ (exists n, (1 <= n)%nat /\ nbins = NInt n) ->
  exists nb h1 h2 d, histogram_stat l1 l2 vals1 vals2 c nbins = Ok (nb, h1, h2, d) /\ length h1 = c /\ length h2 = c /\
    forall i, (i < length h1)%nat -> qualifies l1 m i /\ qualifies l2 m i.
Proof.
  intros l1 l2 m c vals1 vals2 nbins N1 N2 L E LV1 LV2 V NB. destruct (cutoff_used l1 l2 m c N1 N2 L E) as [Q [C1 C2]].
  assert (C : comparable l1 l2 vals1 vals2 c).
  { split; [exact C1|]. do 4 (split; [lia|]). intros i Hi. destruct (proj2 (Q i) ltac:(lia)) as [[_ A] [_ B]]. destruct (V i Hi). repeat split; auto; lia. }
  destruct (stat_spec _ _ _ _ _ _ C NB) as [nb [h1 [h2 [d [D [H [_ [L1 [L2 _]]]]]]]]]. exists nb, h1, h2, (Fin d). split; [exact H|]. split; [exact L1|]. split; [exact L2|]. intros i Hi. apply Q. lia.
Qed.
Print Assumptions C167_histograms_partial.
Example C167_case : nonincreasing [120; 101; 50]%nat /\ cutoff [120; 101; 50]%nat [200; 110; 105]%nat 100 = Ok 1%nat.
Proof. split; [|vm_compute; reflexivity]. intros i j [H1 H2]. cbn in H2. destruct i as [|[|[|i]]], j as [|[|[|j]]]; cbn; lia. Qed.

(** ** C168 *)
Theorem C168_again_refuted : forall num1 num2 vals1 vals2 cut nbins nb h1 h2 d, histogram_stat num1 num2 vals1 vals2 cut nbins = Ok (nb, h1, h2, d) ->
  histogram_stat num1 num2 vals1 vals2 cut (NArr nb) = Err OtherError.
Proof. exact stat_again. Qed.
Print Assumptions C168_again_refuted.
Example C168_case : exists nb h1 h2 d, histogram_stat [8; 2]%nat [8; 2]%nat [[1; 2; 3; 4; 5; 6; 7; 8]; [1; 3]] [[0; 1; 1; 1; 2; 2; 3; 9]; [2; 4]] 2 (NInt 3) = Ok (nb, h1, h2, d).
Proof. destruct (stat_spec _ _ _ _ _ _ pair_comparable (or_intror (ex_intro _ 3%nat (conj (le_S _ _ (le_S _ _ (le_n 1))) eq_refl)))) as [nb [h1 [h2 [d [D [E _]]]]]]. now exists nb, h1, h2, (Fin d). Qed.

(** ** C169 *)
Theorem C169_histograms : forall num1 num2 vals1 vals2 cut nbins, comparable num1 num2 vals1 vals2 cut ->
  nbins = NBest \/ (exists n, (1 <= n)%nat /\ nbins = NInt n) ->
  exists nb h1 h2 d D, histogram_stat num1 num2 vals1 vals2 cut nbins = Ok (nb, h1, h2, Fin d) /\
  length nb = cut /\ length h1 = cut /\ length h2 = cut /\ 0 <= d <= 1 /\ d = rsum cut D / INR cut /\
  forall i, (i < cut)%nat ->
    let z1 := zscores (nth i vals1 []) in let z2 := zscores (nth i vals2 []) in let k := nth i nb 0%nat in
    (forall n, nbins = NInt n -> k = n) /\
    (nbins = NBest -> (2 * (k * k) <= nth i num1 0 + nth i num2 0 < 2 * (S k * S k))%nat) /\
    (1 <= k)%nat /\
    (exists lo hi, is_min lo (z1 ++ z2) /\ is_max hi (z1 ++ z2) /\
      nth i h1 [] = padded (shares z1 (even_edges lo hi k)) (list_max nb - k) /\
      nth i h2 [] = padded (shares z2 (even_edges lo hi k)) (list_max nb - k)) /\
    hellinger (nth i h1 []) (nth i h2 []) 1 = Fin (D i).
Proof. exact stat_spec. Qed.
Print Assumptions C169_histograms.
Theorem C169_symmetric : forall num1 num2 vals1 vals2 cut nbins nb h1 h2 d, comparable num1 num2 vals1 vals2 cut ->
  nbins = NBest \/ (exists n, (1 <= n)%nat /\ nbins = NInt n) ->
  histogram_stat num1 num2 vals1 vals2 cut nbins = Ok (nb, h1, h2, d) -> histogram_stat num2 num1 vals2 vals1 cut nbins = Ok (nb, h2, h1, d).
Proof. exact stat_sym. Qed.
Print Assumptions C169_symmetric.
Theorem C169_same : forall num vals cut nbins, comparable num num vals vals cut -> nbins = NBest \/ (exists n, (1 <= n)%nat /\ nbins = NInt n) ->
  exists nb h, histogram_stat num num vals vals cut nbins = Ok (nb, h, h, Fin 0).
Proof. exact stat_same. Qed.
Print Assumptions C169_same.
Theorem C169_scale_offset : forall num1 num2 vals1 vals2 cut nbins a b, comparable num1 num2 vals1 vals2 cut ->
  nbins = NBest \/ (exists n, (1 <= n)%nat /\ nbins = NInt n) -> 0 < a ->
  histogram_stat num1 num2 (map (map (fun x => a * x + b)) vals1) vals2 cut nbins = histogram_stat num1 num2 vals1 vals2 cut nbins.
Proof. exact stat_affine. Qed.
Print Assumptions C169_scale_offset.
Example C169_case : comparable [8; 2]%nat [8; 2]%nat [[1; 2; 3; 4; 5; 6; 7; 8]; [1; 3]] [[0; 1; 1; 1; 2; 2; 3; 9]; [2; 4]] 2.
Proof. exact pair_comparable. Qed.

(** ** C170 *)
Theorem C170_data_partial : forall md u again, used_deltas Raw md = Ok (u, again) -> u = md /\ again = true.
Proof. intros md u again E. inversion E. split; reflexivity. Qed.
Print Assumptions C170_data_partial.
(** Missing: objects with other thresholds are run again, with their own thresholds. *)
Theorem C170_object_refuted : forall d slope md u again, used_deltas (Object d slope) md = Ok (u, again) -> u = d /\ (again = false <-> slope = true /\ d = md).
Proof.
  intros d slope md u again E. split; [exact (used_object _ _ _ _ _ E)|]. cbn in E. destruct (Nat.eqb_spec (length d) (length md)) as [L|]; [|discriminate]. inversion E; subst. rewrite negb_false_iff, andb_true_iff, all_eq_spec by exact L. reflexivity.
Qed.
Print Assumptions C170_object_refuted.
Theorem C170_length_refuted : forall d slope md, length d <> length md -> used_deltas (Object d slope) md = Err AttributeError.
Proof. intros d slope md L. cbn. destruct (Nat.eqb_spec (length d) (length md)); [contradiction|reflexivity]. Qed.
Print Assumptions C170_length_refuted.
Example C170_case : used_deltas (Object [1; 2] true) [1; 3] = Ok ([1; 2], true).
Proof. unfold used_deltas. cbn [length Nat.eqb all_eq]. destruct (Reqb_spec 1 1), (Reqb_spec 2 3); try lra. reflexivity. Qed.

(** ** C171 *)
Theorem C171_second_refuted : forall run1 k l, In KMakeHists l \/ In KVerbose l -> distance_kwargs run1 true k (Some l) = Err TypeError.
Proof. exact kwargs_second. Qed.
Print Assumptions C171_second_refuted.
(** With one dictionary for both the call works, but the caller's dictionary has lost its entries. *)
Theorem C171_shared_partial : forall run1 k, exists k', distance_kwargs run1 true k None = Ok k' /\ k' = filter (fun x => negb (is_reserved x)) k.
Proof. exact kwargs_shared. Qed.
Print Assumptions C171_shared_partial.
Example C171_case : distance_kwargs true true [KVerbose; KOther 0] None = Ok [KOther 0] /\ distance_kwargs true true [KOther 0] (Some [KVerbose]) = Err TypeError.
Proof. split; reflexivity. Qed.

(** ** C172 *)
Theorem C172_break_partial : forall y h, (1 <= h)%nat -> (2 * h + 1 <= length y)%nat ->
  exists b, std_window y (2 * h + 1) = Ok b /\ (h <= b)%nat /\ (b + h < length y)%nat /\
    first_largest (fun k => sqrt (rvar (window y k (2 * h)))) (length y - 2 * h) (b - h).
Proof. exact std_window_odd. Qed.
Print Assumptions C172_break_partial.
(** Missing: the window has one value less than the requested size... *)
Theorem C172_window_refuted : exists b, std_window [0; 2; 0; 3] 3 = Ok b /\ ~ first_largest (fun k => sqrt (rvar (window [0; 2; 0; 3] k 3))) 2 (b - 1).
Proof. exact std_window_cex. Qed.
Print Assumptions C172_window_refuted.
(** ... and even sizes fail. *)
Theorem C172_even_refuted : forall y h, (1 <= h)%nat -> (2 * h <= length y + 1)%nat -> std_window y (2 * h) = Err IndexError.
Proof. exact std_window_even. Qed.
Print Assumptions C172_even_refuted.
Theorem C172_fit_points : forall deltas nums h pts, (1 <= h)%nat -> length deltas = length nums ->
  fit_numfeat deltas nums (2 * h + 1) = Ok pts ->
  let kept := filter (fun p => Nat.ltb 1 (snd p)) (combine deltas nums) in
  exists b, pts = skipn b kept /\ (h <= b)%nat /\ (h + 1 <= length pts)%nat /\ (b + length pts = length kept)%nat /\
    first_largest (fun k => sqrt (rvar (window (map (fun p => INR (snd p)) kept) k (2 * h)))) (length kept - 2 * h) (b - h).
Proof. exact fit_points. Qed.
Print Assumptions C172_fit_points.
Theorem C172_fit_possible : forall deltas nums h, (1 <= h)%nat -> (2 <= length nums)%nat ->
  let kept := filter (fun p : R * nat => Nat.ltb 1 (snd p)) (combine deltas nums) in
  if Nat.leb (2 * h + 1) (length kept) then exists pts, fit_numfeat deltas nums (2 * h + 1) = Ok pts else fit_numfeat deltas nums (2 * h + 1) = Err ValueError.
Proof.
  intros deltas nums h H L. cbv zeta. destruct (Nat.leb_spec (2 * h + 1) (length (filter (fun p : R * nat => Nat.ltb 1 (snd p)) (combine deltas nums)))); [now apply fit_ok|now apply fit_fail].
Qed.
Print Assumptions C172_fit_possible.
Example C172_case : exists b, std_window [9; 8; 7; 6; 2; 2; 2] 5 = Ok b /\ (2 <= b <= 4)%nat.
Proof. destruct (C172_break_partial [9; 8; 7; 6; 2; 2; 2] 2) as [b [E [A [B _]]]]; [lia|cbn; lia|]. exists b. cbn in B. split; [exact E|lia]. Qed.
