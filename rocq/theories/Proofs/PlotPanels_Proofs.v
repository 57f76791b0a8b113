(** Proofs about the panels of plots. *)
From Coq Require Import Reals List Arith Lra Lia.
From Verif Require Import Lib.PyBase Lib.Arr Lib.RSum Lib.Fl Lib.Hist Model.PlotFit Model.PlotPanels Spec.PlotFit Spec.PlotPanels Proofs.PlotFit_Proofs Proofs.Hist_Proofs Proofs.StatsUtils2_Proofs.
From Verif Require Model.StatsUtils Model.Dendro.
Import ListNotations.
Local Open Scope R_scope.

(** ** Bars of PCA *)
Lemma bars_right stored eigvals n_eigs : (stored <= length eigvals)%nat -> n_eigs = None \/ n_eigs = Some stored ->
  pca_bars stored eigvals n_eigs = Ok (right_bars eigvals stored).
Proof.
  intros L H. unfold pca_bars, bar, right_bars. destruct H as [-> | ->]; rewrite seq_length, firstn_length_le, Nat.eqb_refl by exact L; reflexivity.
Qed.
Lemma bars_wrong stored eigvals n : (1 <= n <= length eigvals)%nat -> (stored <= length eigvals)%nat -> n <> stored ->
  pca_bars stored eigvals (Some n) <> Ok (right_bars eigvals n).
Proof.
  intros N L D. unfold pca_bars, bar, right_bars. rewrite seq_length, firstn_length_le by lia.
  destruct (Nat.eqb_spec stored n) as [E|_]; [congruence|].
  assert (F : length (firstn n eigvals) = n) by (apply firstn_length_le; lia). intros E.
  destruct (firstn n eigvals) as [|h [|h' t]] eqn:X; cbn in F.
  - lia.
  - assert (n = 1%nat) by lia. subst n. destruct (seq 1 stored) as [|p [|q r]] eqn:Y; injection E as E; try discriminate;
    apply (f_equal (@length _)) in Y; rewrite seq_length in Y; cbn in Y; lia.
  - destruct (seq 1 stored) as [|p [|q r]] eqn:Y; try discriminate. destruct stored as [|[|k]]; try discriminate. injection Y as <-.
    injection E as E. destruct n as [|[|n]]; try lia. cbn in E. injection E as E _. discriminate.
Qed.
Lemma bars_raise stored eigvals n : (2 <= n <= length eigvals)%nat -> (2 <= stored <= length eigvals)%nat -> n <> stored ->
  pca_bars stored eigvals (Some n) = Err ValueError.
Proof.
  intros N L D. unfold pca_bars, bar. rewrite seq_length. assert (F : length (firstn n eigvals) = n) by (apply firstn_length_le; lia). rewrite F.
  destruct (Nat.eqb_spec stored n) as [E|_]; [congruence|].
  destruct (firstn n eigvals) as [|h [|h' t]]; cbn in F; try lia. destruct stored as [|[|k]]; try lia. reflexivity.
Qed.

(** ** Size - line width relation *)
Lemma log10_ten x : log10 (ten x) = x.
Proof. unfold log10, ten, Rpower. rewrite ln_exp. pose proof ln10. field. lra. Qed.
Lemma log10_fit a I s x : 0 < s -> log10 (ten (a * x + log10 I) * s) = a * x + log10 I + log10 s.
Proof. intros S. rewrite log10_mult; [now rewrite log10_ten| |exact S]. unfold ten, Rpower. apply exp_pos. Qed.
Lemma lmin_scale c x l : 0 < c -> lmin (c * x) (map (Rmult c) l) = c * lmin x l.
Proof.
  intros C. revert x. induction l as [|y l IH]; intros x; [reflexivity|]. cbn [map lmin]. rewrite <- IH. f_equal.
  unfold Rmin. destruct (Rle_dec x y), (Rle_dec (c * x) (c * y)); try reflexivity; exfalso.
  - apply n. apply Rmult_le_compat_l; lra.
  - apply n. apply (Rmult_le_reg_l c); assumption.
Qed.
Lemma lmax_scale c x l : 0 < c -> lmax (c * x) (map (Rmult c) l) = c * lmax x l.
Proof.
  intros C. revert x. induction l as [|y l IH]; intros x; [reflexivity|]. cbn [map lmax]. rewrite <- IH. f_equal.
  unfold Rmax. destruct (Rle_dec x y), (Rle_dec (c * x) (c * y)); try reflexivity; exfalso.
  - apply n. apply Rmult_le_compat_l; lra.
  - apply n. apply (Rmult_le_reg_l c); assumption.
Qed.
Lemma lmin_pos x l : 0 < x -> (forall y, In y l -> 0 < y) -> 0 < lmin x l.
Proof.
  revert x. induction l as [|y l IH]; intros x X L; [exact X|]. cbn [lmin]. apply IH; [|intros z Z; apply L; now right].
  apply Rmin_glb_lt; [exact X|apply L; now left].
Qed.
Lemma lmax_pos x l : 0 < x -> 0 < lmax x l.
Proof.
  revert x. induction l as [|y l IH]; intros x X; [exact X|]. cbn [lmax]. apply IH. eapply Rlt_le_trans; [exact X|apply Rmax_l].
Qed.
Lemma linspace_shift a b d n : StatsUtils.linspace (d + a) (d + b) n = map (fun x => d + x) (StatsUtils.linspace a b n).
Proof.
  destruct n as [|[|n]]; [reflexivity|reflexivity|]. unfold StatsUtils.linspace, tab1. rewrite map_map. apply map_ext. intros i.
  replace (d + b - (d + a)) with (b - a) by ring. ring.
Qed.
Lemma pca_agrees a I c s size widths : 0 < c -> 0 < s -> positive widths ->
  let d := pca_plot a I c s size widths in
  d_points d = map (fun w => (log10 (c * fst w), log10 (s * snd w))) widths /\
  line_on (size_line_width a I c s) d /\ residuals_of (size_line_width a I c s) d /\
  (widths <> [] -> length (d_line d) = (size * 10)%nat).
Proof.
  intros C S P d. split; [reflexivity|].
  assert (LAW : forall x, 0 < x -> size_line_width a I c s (log10 (c * x)) = log10 (ten (a * log10 x + log10 I) * s)).
  { intros x X. rewrite log10_fit by exact S. unfold size_line_width. rewrite log10_mult by assumption. unfold log10. ring. }
  split; [|split].
  - intros X Y. unfold d, pca_plot. cbn [d_line]. destruct widths as [|[w v] r]; [intros []|]. cbn [map fst].
    replace (map (fun w0 : R * R => c * fst w0) r) with (map (Rmult c) (map fst r)) by (rewrite map_map; reflexivity).
    rewrite lmin_scale, lmax_scale by exact C.
    assert (M : 0 < w) by (apply (P w v); now left). assert (Q : forall y, In y (map fst r) -> 0 < y).
    { intros y. rewrite in_map_iff. intros ([u z] & <- & H). apply (P u z). now right. }
    rewrite !log10_mult by (try exact C; try (apply lmin_pos; assumption); apply lmax_pos; exact M).
    rewrite linspace_shift, combine_maps, in_map_iff. intros (x & [= <- <-] & _).
    rewrite log10_fit by exact S. unfold size_line_width, log10. ring.
  - unfold residuals_of, d, pca_plot. cbn [d_res d_points]. rewrite map_map. apply map_ext_in. intros [w v] H. cbn [fst snd].
    rewrite LAW; [reflexivity|]. now apply (P w v).
  - intros N. unfold d, pca_plot. cbn [d_line]. destruct widths as [|[w v] r]; [contradiction|]. cbn [map fst].
    rewrite combine_length, map_length, !linspace_length. lia.
Qed.

(** ** Panels of Genus *)
Section Genus.
Variables (radii : list (option R)) (stats : list (list R)) (means stds thresholds : list R) (standardize : bool).
Notation plot := (genus_plot radii stats means stds thresholds standardize).
Notation num := (length radii).
Lemma genus_length : length plot = num.
Proof. unfold genus_plot. now rewrite map_length, seq_length. Qed.
Lemma genus_nth k dp : (k < num)%nat -> nth k plot dp = genus_panel radii stats means stds thresholds standardize (S k).
Proof.
  intros K. unfold genus_plot. rewrite (nth_indep _ dp (genus_panel radii stats means stds thresholds standardize 0)) by (rewrite map_length, seq_length; exact K).
  rewrite map_nth, seq_nth by exact K. reflexivity.
Qed.
Lemma half n : (if Nat.eqb (n mod 2) 0 then n / 2 else n / 2 + 1)%nat = ((n + 1) / 2)%nat.
Proof.
  pose proof (Nat.div_mod n 2 ltac:(lia)) as D. pose proof (Nat.mod_upper_bound n 2 ltac:(lia)) as U.
  destruct (Nat.eqb_spec (n mod 2) 0) as [E|E].
  - apply (Nat.div_unique (n + 1) 2 (n / 2) 1); lia.
  - apply (Nat.div_unique (n + 1) 2 (n / 2 + 1) 0); lia.
Qed.
Lemma genus_own k dp : (k < num)%nat ->
  let p := nth k plot dp in
  p_place p = S k /\ in_grid p /\ p_label p = nth k radii None /\
  (length (nth k stats []) = length thresholds -> map snd (p_curve p) = nth k stats [] /\
    map fst (p_curve p) = (if standardize then map (fun t => (t - nth k means 0) / nth k stds 0) thresholds else thresholds)).
Proof.
  intros K p. unfold p. rewrite (genus_nth k dp K). unfold genus_panel. rewrite half. cbn [p_place p_label p_curve]. replace (S k - 1)%nat with k by lia.
  split; [reflexivity|]. split; [|split; [reflexivity|]].
  - unfold in_grid. cbn [p_place p_rows p_cols]. destruct (Nat.eqb_spec num 1) as [E|E]; [lia|].
    pose proof (Nat.div_mod (num + 1) 2 ltac:(lia)). pose proof (Nat.mod_upper_bound (num + 1) 2 ltac:(lia)). lia.
  - intros L. set (thr := if standardize then _ else thresholds). assert (T : length thr = length thresholds) by (unfold thr; destruct standardize; [apply map_length|reflexivity]).
    rewrite <- T in L. clearbody thr. clear - L. revert L. generalize (nth k stats []). induction thr as [|t thr IH]; intros [|v l] L; try discriminate L; [split; reflexivity|].
    cbn in L. destruct (IH l ltac:(lia)) as [A B]. cbn. now rewrite A, B.
Qed.
(** The x label is under the lowest panel of each column *)
Lemma genus_labels k dp : (2 <= num)%nat -> (k < num)%nat ->
  (p_xlabel (nth k plot dp) = true <-> forall q, In q plot -> ~ below (nth k plot dp) q).
Proof.
  intros N K. rewrite (genus_nth k dp K). unfold genus_plot.
  assert (COL : forall i, p_cols (genus_panel radii stats means stds thresholds standardize i) = 2%nat).
  { intros i. unfold genus_panel. cbn [p_cols]. destruct (Nat.eqb_spec num 1); [lia|reflexivity]. }
  split.
  - intros X q. rewrite in_map_iff. intros (i & <- & I). apply in_seq in I. intros [A B]. unfold column, row in A, B. rewrite !COL in A, B.
    unfold genus_panel in X, A, B. cbn [p_xlabel p_place] in X, A, B. apply Nat.leb_le in X.
    replace (S k - 1)%nat with k in * by lia.
    pose proof (Nat.div_mod k 2 ltac:(lia)). pose proof (Nat.div_mod (i - 1) 2 ltac:(lia)). lia.
  - intros H. unfold genus_panel. cbn [p_xlabel]. apply Nat.leb_le. destruct (le_lt_dec (num - S k + 1) 2) as [?|G]; [assumption|]. exfalso.
    apply (H (genus_panel radii stats means stds thresholds standardize (S (k + 2)))).
    + apply in_map. apply in_seq. lia.
    + unfold below, column, row. rewrite !COL. unfold genus_panel. cbn [p_place]. replace (S (k + 2) - 1)%nat with (k + 1 * 2)%nat by lia. replace (S k - 1)%nat with k by lia.
      rewrite Nat.mod_add, Nat.div_add by lia. lia.
Qed.
(** No two panels are at one place *)
Lemma genus_apart j k dp : (j < num)%nat -> (k < num)%nat -> j <> k ->
  p_cols (nth j plot dp) = p_cols (nth k plot dp) /\ p_rows (nth j plot dp) = p_rows (nth k plot dp) /\
  (row (nth j plot dp), column (nth j plot dp)) <> (row (nth k plot dp), column (nth k plot dp)).
Proof.
  intros J K D. rewrite !genus_nth by assumption. split; [reflexivity|]. split; [reflexivity|].
  unfold row, column. unfold genus_panel. cbn [p_place p_cols]. intros [= A B]. rewrite ?Nat.sub_0_r in A, B.
  set (c := if Nat.eqb num 1 then 1%nat else 2%nat) in *. assert (c <> 0%nat) by (unfold c; destruct (Nat.eqb num 1); lia).
  pose proof (Nat.div_mod j c ltac:(lia)) as P. pose proof (Nat.div_mod k c ltac:(lia)) as Q. rewrite A, B in P. lia.
Qed.
End Genus.

(** ** Tsallis *)
Lemma tsallis_panels {P} (fit : R -> P -> R) lags distribs params : (2 <= length lags)%nat -> length distribs = length lags -> length params = length lags ->
  exists l, tsallis_plot fit lags distribs params = Ok l /\ length l = length lags /\
    forall k q d, (k < length lags)%nat -> nth k l d = (nth k lags 0, nth k distribs [], map (fun p => (fst p, fit (fst p) (nth k params q))) (nth k distribs [])).
Proof.
  intros N D P'. unfold tsallis_plot. destruct lags as [|a [|b r]]; cbn in N; try lia. eexists. split; [reflexivity|]. split.
  - rewrite map_length, !combine_length. lia.
  - intros k q d K. set (f := fun v : R * list (R * R) * P => _).
    rewrite (nth_indep _ d (f (0, [], q))) by (rewrite map_length, !combine_length; lia).
    rewrite map_nth. rewrite combine_nth by (rewrite combine_length; lia). rewrite combine_nth by lia. reflexivity.
Qed.

(** ** Bars of the histograms *)
Lemma mid_length edges : length (mid edges) = (length edges - 1)%nat.
Proof. apply tab1_length. Qed.
Lemma mid_nth edges k : (S k < length edges)%nat -> nth k (mid edges) 0 = (nth k edges 0 + nth (S k) edges 0) / 2.
Proof. intros K. unfold mid. rewrite tab1_nth by lia. reflexivity. Qed.
Lemma hist_bars_val edges cs : (3 <= length edges)%nat -> length cs = (length edges - 1)%nat ->
  exists bars, hist_bars (mid edges, cs) = Ok bars /\ length bars = (length edges - 1)%nat /\
    let w := Rabs (nth 1 (mid edges) 0 - nth 0 (mid edges) 0) in
    forall i, (S i < length edges)%nat -> nth i bars (0, 0, 0) = (nth i (mid edges) 0 - w / 2, nth i (mid edges) 0 + w / 2, nth i cs 0).
Proof.
  intros E C. pose proof (mid_length edges) as M. unfold hist_bars. cbn [fst snd].
  destruct (mid edges) as [|b0 [|b1 r]] eqn:X; cbn in M; try lia. unfold bar. cbn [length].
  destruct (Nat.eqb_spec (S (S (length r))) (length cs)) as [_|Q]; [|lia]. cbn [bind]. eexists. split; [reflexivity|]. split.
  - rewrite map_length, combine_length. cbn [length]. lia.
  - cbv zeta. intros i I. set (f := fun p : R * R => _). rewrite (nth_indep _ (0, 0, 0) (f (0, 0))) by (rewrite map_length, combine_length; cbn [length]; lia).
    rewrite map_nth, combine_nth by (cbn [length]; lia). reflexivity.
Qed.
Lemma bars_even edges cs d : (3 <= length edges)%nat -> length cs = (length edges - 1)%nat -> 0 <= d ->
  (forall i, (S i < length edges)%nat -> nth (S i) edges 0 - nth i edges 0 = d) ->
  exists bars, hist_bars (mid edges, cs) = Ok bars /\ bars_are_bins edges cs bars.
Proof.
  intros E C D U. destruct (hist_bars_val edges cs E C) as (bars & H & L & V). exists bars. split; [exact H|]. split; [exact L|].
  intros i I. cbv zeta in V. rewrite (V i I), !mid_nth by lia.
  pose proof (U 0%nat ltac:(lia)) as U0. pose proof (U 1%nat ltac:(lia)) as U1. pose proof (U i I) as Ui.
  replace ((nth 1 edges 0 + nth 2 edges 0) / 2 - (nth 0 edges 0 + nth 1 edges 0) / 2) with d by lra.
  rewrite Rabs_right by lra. f_equal. f_equal; lra.
Qed.
(** Bins of different widths are not what is drawn *)
Lemma bars_uneven edges cs bars i : (3 <= length edges)%nat -> length cs = (length edges - 1)%nat -> hist_bars (mid edges, cs) = Ok bars ->
  bars_are_bins edges cs bars -> (S i < length edges)%nat -> nth (S i) edges 0 - nth i edges 0 = nth 1 edges 0 - nth 0 edges 0.
Proof.
  intros E C H [_ B] I. destruct (hist_bars_val edges cs E C) as (bars' & H' & _ & V). rewrite H in H'. injection H' as <-. cbv zeta in V.
  pose proof (V i I) as A. rewrite (B i I) in A. injection A as A1 A2. pose proof (V 0%nat ltac:(lia)) as Z. rewrite (B 0%nat ltac:(lia)) in Z. injection Z as Z1 Z2. lra.
Qed.
Lemma bars_one c h : hist_bars ([c], [h]) = Err IndexError. Proof. reflexivity. Qed.
Lemma each_bars_ok hs : (forall h, In h hs -> exists b, hist_bars h = Ok b) -> exists l, each_bars hs = Ok l /\ length l = length hs /\
  forall k, (k < length hs)%nat -> hist_bars (nth k hs ([], [])) = Ok (nth k l []).
Proof.
  induction hs as [|h r IH]; intros A; [exists []; split; [reflexivity|split; [reflexivity|cbn; lia]]|].
  destruct (A h (or_introl eq_refl)) as [b B]. destruct IH as (l & L & N & V); [intros x X; apply A; now right|].
  exists (b :: l). cbn [each_bars]. rewrite B. cbn [bind]. rewrite L. cbn [bind]. split; [reflexivity|]. split; [cbn; lia|].
  intros [|k] K; [exact B|]. cbn. apply V. cbn in K. lia.
Qed.

Lemma auto_step data n edges i : bin_edges data (NumBins n) = Ok edges -> (S i < length edges)%nat ->
  nth (S i) edges 0 - nth i edges 0 = (snd (outer_edges data) - fst (outer_edges data)) / INR n.
Proof.
  destruct n as [|n]; [discriminate|]. cbn [bin_edges]. destruct (outer_edges data) as [a b]. intros E.
  apply (f_equal (fun r => match r with Ok l => l | Err _ => [] end)) in E. subst edges. rewrite tab1_length. intros I.
  rewrite !tab1_nth by lia. rewrite S_INR. cbn [fst snd]. ring.
Qed.
Lemma auto_bars data n cs edges : (2 <= n)%nat -> Dendro.np_histogram data (NumBins n) = Ok (cs, edges) ->
  cs = counts data edges /\ length edges = (n + 1)%nat /\ exists bars, hist_bars (mid edges, cs) = Ok bars /\ bars_are_bins edges cs bars.
Proof.
  intros N. unfold Dendro.np_histogram. destruct (bin_edges data (NumBins n)) as [e|] eqn:B; [|discriminate]. cbn [bind]. intros E.
  injection E as <- <-. split; [reflexivity|]. destruct (auto_edges _ _ _ B) as (_ & L & INC & _). split; [exact L|].
  apply (bars_even e (counts data e) ((snd (outer_edges data) - fst (outer_edges data)) / INR n)).
  - lia.
  - apply counts_length.
  - rewrite <- (auto_step data n e 0 B) by lia. pose proof (INC 0%nat 1%nat ltac:(lia)). lra.
  - intros i I. now apply auto_step.
Qed.
(** With the default bins and at least four structures for a histogram, all is drawn *)
Lemma hists_drawn m values : (4 <= m)%nat -> exists hs bars, Dendro.make_hists m None values = Ok hs /\ dendro_bars true (Some hs) = Ok bars /\
  length bars = length values /\ forall k, (k < length values)%nat ->
    if Nat.ltb (length (nth k values [])) m then nth k bars [] = []
    else exists edges, length edges = (Nat.sqrt (length (nth k values [])) + 1)%nat /\ bars_are_bins edges (counts (nth k values []) edges) (nth k bars []) /\
         (forall x, In x (nth k values []) -> nth 0 edges 0 <= x <= nth (length edges - 1) edges 0).
Proof.
  intros M. cbn [dendro_bars]. induction values as [|v r IH].
  - exists [], []. split; [reflexivity|]. split; [reflexivity|]. split; [reflexivity|]. cbn. lia.
  - destruct IH as (hs & bars & H & B & L & V). cbn [Dendro.make_hists]. destruct (Nat.ltb_spec (length v) m) as [S|S].
    + rewrite H. cbn [bind]. exists (([], []) :: hs), ([] :: bars). split; [reflexivity|]. cbn [each_bars hist_bars fst bind]. rewrite B. cbn [bind].
      split; [reflexivity|]. split; [cbn; lia|]. intros [|k] K; cbn [nth].
      * destruct (Nat.ltb_spec (length v) m); [reflexivity|lia].
      * apply V. cbn in K. lia.
    + assert (Q : (2 <= Nat.sqrt (length v))%nat) by (change 2%nat with (Nat.sqrt 4); apply Nat.sqrt_le_mono; lia).
      destruct (Dendro.np_histogram v (NumBins (Nat.sqrt (length v)))) as [[cs edges]|] eqn:E.
      2:{ exfalso. unfold Dendro.np_histogram in E. destruct (Nat.sqrt (length v)) as [|q]; [lia|]. cbn [bin_edges] in E. destruct (outer_edges v). discriminate. }
      destruct (auto_bars _ _ _ _ Q E) as (-> & LE & bb & HB & BB). cbn [bind]. rewrite H. cbn [bind fst snd].
      exists ((mid edges, counts v edges) :: hs), (bb :: bars). split; [reflexivity|]. cbn [each_bars]. rewrite HB. cbn [bind]. rewrite B. cbn [bind].
      split; [reflexivity|]. split; [cbn; lia|]. intros [|k] K; cbn [nth].
      * destruct (Nat.ltb_spec (length v) m); [lia|]. exists edges. split; [exact LE|]. split; [exact BB|].
        unfold Dendro.np_histogram in E. destruct (bin_edges v _) as [e'|] eqn:BE; [|discriminate]. cbn [bind] in E. injection E as _ ->.
        destruct (auto_edges _ _ _ BE) as (_ & _ & _ & R). intros x X. exact (R x X).
      * apply V. cbn in K. lia.
Qed.
(** A histogram of one bin is not *)
Lemma sqrt_small n : (1 <= n <= 3)%nat -> Nat.sqrt n = 1%nat.
Proof. intros H. destruct n as [|[|[|[|n]]]]; try lia; reflexivity. Qed.
Lemma one_bin_raises m v values : (m <= length v)%nat -> (1 <= length v <= 3)%nat -> forall hs, Dendro.make_hists m None (v :: values) = Ok hs ->
  dendro_bars true (Some hs) = Err IndexError.
Proof.
  intros M V hs. cbn [Dendro.make_hists]. destruct (Nat.ltb_spec (length v) m); [lia|]. rewrite (sqrt_small _ V).
  unfold Dendro.np_histogram. destruct (bin_edges v (NumBins 1)) as [e|] eqn:B; [|discriminate]. cbn [bind].
  destruct (auto_edges _ _ _ B) as (_ & L & _). destruct (Dendro.make_hists m None values) as [rest|]; [|discriminate]. cbn [bind fst snd]. intros [= <-].
  cbn [dendro_bars each_bars]. unfold hist_bars at 1. cbn [fst]. pose proof (mid_length e) as ML. destruct (mid e) as [|c [|c' t]]; cbn in ML; try lia. reflexivity.
Qed.
