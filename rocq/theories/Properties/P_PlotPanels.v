(** The plots of PCA, Genus, Tsallis and the dendrograms. *)
From Coq Require Import Reals List Arith Lra Lia.
From Verif Require Import Lib.PyBase Lib.Fl Lib.Hist Model.PlotFit Model.PlotPanels Spec.PlotFit Spec.PlotPanels Proofs.PlotFit_Proofs Proofs.PlotPanels_Proofs.
From Verif Require Model.Dendro.
Import ListNotations.
Local Open Scope R_scope.

(** C300.  In all units of size and of line width, the plot of PCA shows the widths, a line of
    ten points per width on the fitted relation, and the residuals from that relation. *)
Theorem C300_relation_partial : forall a I c s size widths, 0 < c -> 0 < s -> positive widths ->
  let d := pca_plot a I c s size widths in
  d_points d = map (fun w => (ln (c * fst w) / ln 10, ln (s * snd w) / ln 10)) widths /\
  line_on (size_line_width a I c s) d /\ residuals_of (size_line_width a I c s) d /\
  (widths <> [] -> length (d_line d) = (size * 10)%nat).
Proof. exact pca_agrees. Qed.
Print Assumptions C300_relation_partial.

(** Without a number, or with the number of the components in use, the bars are the first
    eigenvalues at their numbers. *)
Theorem C300_bars_partial : forall stored eigvals n_eigs, (stored <= length eigvals)%nat -> n_eigs = None \/ n_eigs = Some stored ->
  pca_bars stored eigvals n_eigs = Ok (right_bars eigvals stored).
Proof. exact bars_right. Qed.
Print Assumptions C300_bars_partial.

(** No other number gives its bars: it raises ValueError, except for one component. *)
Theorem C300_number_refuted : forall stored eigvals n, (1 <= n <= length eigvals)%nat -> (stored <= length eigvals)%nat -> n <> stored ->
  pca_bars stored eigvals (Some n) <> Ok (right_bars eigvals n) /\
  ((2 <= n)%nat -> (2 <= stored)%nat -> pca_bars stored eigvals (Some n) = Err ValueError).
Proof.
  intros stored eigvals n N S D. split; [now apply bars_wrong|]. intros A B. apply bars_raise; lia.
Qed.
Print Assumptions C300_number_refuted.

Example C300_meets : positive [(2, 1); (4, 3)] /\ pca_bars 2 [9; 4; 1] None = Ok [(1%nat, 9); (2%nat, 4)] /\ pca_bars 2 [9; 4; 1] (Some 3%nat) = Err ValueError /\
  pca_bars 2 [9; 4; 1] (Some 1%nat) = Ok [(1%nat, 9); (2%nat, 9)].
Proof.
  split; [intros x y [[= <- <-]|[[= <- <-]|[]]]; lra|]. repeat split; reflexivity.
Qed.

(** C301.  The plot of Genus has a panel for each smoothed image, at a place of its own inside the
    grid, with the label and the curve of that image. *)
Theorem C301_genus_partial : forall radii stats means stds thresholds standardize k dp, (k < length radii)%nat ->
  let plot := genus_plot radii stats means stds thresholds standardize in let p := nth k plot dp in
  length plot = length radii /\ in_grid p /\ p_label p = nth k radii None /\
  (length (nth k stats []) = length thresholds -> map snd (p_curve p) = nth k stats [] /\
    map fst (p_curve p) = (if standardize then map (fun t => (t - nth k means 0) / nth k stds 0) thresholds else thresholds)) /\
  (forall j, (j < length radii)%nat -> j <> k -> p_rows (nth j plot dp) = p_rows p /\ p_cols (nth j plot dp) = p_cols p /\
     (row (nth j plot dp), column (nth j plot dp)) <> (row p, column p)).
Proof.
  intros radii stats means stds thresholds standardize k dp K plot p.
  destruct (genus_own radii stats means stds thresholds standardize k dp K) as (_ & G & L & C).
  split; [apply genus_length|]. split; [exact G|]. split; [exact L|]. split; [exact C|].
  intros j J D. destruct (genus_apart radii stats means stds thresholds standardize j k dp J K D) as (A & B & E). auto.
Qed.
Print Assumptions C301_genus_partial.

(** The x axis is labelled under the lowest panel of each column and under no other. *)
Theorem C301_labels_partial : forall radii stats means stds thresholds standardize k dp, (2 <= length radii)%nat -> (k < length radii)%nat ->
  let plot := genus_plot radii stats means stds thresholds standardize in
  p_xlabel (nth k plot dp) = true <-> forall q, In q plot -> ~ below (nth k plot dp) q.
Proof. intros radii stats means stds thresholds standardize k dp. apply genus_labels. Qed.
Print Assumptions C301_labels_partial.

(** The plot of Tsallis has, for two or more lags, for each lag its distribution and its curve. *)
Theorem C301_tsallis_partial : forall {P} (fit : R -> P -> R) lags distribs params,
  (2 <= length lags)%nat -> length distribs = length lags -> length params = length lags ->
  exists l, tsallis_plot fit lags distribs params = Ok l /\ length l = length lags /\
    forall k q d, (k < length lags)%nat -> nth k l d = (nth k lags 0, nth k distribs [], map (fun p => (fst p, fit (fst p) (nth k params q))) (nth k distribs [])).
Proof. exact @tsallis_panels. Qed.
Print Assumptions C301_tsallis_partial.

(** For a single lag the plot raises TypeError. *)
Theorem C301_one_lag_refuted : forall {P} (fit : R -> P -> R) lag distribs params, tsallis_plot fit [lag] distribs params = Err TypeError.
Proof. reflexivity. Qed.
Print Assumptions C301_one_lag_refuted.

(** Three images: the second and the third have labels. *)
Example C301_meets : let plot := genus_plot [None; Some 1; Some 2] [[1; 2]; [3; 4]; [5; 6]] [0; 0; 0] [1; 1; 1] [7; 8] false in
  map p_xlabel plot = [false; true; true] /\ map p_place plot = [1; 2; 3]%nat /\ map p_rows plot = [2; 2; 2]%nat /\
  map p_curve plot = [[(7, 1); (8, 2)]; [(7, 3); (8, 4)]; [(7, 5); (8, 6)]].
Proof. repeat split; reflexivity. Qed.

(** C302.  With the default bins and a minimal number of structures of four or more, the bars of
    the histograms of a dendrogram are the bins: side by side, from the smallest to the largest
    value, as high as the counts; nothing is drawn for too few structures. *)
Theorem C302_bars_partial : forall m values, (4 <= m)%nat -> exists hs bars, Dendro.make_hists m None values = Ok hs /\ dendro_bars true (Some hs) = Ok bars /\
  length bars = length values /\ forall k, (k < length values)%nat ->
    if Nat.ltb (length (nth k values [])) m then nth k bars [] = []
    else exists edges, length edges = (Nat.sqrt (length (nth k values [])) + 1)%nat /\ bars_are_bins edges (counts (nth k values []) edges) (nth k bars []) /\
         (forall x, In x (nth k values []) -> nth 0 edges 0 <= x <= nth (length edges - 1) edges 0).
Proof. exact hists_drawn. Qed.
Print Assumptions C302_bars_partial.

(** With a smaller minimal number, a histogram of one to three structures has one bin, and the
    plot raises IndexError. *)
Theorem C302_one_bin_refuted : forall m v values, (m <= length v)%nat -> (1 <= length v <= 3)%nat -> forall hs, Dendro.make_hists m None (v :: values) = Ok hs ->
  dendro_bars true (Some hs) = Err IndexError.
Proof. exact one_bin_raises. Qed.
Print Assumptions C302_one_bin_refuted.

(** Bins of different widths are drawn with one width: bars and bins differ. *)
Theorem C302_uneven_refuted : forall edges cs bars i, (3 <= length edges)%nat -> length cs = (length edges - 1)%nat -> hist_bars (mid edges, cs) = Ok bars ->
  (S i < length edges)%nat -> nth (S i) edges 0 - nth i edges 0 <> nth 1 edges 0 - nth 0 edges 0 -> ~ bars_are_bins edges cs bars.
Proof. intros edges cs bars i E C H I D B. apply D. now apply (bars_uneven edges cs bars i). Qed.
Print Assumptions C302_uneven_refuted.

Example C302_meets :
  (exists hs, Dendro.make_hists 1 None [[1; 2; 4]] = Ok hs /\ dendro_bars true (Some hs) = Err IndexError) /\
  (exists bars, hist_bars (mid [0; 1; 3], [5; 6]) = Ok bars /\ ~ bars_are_bins [0; 1; 3] [5; 6] bars).
Proof.
  split.
  - destruct (Dendro.make_hists 1 None [[1; 2; 4]]) as [hs|e] eqn:E.
    + exists hs. split; [reflexivity|]. apply (C302_one_bin_refuted 1 [1; 2; 4] []); [cbn; lia|cbn; lia|exact E].
    + exfalso. cbn [Dendro.make_hists length Nat.ltb Nat.leb] in E. rewrite (sqrt_small 3) in E by lia. unfold Dendro.np_histogram in E. cbn [bin_edges] in E.
      destruct (outer_edges [1; 2; 4]). discriminate.
  - destruct (hist_bars_val [0; 1; 3] [5; 6] ltac:(cbn; lia) eq_refl) as (bars & H & _). exists bars. split; [exact H|].
    apply (C302_uneven_refuted [0; 1; 3] [5; 6] bars 1); cbn; first [exact H|lia|lra].
Qed.
