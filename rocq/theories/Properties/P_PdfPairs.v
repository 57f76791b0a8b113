(** Properties C244-C247: the distances between two PDFs. *)
From Coq Require Import String Reals List Bool Arith Lia Lra Permutation.
From Verif Require Import Lib.PyBase Lib.Fl Spec.PdfPairs Model.Pdf Model.PdfDistance
  Proofs.PdfDistance_Proofs Proofs.PdfDistance2_Proofs Proofs.PdfDistance3_Proofs Proofs.PdfDistance4_Proofs.
Import ListNotations.
Local Open Scope R_scope.

Definition ex1 : list fl := map Fin [1; 2; 3; 4].
Definition ex2 : list fl := map Fin [2; 4; 6; 8].
Definition no_fit (d : list fl) : result (fl * fl) := Ok (Fin (INR (length d)), Fin 1).
(** ** C244: laws of the distances *)
Theorem C244_defined : forall fit_lognorm img1 img2 o l1 l2 x y,
  l1 = valid img1 (po_min1 o) -> l2 = valid img2 (po_min2 o) -> po_norm o = None -> unweighted o -> po_do_fit o = false ->
  po_bin_min o = None -> po_bin_max o = None -> l1 <> [] -> l2 <> [] -> In x (l1 ++ l2) -> In y (l1 ++ l2) -> x <> y ->
  enough_bins (po_nbins o) (length l1 + length l2) ->
  exists h k, distances fit_lognorm img1 img2 o (mk_str "all" true) = Ok (mk_out (Some (Fin h)) (Some k) None) /\ 0 <= h <= 1 /\ 0 <= k <= 1.
Proof. exact dist_defined. Qed.
Print Assumptions C244_defined.
Example C244_defined_case : exists h k, distances no_fit ex1 ex2 plain (mk_str "all" true) = Ok (mk_out (Some (Fin h)) (Some k) None).
Proof.
  destruct (dist_defined no_fit ex1 ex2 plain [1; 2; 3; 4] [2; 4; 6; 8] 1 2) as (h & k & E & _); try reflexivity; try discriminate.
  - split; reflexivity.
  - cbn. tauto.
  - cbn. tauto.
  - lra.
  - cbn. lia.
  - eauto.
Qed.
Theorem C244_symmetric : forall fit_lognorm img1 img2 o st r,
  distances fit_lognorm img1 img2 o st = Ok r -> distances fit_lognorm img2 img1 (swapped o) st = Ok r.
Proof. exact dist_swap. Qed.
Print Assumptions C244_symmetric.
Theorem C244_same : forall fit_lognorm img o st r, po_min1 o = po_min2 o -> po_weights1 o = po_weights2 o ->
  (forall d f, fit_lognorm d = Ok f -> exists p e, f = (Fin p, Fin e) /\ e <> 0) ->
  distances fit_lognorm img img o st = Ok r ->
  (forall v, out_hellinger r = Some v -> v = Fin 0) /\ (forall v, out_ks r = Some v -> v = 0) /\ (forall v, out_lognormal r = Some v -> v = Fin 0).
Proof. exact dist_same. Qed.
Print Assumptions C244_same.
Example C244_same_case : forall d f, no_fit d = Ok f -> exists p e, f = (Fin p, Fin e) /\ e <> 0.
Proof. intros d f H. injection H as <-. exists (INR (length d)), 1. split; [reflexivity|lra]. Qed.
Theorem C244_pixel_order : forall fit_lognorm img1 img2 img1' img2' w1' w2' o st r,
  (po_do_fit o = true -> forall l l', Permutation l l' -> fit_lognorm l' = fit_lognorm l) ->
  reshuffled img1 (po_weights1 o) img1' w1' -> reshuffled img2 (po_weights2 o) img2' w2' ->
  distances fit_lognorm img1 img2 o st = Ok r -> distances fit_lognorm img1' img2' (with_weights o w1' w2') st = Ok r.
Proof. exact dist_pixels. Qed.
Print Assumptions C244_pixel_order.
Example C244_pixel_order_case : reshuffled ex1 None (map Fin [2; 1; 3; 4]) None /\ (forall l l', Permutation l l' -> no_fit l' = no_fit l) /\
  reshuffled [Fin 1; NaN] (Some [Fin 3; Fin 4]) [NaN; Fin 1] (Some [Fin 4; Fin 3]).
Proof.
  split; [constructor|]. split.
  - intros l l' P. unfold no_fit. now rewrite (Permutation_length P).
  - split; [reflexivity|]. split; [reflexivity|]. constructor.
Qed.

(** ** C245: units *)
(** Both images in other units, with limits and bins in the same ones *)
Theorem C245_common_units : forall fit_lognorm a b img1 img2 o st, 0 < a -> po_norm o = None -> (unweighted o \/ b = 0) ->
  (po_do_fit o = true -> b = 0 /\ forall l, fit_lognorm (map (fmul (Fin a)) l) = fit_lognorm l) ->
  distances fit_lognorm (map (restated a b) img1) (map (restated a b) img2) (restated_opts a b o) st = distances fit_lognorm img1 img2 o st.
Proof. exact dist_units. Qed.
Print Assumptions C245_common_units.
Example C245_common_units_case : forall l, no_fit (map (fmul (Fin 3)) l) = no_fit l.
Proof. intros l. unfold no_fit. now rewrite map_length. Qed.
(** Each image in its own units, with a normalisation that takes them out *)
Theorem C245_own_units : forall fit_lognorm a1 b1 a2 b2 img1 img2 o t st, 0 < a1 -> 0 < a2 ->
  po_norm o = Some t -> takes_out t a1 b1 -> takes_out t a2 b2 ->
  (po_weights1 o = None \/ b1 = 0) -> (po_weights2 o = None \/ b2 = 0) ->
  distances fit_lognorm (map (restated a1 b1) img1) (map (restated a2 b2) img2) (own_limits a1 b1 a2 b2 o) st = distances fit_lognorm img1 img2 o st.
Proof. exact dist_own_units. Qed.
Print Assumptions C245_own_units.
Example C245_own_units_case : takes_out "normalize_by_mean" 5 0 /\ takes_out "normalize" 2 7 /\ takes_out "standardize" 2 7.
Proof. unfold takes_out. auto 10. Qed.
(** The data are not standardised before the comparison, as distance_metric says: a much
    brighter copy is at the largest distance *)
Theorem C245_standardized_refuted : forall fit_lognorm l a, l <> [] -> (forall x y, In x l -> In y l -> x < a * y) ->
  distances fit_lognorm (map Fin l) (map Fin (map (Rmult a) l)) plain (mk_str "ks" true) = Ok (mk_out None (Some 1) None).
Proof. exact not_standardized. Qed.
Print Assumptions C245_standardized_refuted.
Example C245_standardized_case : forall x y, In x [1; 2] -> In y [1; 2] -> x < 3 * y.
Proof. intros x y [<-|[<-|[]]] [<-|[<-|[]]]; lra. Qed.

(** ** C246: the choice of the statistic *)
Theorem C246_choices : forall fit_lognorm img1 img2 o d, init fit_lognorm img1 img2 o = Ok d -> exists h k,
  metric d (mk_str "hellinger" true) nothing = Ok (mk_out (Some h) None None) /\
  metric d (mk_str "ks" true) nothing = Ok (mk_out None (Some k) None) /\
  (po_do_fit o = false -> metric d (mk_str "all" true) nothing = Ok (mk_out (Some h) (Some k) None) /\
                          metric d (mk_str "lognormal" true) nothing = Err OtherError) /\
  (po_do_fit o = true -> exists w, metric d (mk_str "lognormal" true) nothing = Ok (mk_out None None (Some w)) /\
                                   metric d (mk_str "all" true) nothing = Ok (mk_out (Some h) (Some k) (Some w))).
Proof. exact metric_all. Qed.
Print Assumptions C246_choices.
Theorem C246_unknown : forall d v i r, ~ In v ["all"; "hellinger"; "ks"; "lognormal"]%string -> metric d (mk_str v i) r = Err TypeError.
Proof. exact metric_unknown. Qed.
Print Assumptions C246_unknown.
(** A str that was built at run time is refused, whatever it reads *)
Theorem C246_built_refuted : forall d v r, metric d (mk_str v false) r = Err TypeError.
Proof. exact metric_dynamic. Qed.
Print Assumptions C246_built_refuted.
Example C246_case : exists d, init no_fit ex1 ex2 plain = Ok d.
Proof.
  destruct C244_defined_case as (h & k & E). unfold distances in E. destruct (init no_fit ex1 ex2 plain) as [d|]; [eauto|discriminate].
Qed.

(** ** C247: the number of bins: one fewer than asked for *)
Theorem C247_bins_refuted : forall fit_lognorm img1 img2 o d k, po_nbins o = Some k -> init fit_lognorm img1 img2 o = Ok d ->
  length (pd_edges d) = k /\ length (ob_pdf (pd_1 d)) = (k - 1)%nat /\ length (ob_pdf (pd_2 d)) = (k - 1)%nat.
Proof. exact one_less. Qed.
Print Assumptions C247_bins_refuted.
Example C247_case : exists d, init no_fit ex1 ex2 (mk_opts NInf NInf false None (Some 5%nat) None None None None) = Ok d.
Proof.
  destruct (dist_defined no_fit ex1 ex2 (mk_opts NInf NInf false None (Some 5%nat) None None None None) [1; 2; 3; 4] [2; 4; 6; 8] 1 2) as (h & k & E & _); try reflexivity; try discriminate.
  - split; reflexivity.
  - cbn. tauto.
  - cbn. tauto.
  - lra.
  - cbn. lia.
  - unfold distances in E. destruct (init no_fit ex1 ex2 (mk_opts NInf NInf false None (Some 5%nat) None None None None)) as [d|]; [eauto|discriminate].
Qed.
