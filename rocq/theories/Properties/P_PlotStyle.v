(** C291-C293: the styles of the comparison plots and the dictionaries that set them. *)
From Coq Require Import Reals String List Arith Bool Lia.
From Verif Require Import Lib.PyBase Model.Kwargs Model.PlotStyle Spec.PlotStyle Proofs.PlotStyle_Proofs Proofs.PlotStyle2_Proofs Proofs.PlotStyle3_Proofs.
Import ListNotations.
Local Open Scope string_scope.
Local Open Scope list_scope.

(** C291: whatever was compared and plotted before, distance_metric(verbose=True) draws each data set
    as its dictionary says and otherwise in the documented style, when the two keywords are not
    given the same dictionary and the keys are options of the plot. *)
Theorem C291_styles_partial : forall dicts acts m xunit wave k1 k2,
  Forall (its_own (length dicts)) acts ->
  its_own (length dicts) (Compare (mk_call m true xunit wave k1 k2)) ->
  (k1 = None \/ k1 <> k2) ->
  options_of m (dict_given (after dicts acts) k1) -> options_of m (dict_given (after dicts acts) k2) ->
  snd (distance_metric (mk_call m true xunit wave k1 k2) (after dicts acts)) =
  (documented m (dict_given (after dicts acts) k1) (dict_given (after dicts acts) k2), None).
Proof. exact styles. Qed.
Print Assumptions C291_styles_partial.

(** A power spectrum plot in red after other plots, with the second data set left to the defaults *)
Example C291_styles_meets :
  let dicts := [[("color", VStr "r")]; []] in
  let acts := [Compare (mk_call MPCA true VNone VNone None None); Compare (mk_call MPSpec true (VObj 3) VNone None (Some (own 1)))] in
  Forall (its_own 2) acts /\ options_of MPSpec (dict_given (after dicts acts) (Some (own 0))) /\
  snd (distance_metric (mk_call MPSpec true (VObj 3) VNone (Some (own 0)) None) (after dicts acts)) =
  ([mk_drawn MPSpec false (VStr "r") (Some (VStr "D")) (VStr "1"); mk_drawn MPSpec true (VStr "g") (Some (VStr "o")) (VStr "2")], None).
Proof.
  split; [|split]; [|intros kv I|reflexivity].
  - repeat constructor; cbn; intros r [E|E]; try discriminate. injection E as <-. exists 1; auto.
  - cbn in I. destruct I as [<-|[]]. right; now left.
Qed.

(** One dictionary for both keywords: the data sets cannot be told apart *)
Theorem C291_same_dictionary_refuted : forall m xunit wave, exists l,
  snd (distance_metric (mk_call m true xunit wave (Some (own 0)) (Some (own 0))) (start [[]])) = (l, None) /\ l <> [] /\
  forall a, In a l -> colour a = VStr "b" /\ label a = VStr "1".
Proof.
  intros m x w. destruct m; cbn; eexists; (split; [reflexivity|]); (split; [discriminate|]); intros a I; cbn in I;
    decompose [or] I; try contradiction; subst a; split; reflexivity.
Qed.
Print Assumptions C291_same_dictionary_refuted.

(** The symbol given to the comparison of SCF surfaces or PDFs as in the other plots is not used *)
Theorem C291_symbol_refuted : forall m xunit wave, adds_marker m ->
  snd (distance_metric (mk_call m true xunit wave (Some (own 0)) None) (start [[("symbol", VStr "s")]])) =
  ([mk_drawn m false (VStr "b") (Some (VStr "D")) (VStr "1"); mk_drawn m true (VStr "g") (Some (VStr "o")) (VStr "2")], None).
Proof. intros m x w [->| ->]; reflexivity. Qed.
Print Assumptions C291_symbol_refuted.

(** C292: a dictionary that sets everything the plot uses, and no xunit, is the same after the
    call, and so is any dictionary when verbose is not set *)
Theorem C292_complete_partial : forall dicts acts m verbose xunit wave k1 k2 k,
  Forall (its_own (length dicts)) acts -> k < length dicts ->
  (verbose = true -> k1 = Some (own k) \/ k2 = Some (own k) -> complete m (nth (own k) (after dicts acts) [])) ->
  nth (own k) (after dicts (acts ++ [Compare (mk_call m verbose xunit wave k1 k2)])) [] = nth (own k) (after dicts acts) [].
Proof.
  intros l acts m v x w o1 o2 k F Lk C. rewrite after_snoc. cbn [act_on]. destruct v; [|reflexivity].
  apply complete_kept; [unfold own; lia|rewrite (proj1 (after_settled _ _ F)); unfold own; lia|intros E; apply C; auto].
Qed.
Print Assumptions C292_complete_partial.

Example C292_complete_meets : complete MSCF [("color", VStr "r"); ("marker", VStr "s"); ("label", VStr "M 33"); ("xunit", VObj 4)] /\
  complete MWavelet [("color", VStr "r"); ("symbol", VStr "s"); ("label", VStr "M 33")].
Proof. repeat split. Qed.

(** No comparison changes a dictionary that no plot was given *)
Theorem C292_others_partial : forall dicts acts k,
  Forall (fun a => ~ touches (own k) a) acts -> nth (own k) (after dicts acts) [] = nth k dicts [].
Proof. exact untouched. Qed.
Print Assumptions C292_others_partial.

Example C292_others_meets :
  Forall (fun a => ~ touches (own 0) a)
    [Compare (mk_call MPCA true VNone VNone None (Some (own 1))); Assign (own 1) []; Compare (mk_call MSCF false VNone VNone (Some (own 0)) None)].
Proof. repeat constructor; cbn; intuition discriminate. Qed.

(** The plots write their defaults into the dictionary of the caller *)
Theorem C292_filled_refuted : forall m xunit wave,
  nth (own 0) (after [[]] [Compare (mk_call m true xunit wave (Some (own 0)) None)]) [] <> [] /\
  nth (own 0) (after [[]] [Compare (mk_call m true xunit wave None (Some (own 0)))]) [] <> [].
Proof. intros m x w. destruct m; split; discriminate. Qed.
Print Assumptions C292_filled_refuted.

(** and all but those of SCF, moments and PDFs remove its xunit *)
Theorem C292_xunit_refuted : forall m xunit wave unit, m <> MSCF -> m <> MMoments -> m <> MPDF ->
  get (nth (own 0) (after [[("xunit", unit)]] [Compare (mk_call m true xunit wave (Some (own 0)) None)]) []) "xunit" = None.
Proof. intros m x w v A B C. destruct m; try congruence; reflexivity. Qed.
Print Assumptions C292_xunit_refuted.

(** C293: a dictionary that was used for plots of the same data set before gives the plot it
    would have given when it was new, unless SCF surfaces or PDFs were compared with it and the
    plot is one of those made by plot_fit or plot_transform *)
Theorem C293_reuse_partial : forall dicts acts k second m xunit wave,
  k < length dicts ->
  Forall (its_own (length dicts)) acts -> Forall (only_side second (own k)) acts ->
  (plot_options m = None \/ Forall no_marker acts) ->
  options_of m (nth k dicts []) ->
  snd (distance_metric (mk_call m true xunit wave (if second then None else Some (own k)) (if second then Some (own k) else None)) (after dicts acts)) =
  (documented m (if second then [] else nth k dicts []) (if second then nth k dicts [] else []), None).
Proof. exact reuse. Qed.
Print Assumptions C293_reuse_partial.

Example C293_reuse_meets :
  let dicts := [[("color", VStr "r"); ("xunit", VObj 5)]] in
  let acts := [Compare (mk_call MWavelet true (VObj 4) VNone (Some (own 0)) None); Compare (mk_call MDendro true VNone VNone (Some (own 0)) None)] in
  Forall (its_own 1) acts /\ Forall (only_side false (own 0)) acts /\ Forall no_marker acts /\ options_of MVCA (nth 0 dicts []).
Proof.
  split; [|split; [|split]].
  - repeat constructor; cbn; intros r [E|E]; try discriminate; injection E as <-; exists 0; auto.
  - repeat constructor; cbn; discriminate.
  - repeat constructor; cbn; intros [E|E]; discriminate.
  - intros kv I. cbn in I. decompose [or] I; try contradiction; subst kv; cbn; tauto.
Qed.

(** After a comparison of SCF surfaces or PDFs the same dictionary makes the power spectrum
    plots fail *)
Theorem C293_marker_refuted : forall before m xunit wave,
  adds_marker before -> plot_options m <> None ->
  snd (distance_metric (mk_call m true xunit wave (Some (own 0)) None) (start [[]])) = (documented m [] [], None) /\
  snd (distance_metric (mk_call m true xunit wave (Some (own 0)) None)
        (after [[]] [Compare (mk_call before true xunit wave (Some (own 0)) None)])) = ([], Some TypeError).
Proof. intros m' m x w [->| ->] P; destruct m; cbn in P; try congruence; split; reflexivity. Qed.
Print Assumptions C293_marker_refuted.

(** A dictionary used for the first data set and then for the second keeps the first's style *)
Theorem C293_other_side_refuted : forall m xunit wave, exists l,
  snd (distance_metric (mk_call m true xunit wave None (Some (own 0)))
        (after [[]] [Compare (mk_call m true xunit wave (Some (own 0)) None)])) = (l, None) /\ l <> [] /\
  forall a, In a l -> colour a = VStr "b" /\ label a = VStr "1".
Proof.
  intros m x w. destruct m; cbn; eexists; (split; [reflexivity|]); (split; [discriminate|]); intros a I; cbn in I;
    decompose [or] I; try contradiction; subst a; split; reflexivity.
Qed.
Print Assumptions C293_other_side_refuted.
