(** Proofs about one dictionary for one comparison plot after another. *)
From Coq Require Import Reals String List Arith Bool Lia.
From Verif Require Import Lib.PyBase Model.Kwargs Model.PlotStyle Spec.PlotStyle Proofs.PlotStyle_Proofs Proofs.PlotStyle2_Proofs.
Import ListNotations.
Local Open Scope string_scope.
Local Open Scope list_scope.

(** Everything a plot can add to a dictionary used for data set [b] *)
Definition additions (b : bool) : dict :=
  [("color", VStr (if b then "g" else "b")); ("symbol", VStr (if b then "o" else "D")); ("label", VStr (if b then "2" else "1"));
   ("marker", VStr (if b then "o" else "D"))].
Lemma defaults_in p b kv : In kv (defaults p b) -> In kv (additions b) /\ (fst kv = "marker" -> p = MSCF \/ p = MPDF).
Proof.
  intros I. destruct p, b; cbn in I; decompose [or] I; try contradiction; subst; cbn; split; try tauto; try discriminate; auto.
Qed.
Lemma get_defaults p b k v : get (defaults p b) k = Some v -> get (additions b) k = Some v.
Proof.
  intros G. apply get_some_in in G. destruct (defaults_in p b _ G) as [I _]. cbn in I.
  decompose [or] I; try contradiction; injection H as <- <- || injection H0 as <- <-; reflexivity.
Qed.

(** The dictionary [d] came from [d0] by plots for data set [b]; [mk]: plots that add a marker
    were among them *)
Record came (b mk : bool) (d0 d : dict) : Prop := {
  came_get : forall k, k <> "xunit" -> get d k = get d0 k \/ (get d0 k = None /\ get d k = get (additions b) k);
  came_in : forall kv, In kv d -> In kv d0 \/ (In kv (additions b) /\ (mk = false -> fst kv <> "marker"))
}.
Lemma came_refl b mk d : came b mk d d.
Proof. split; auto. Qed.
Lemma came_used b mk d0 d p : (mk = false -> p <> MSCF /\ p <> MPDF) -> came b mk d0 d -> came b mk d0 (used p b d).
Proof.
  intros M C. split.
  - intros k N. rewrite get_used by assumption. destruct (get d k) as [v|] eqn:G.
    + rewrite <- G. now apply C.
    + destruct (get (defaults p b) k) as [v|] eqn:D.
      * right. destruct (came_get _ _ _ _ C k N) as [E|[E1 E2]].
        -- split; [congruence|]. symmetry. now apply (get_defaults p).
        -- split; [assumption|]. symmetry. now apply (get_defaults p).
      * pose proof (came_get _ _ _ _ C k N) as Q. now rewrite G in Q.
  - intros kv I. apply in_used in I. destruct I as [I|I]; [now apply C|].
    right. destruct (defaults_in _ _ _ I) as [A B]. split; [assumption|]. intros E F. destruct (M E), (B F); contradiction.
Qed.


Lemma came_after n l acts b mk k :
  n = length l -> k < n ->
  Forall (its_own n) acts -> Forall (only_side b (own k)) acts ->
  (mk = false -> Forall no_marker acts) ->
  came b mk (nth k l []) (look (after l acts) (own k)).
Proof.
  intros -> Lk. induction acts as [|a acts IH] using rev_ind; intros F O M.
  - unfold after, start, look. cbn [fold_left]. rewrite app_nth2; change (length import_heap) with 26; unfold own; [|lia].
    replace (26 + k - 26) with k by lia. apply came_refl.
  - apply Forall_app in F, O. destruct F as [F Fa], O as [O Oa]. inversion Fa as [|? ? I _]; subst. inversion Oa as [|? ? J _]; subst.
    assert (C : came b mk (nth k l []) (look (after l acts) (own k))).
    { apply IH; auto. intros E. specialize (M E). apply Forall_app in M. tauto. }
    destruct (after_settled l acts F) as [L _]. set (h := after l acts) in *.
    rewrite after_snoc. fold h. destruct a as [c|r d]; cbn [act_on only_side] in *; [|now rewrite look_put_other by congruence].
    assert (M' : forall p, In p (plots (c_metric c)) -> mk = false -> p <> MSCF /\ p <> MPDF).
    { intros p IP E. specialize (M E). apply Forall_app in M. destruct M as [_ M]. inversion M as [|? ? Mc _]; subst.
      unfold no_marker, adds_marker in Mc. destruct (c_metric c); cbn in IP; decompose [or] IP; try contradiction; subst p; split; try discriminate; intuition congruence. }
    refine (proj2 (metric_keeps (fun h' => length h' = 26 + length l /\ came b mk (nth k l []) (look h' (own k))) c h _ (conj L C))).
    clear h L C IH M. intros p h IP [L C]. split; [now rewrite plot_length|].
    set (r1 := place (c_metric c) false (c_1 c)). set (r2 := place (c_metric c) true (c_2 c)).
    assert (NN : own k <> (if b then r1 else r2)).
    { destruct b; cbn [side negb] in J; unfold r1, r2; rewrite place_eq.
      - destruct (c_1 c) as [r|]; [congruence|]. pose proof (default_place_small (c_metric c) false). unfold own; lia.
      - destruct (c_2 c) as [r|]; [congruence|]. pose proof (default_place_small (c_metric c) true). unfold own; lia. }
    destruct (Nat.eq_dec (own k) (if b then r2 else r1)) as [E|N].
    + destruct b.
      * rewrite E, plot_second by (try congruence; rewrite <- E; unfold own; lia). rewrite <- E. now apply came_used; [apply M'|].
      * rewrite E, plot_first by (try congruence; rewrite <- E; unfold own; lia). rewrite <- E. now apply came_used; [apply M'|].
    + rewrite plot_frame by (destruct b; congruence). exact C.
Qed.

Lemma came_options b mk d0 d m : (mk = false \/ plot_options m = None) -> options_of m d0 -> came b mk d0 d -> options_of m d.
Proof.
  intros M O C. unfold options_of in *. destruct (plot_options m) as [l|] eqn:P; [|exact I].
  destruct M as [M|M]; [|discriminate]. intros kv IN.
  destruct (came_in _ _ _ _ C _ IN) as [J|[J K]]; [now apply O|]. right. specialize (K M). cbn in J.
  destruct m; try discriminate; injection P as <-; decompose [or] J; try contradiction; subst; cbn in *; try tauto; congruence.
Qed.
Lemma came_style b mk d0 d m : came b mk d0 d -> style m b d = style m b d0.
Proof.
  intros C. rewrite !style_eq. unfold or_default.
  assert (E : forall k v, k <> "xunit" -> get (additions b) k = Some (VStr v) ->
    match get d k with Some x => x | None => VStr v end = match get d0 k with Some x => x | None => VStr v end).
  { intros k v N A. destruct (came_get _ _ _ _ C k N) as [->|[-> ->]]; [reflexivity|]. now rewrite A. }
  rewrite (E "color"), (E "label") by (try discriminate; reflexivity).
  destruct (has_symbols m); [|reflexivity].
  rewrite (E (key_of_symbol m)) by (destruct m; try discriminate; reflexivity). reflexivity.
Qed.

Lemma reuse l acts k b m x w :
  k < length l ->
  Forall (its_own (length l)) acts -> Forall (only_side b (own k)) acts ->
  (plot_options m = None \/ Forall no_marker acts) ->
  options_of m (nth k l []) ->
  snd (distance_metric (mk_call m true x w (if b then None else Some (own k)) (if b then Some (own k) else None)) (after l acts)) =
  (documented m (if b then [] else nth k l []) (if b then nth k l [] else []), None).
Proof.
  intros Lk F O M OP.
  assert (IN : its_call (length l) (mk_call m true x w (if b then None else Some (own k)) (if b then Some (own k) else None))).
  { intros r [E|E]; cbn in E; destruct b; try discriminate; injection E as <-; exists k; auto. }
  assert (C : exists mk, (mk = false \/ plot_options m = None) /\ came b mk (nth k l []) (look (after l acts) (own k))).
  { destruct M as [M|M].
    - exists true. split; [now right|]. eapply came_after; eauto. discriminate.
    - exists false. split; [now left|]. eapply came_after; eauto. }
  destruct C as (mk & Mk & C).
  assert (OE : options_of m []) by (unfold options_of; destruct (plot_options m); [intros ? []|exact I]).
  rewrite styles; [|assumption|assumption|..].
  - f_equal. apply documented_ext; intros p _; destruct b; cbn [dict_given]; try reflexivity; now apply (came_style _ mk).
  - destruct b; [now left|right; discriminate].
  - destruct b; cbn [dict_given]; [exact OE|]. exact (came_options _ _ _ _ _ Mk OP C).
  - destruct b; cbn [dict_given]; [|exact OE]. exact (came_options _ _ _ _ _ Mk OP C).
Qed.
