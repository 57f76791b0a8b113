(** Proofs about the styles of the comparison plots. *)
From Coq Require Import Reals String List Arith Bool Lia.
From Verif Require Import Lib.PyBase Model.Kwargs Model.PlotStyle Spec.PlotStyle.
Import ListNotations.
Local Open Scope string_scope.
Local Open Scope list_scope.

(** ** Heap and dictionaries *)
Lemma put_length h r d : length (put h r d) = length h.
Proof. revert r; induction h as [|x h IH]; intros [|r]; cbn; auto. Qed.
Lemma look_put_same h r d : r < length h -> look (put h r d) r = d.
Proof.
  unfold look; revert r; induction h as [|x h IH]; intros [|r] L; cbn in *; try lia; auto.
  apply IH; lia.
Qed.
Lemma look_put_other h r r' d : r <> r' -> look (put h r d) r' = look h r'.
Proof.
  unfold look; revert r r'; induction h as [|x h IH]; intros [|r] [|r'] N; cbn; auto; try congruence.
Qed.
Lemma put_look h r : put h r (look h r) = h.
Proof. unfold look; revert r; induction h as [|x h IH]; intros [|r]; cbn; auto. now rewrite IH. Qed.

Lemma get_app d d' k : get (d ++ d') k = match get d k with Some v => Some v | None => get d' k end.
Proof. induction d as [|[k' v] d IH]; cbn; [reflexivity|]. destruct (String.eqb k k'); auto. Qed.
Lemma get_filter_has d def k : get d k = None -> get (filter (fun kv => negb (has d (fst kv))) def) k = get def k.
Proof.
  intros N. induction def as [|[k' v] def IH]; [reflexivity|]. cbn.
  destruct (String.eqb_spec k k') as [<-|D].
  - unfold has; rewrite N; cbn. now rewrite String.eqb_refl.
  - destruct (negb (has d k')); cbn; [destruct (String.eqb_spec k k'); [congruence|]|]; exact IH.
Qed.
Lemma get_filled def d k : get (filled def d) k = match get d k with Some v => Some v | None => get def k end.
Proof. unfold filled; rewrite get_app. destruct (get d k) eqn:G; [reflexivity|]. now apply get_filter_has. Qed.
Lemma get_without d k k' : k <> k' -> get (without k d) k' = get d k'.
Proof.
  intros N. unfold without. induction d as [|[q v] d IH]; [reflexivity|]. cbn.
  destruct (String.eqb_spec k q) as [E|D]; cbn; destruct (String.eqb_spec k' q); try congruence; auto.
Qed.
Lemma get_without_same d k : get (without k d) k = None.
Proof.
  unfold without. induction d as [|[q v] d IH]; [reflexivity|]. cbn.
  destruct (String.eqb_spec k q) as [<-|D]; cbn; [exact IH|].
  destruct (String.eqb_spec k q); congruence.
Qed.
Lemma in_without d k kv : In kv (without k d) <-> In kv d /\ fst kv <> k.
Proof.
  unfold without; rewrite filter_In. destruct (String.eqb_spec k (fst kv)); cbn; intuition congruence.
Qed.
Lemma get_some_in d k v : get d k = Some v -> In (k, v) d.
Proof.
  induction d as [|[k' v'] d IH]; cbn; [discriminate|].
  destruct (String.eqb_spec k k') as [<-|]; [intros [= ->]|]; auto.
Qed.
Lemma get_none_in d k : (forall kv, In kv d -> fst kv <> k) -> get d k = None.
Proof.
  intros A. destruct (get d k) as [v|] eqn:G; [|reflexivity]. apply get_some_in in G. now specialize (A _ G).
Qed.
Lemma in_get d kv : In kv d -> get d (fst kv) <> None.
Proof.
  induction d as [|[k' v'] d IH]; cbn; [tauto|]. intros [<-|I]; cbn; [now rewrite String.eqb_refl|].
  destruct (String.eqb (fst kv) k'); [discriminate|auto].
Qed.
Lemma in_filled def d kv : In kv (filled def d) -> In kv d \/ In kv def.
Proof. unfold filled. intros I. apply in_app_or in I. destruct I as [I|I]; [tauto|]. apply filter_In in I; tauto. Qed.
Lemma filled_all def d : (forall kv, In kv def -> has d (fst kv) = true) -> filled def d = d.
Proof.
  intros A. unfold filled. replace (filter _ def) with (@nil (string * pv)); [apply app_nil_r|].
  symmetry. induction def as [|kv def IH]; [reflexivity|]. cbn.
  rewrite (A kv) by now left. cbn. apply IH. intros; apply A; now right.
Qed.
Lemma without_none k d : has d k = false -> without k d = d.
Proof.
  unfold has, without. intros N. induction d as [|[q v] d IH]; [reflexivity|]. cbn in *.
  destruct (String.eqb_spec k q) as [<-|D]; cbn; [discriminate|]. now rewrite IH.
Qed.

(** ** A dictionary after a plot *)

(** The dictionary after a plot of [m] as data set 1 ([false]) or 2 ([true]) *)
Definition used (m : metric) (b : bool) (d : dict) : dict := stripped m (filled (defaults m b) d).

Lemma get_used m b d k : k <> "xunit" -> get (used m b d) k = match get d k with Some v => Some v | None => get (defaults m b) k end.
Proof.
  intros N. unfold used, stripped. destruct (drops_xunit m).
  - rewrite get_without by congruence. apply get_filled.
  - apply get_filled.
Qed.
Lemma in_used m b d kv : In kv (used m b d) -> In kv d \/ In kv (defaults m b).
Proof.
  unfold used, stripped. destruct (drops_xunit m); [rewrite in_without; intros [I _]; revert I|]; apply in_filled.
Qed.
Lemma used_xunit m b d : drops_xunit m = true -> get (used m b d) "xunit" = None.
Proof. intros D. unfold used, stripped. rewrite D. apply get_without_same. Qed.

Definition style (m : metric) (b : bool) (d : dict) : drawn := if b then second_style m d else first_style m d.

Lemma used_color m b d : get (used m b d) "color" = Some (or_default d "color" (if b then "g" else "b")).
Proof.
  rewrite get_used by discriminate. unfold or_default. destruct (get d "color"); [reflexivity|].
  destruct m, b; reflexivity.
Qed.
Lemma used_label m b d : get (used m b d) "label" = Some (or_default d "label" (if b then "2" else "1")).
Proof.
  rewrite get_used by discriminate. unfold or_default. destruct (get d "label"); [reflexivity|].
  destruct m, b; reflexivity.
Qed.
Lemma used_symbol m b d : m <> MMoments -> get (used m b d) (key_of_symbol m) = Some (or_default d (key_of_symbol m) (if b then "o" else "D")).
Proof.
  intros N. rewrite get_used by (destruct m; discriminate). unfold or_default. destruct (get d (key_of_symbol m)); [reflexivity|].
  destruct m, b; try reflexivity; congruence.
Qed.

Lemma existsb_none {A} f (l : list A) : (forall x, In x l -> f x = false) -> existsb f l = false.
Proof. induction l as [|x l IH]; intros N; [reflexivity|]. cbn. rewrite N by now left. apply IH. intros; apply N; now right. Qed.

Lemma style_eq m b d :
  style m b d = mk_drawn m b (or_default d "color" (if b then "g" else "b"))
                  (if has_symbols m then Some (or_default d (key_of_symbol m) (if b then "o" else "D")) else None)
                  (or_default d "label" (if b then "2" else "1")).
Proof. destruct b; reflexivity. Qed.

(** The binding of the keywords of plot_fit *)
Lemma bound s explicit extra :
  (forall kv, In kv explicit -> get extra (fst kv) = None) ->
  (forall kv, In kv (explicit ++ extra) -> takes s (fst kv) = true) ->
  (forall p, In p (s_params s) -> snd p = None -> has (explicit ++ extra) (fst p) = true) ->
  exists m, bind_args s explicit extra =
    Ok (map (fun p => (fst p, match get (explicit ++ extra) (fst p), snd p with
                              | Some v, _ => v | None, Some d => d | None, None => VNone end)) (s_params s), m).
Proof.
  intros A B C. unfold bind_args.
  rewrite (existsb_none _ explicit) by (intros kv I; unfold has; now rewrite A).
  rewrite (existsb_none _ (explicit ++ extra)) by (intros kv I; now rewrite B).
  rewrite andb_false_r.
  rewrite (existsb_none _ (s_params s)).
  - eexists; reflexivity.
  - intros p I. destruct (snd p) eqn:E; [reflexivity|]. now rewrite C.
Qed.

Lemma draw_used m b x w d : m <> MDendro -> options_of m d -> draw m b x w (used m b d) = Ok (style m b d).
Proof.
  intros ND O. rewrite style_eq. unfold draw.
  destruct (plot_fit_sig m) as [[s wn]|] eqn:S.
  - assert (DX : drops_xunit m = true) by (destruct m; try discriminate; reflexivity).
    assert (K : key_of_symbol m = "symbol") by (destruct m; try discriminate; reflexivity).
    assert (HS : has_symbols m = true) by (destruct m; try discriminate; reflexivity).
    assert (NM : m <> MMoments) by (intros ->; discriminate).
    pose proof (used_color m b d) as C. pose proof (used_label m b d) as L. pose proof (used_symbol m b d NM) as Y.
    rewrite K in *. rewrite HS.
    set (explicit := [self; ("xunit", x)] ++ (if wn then [("use_wavenumber", w)] else [])).
    assert (IN : forall kv, In kv (used m b d) -> match plot_options m with Some l => In (fst kv) l | None => False end).
    { intros kv I. assert (NX : fst kv <> "xunit").
      { intros E. apply in_get in I. rewrite E in I. now rewrite used_xunit in I. }
      apply in_used in I. unfold options_of in O.
      destruct (plot_options m) as [l|] eqn:P; [|destruct m; discriminate].
      destruct I as [I|I]; [destruct (O _ I); [contradiction|assumption]|].
      destruct m; try discriminate; injection P as <-; destruct b; cbn in I;
        decompose [or] I; subst; cbn; tauto. }
    destruct (bound s explicit (used m b d)) as [mo E].
    + intros kv I. apply get_none_in. intros kv' I' E. specialize (IN _ I'). rewrite E in IN.
      unfold explicit in I. destruct m; try discriminate; injection S as <- <-; cbn in I, IN;
        decompose [or] I; subst; cbn in IN; decompose [or] IN; try discriminate; contradiction.
    + intros kv I. apply in_app_or in I. destruct I as [I|I].
      * unfold explicit in I. destruct m; try discriminate; injection S as <- <-; cbn in I; decompose [or] I; subst; try reflexivity; contradiction.
      * specialize (IN _ I). destruct m; try discriminate; injection S as <- <-; cbn in IN; decompose [or] IN; try contradiction;
          match goal with H : _ = fst kv |- _ => rewrite <- H; reflexivity end.
    + intros p I N. assert (fst p = "self") as ->.
      { destruct m; try discriminate; injection S as <- <-; cbn in I; decompose [or] I; subst; try discriminate; try reflexivity; contradiction. }
      reflexivity.
    + rewrite E. cbn [bind fst]. f_equal.
      assert (G : forall k, k = "color" \/ k = "label" \/ k = "symbol" -> get (explicit ++ used m b d) k = get (used m b d) k).
      { intros k Hk. rewrite get_app. replace (get explicit k) with (@None pv); [reflexivity|].
        symmetry. apply get_none_in. intros kv I Q. unfold explicit in I. destruct wn; cbn in I; decompose [or] I; subst; cbn in Hk;
          decompose [or] Hk; try discriminate; contradiction. }
      assert (AR : forall k v, k = "color" \/ k = "label" \/ k = "symbol" -> get (used m b d) k = Some v ->
        arg (map (fun p => (fst p, match get (explicit ++ used m b d) (fst p), snd p with
                              | Some v, _ => v | None, Some d => d | None, None => VNone end)) (s_params s)) k = v).
      { intros k v Hk V. specialize (G k Hk). rewrite V in G.
        destruct m; try discriminate; injection S as <- <-; decompose [or] Hk; subst k; cbn -[used get explicit]; unfold arg; cbn -[used get explicit];
        cbn [get]; cbn -[used explicit]; try (rewrite G; reflexivity). }
      rewrite (AR _ _ (or_introl eq_refl) C), (AR _ _ (or_intror (or_intror eq_refl)) Y), (AR _ _ (or_intror (or_introl eq_refl)) L).
      reflexivity.
  - unfold item. rewrite used_color, used_label. cbn [bind].
    destruct m; try discriminate; try congruence; cbn [has_symbols];
      try reflexivity;
      match goal with |- context [used ?mm _ _] => pose proof (used_symbol mm b d ltac:(discriminate)) as Y end; cbn [key_of_symbol] in Y;
      rewrite Y; reflexivity.
Qed.
