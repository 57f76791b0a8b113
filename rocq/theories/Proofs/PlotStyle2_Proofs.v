(** Proofs about the dictionaries of the comparison plots through any program. *)
From Coq Require Import Reals String List Arith Bool Lia.
From Verif Require Import Lib.PyBase Model.Kwargs Model.PlotStyle Spec.PlotStyle Proofs.PlotStyle_Proofs.
Import ListNotations.
Local Open Scope string_scope.
Local Open Scope list_scope.

(** ** The heap after a plot *)
Lemma plot_length m x w r1 r2 h : length (fst (plot m x w r1 r2 h)) = length h.
Proof. unfold plot; cbn [fst]. now rewrite !put_length. Qed.
Lemma plot_frame m x w r1 r2 h r : r <> r1 -> r <> r2 -> look (fst (plot m x w r1 r2 h)) r = look h r.
Proof. intros A B. unfold plot; cbn [fst]. now rewrite !look_put_other by congruence. Qed.
Lemma plot_first m x w r1 r2 h : r1 <> r2 -> r1 < length h -> look (fst (plot m x w r1 r2 h)) r1 = used m false (look h r1).
Proof.
  intros N L. unfold plot; cbn [fst]. rewrite look_put_other by congruence.
  rewrite look_put_same by now rewrite !put_length.
  rewrite look_put_other by congruence. now rewrite look_put_same.
Qed.
Lemma plot_second m x w r1 r2 h : r1 <> r2 -> r2 < length h -> look (fst (plot m x w r1 r2 h)) r2 = used m true (look h r2).
Proof.
  intros N L. unfold plot; cbn [fst]. rewrite look_put_same by now rewrite !put_length.
  rewrite look_put_other by congruence. rewrite look_put_same by now rewrite put_length.
  now rewrite look_put_other by congruence.
Qed.
Lemma plot_both m x w r h : r < length h -> look (fst (plot m x w r r h)) r = stripped m (stripped m (filled (defaults m true) (filled (defaults m false) (look h r)))).
Proof. intros L. unfold plot; cbn [fst]. now rewrite !look_put_same by now rewrite ?put_length. Qed.
Lemma plot_drawn m x w r1 r2 h : m <> MDendro -> r1 <> r2 -> r1 < length h -> r2 < length h ->
  options_of m (look h r1) -> options_of m (look h r2) ->
  snd (plot m x w r1 r2 h) = ([style m false (look h r1); style m true (look h r2)], None).
Proof.
  intros ND N L1 L2 O1 O2.
  pose proof (plot_first m x w r1 r2 h N L1) as E1. pose proof (plot_second m x w r1 r2 h N L2) as E2.
  unfold plot in *; cbn [fst snd] in *. rewrite E1, E2. now rewrite !draw_used.
Qed.

Lemma plot_all_cons m ms x w r1 r2 h :
  plot_all (m :: ms) x w r1 r2 h =
  match snd (snd (plot m x w r1 r2 h)) with
  | Some e => plot m x w r1 r2 h
  | None => (fst (plot_all ms x w r1 r2 (fst (plot m x w r1 r2 h))),
             (fst (snd (plot m x w r1 r2 h)) ++ fst (snd (plot_all ms x w r1 r2 (fst (plot m x w r1 r2 h)))),
              snd (snd (plot_all ms x w r1 r2 (fst (plot m x w r1 r2 h))))))
  end.
Proof.
  cbn [plot_all]. destruct (plot m x w r1 r2 h) as [h' [l [e|]]]; cbn [fst snd]; [reflexivity|].
  destruct (plot_all ms x w r1 r2 h') as [h'' [l' e]]; reflexivity.
Qed.
(** A property of the heap that every plot keeps is kept by all of them *)
Lemma plot_all_keeps (P : list dict -> Prop) ms x w r1 r2 h :
  (forall m h, In m ms -> P h -> P (fst (plot m x w r1 r2 h))) -> P h -> P (fst (plot_all ms x w r1 r2 h)).
Proof.
  revert h; induction ms as [|m ms IH]; intros h K H; [exact H|].
  rewrite plot_all_cons. pose proof (K m h (or_introl eq_refl) H) as H1.
  destruct (snd (snd (plot m x w r1 r2 h))); cbn [fst]; [exact H1|].
  apply IH; [|exact H1]. intros; apply K; [now right|assumption].
Qed.
Lemma metric_keeps (P : list dict -> Prop) c h :
  (forall m h, In m (plots (c_metric c)) -> P h ->
     P (fst (plot m (c_xunit c) (c_wave c) (place (c_metric c) false (c_1 c)) (place (c_metric c) true (c_2 c)) h))) ->
  P h -> P (fst (distance_metric c h)).
Proof.
  intros K H. unfold distance_metric. destruct (c_verbose c); [|exact H]. now apply plot_all_keeps.
Qed.
Lemma metric_length c h : length (fst (distance_metric c h)) = length h.
Proof.
  apply (metric_keeps (fun h' => length h' = length h)); [|reflexivity].
  intros m h' _ E. now rewrite plot_length.
Qed.
Lemma metric_frame c h r : r <> place (c_metric c) false (c_1 c) -> r <> place (c_metric c) true (c_2 c) ->
  look (fst (distance_metric c h)) r = look h r.
Proof.
  intros A B. apply (metric_keeps (fun h' => look h' r = look h r)); [|reflexivity].
  intros m h' _ E. now rewrite plot_frame.
Qed.

(** ** The default dictionaries *)
Definition default_place (m : metric) (b : bool) : nat := 2 * slot m + (if b then 1 else 0).
Lemma default_place_small m b : default_place m b < 26.
Proof. destruct m, b; cbn; lia. Qed.
Lemma default_place_inj m b m' b' : default_place m b = default_place m' b' -> m = m' /\ b = b'.
Proof. destruct m, b, m', b'; cbn; intros E; try discriminate E; auto. Qed.
Lemma place_eq m b o : place m b o = match o with Some r => r | None => default_place m b end.
Proof. destruct o; reflexivity. Qed.

Definition settled (h : list dict) : Prop := forall m b, look h (default_place m b) = [] \/ look h (default_place m b) = defaults m b.
Lemma used_default p m b d : In p (plots m) -> d = [] \/ d = defaults m b -> used p b d = defaults m b.
Proof.
  intros I [->| ->]; destruct m; cbn in I; decompose [or] I; try contradiction; subst p; destruct b; reflexivity.
Qed.
Definition its_call (n : nat) (c : call) : Prop := its_own n (Compare c).

Lemma its_places n c : its_call n c ->
  (forall b : bool, (if b then c_2 c else c_1 c) <> None -> 26 <= place (c_metric c) b (if b then c_2 c else c_1 c) < 26 + n).
Proof.
  intros I b N. rewrite place_eq. destruct (if b then c_2 c else c_1 c) as [r|] eqn:E; [|congruence].
  destruct (I r) as (k & L & ->); [destruct b; auto|]. unfold own; lia.
Qed.

Lemma settled_metric n c h : its_call n c -> length h = 26 + n -> settled h -> settled (fst (distance_metric c h)).
Proof.
  intros I L S.
  refine (proj2 (metric_keeps (fun h' => length h' = 26 + n /\ settled h') c h _ (conj L S))).
  clear h L S. intros p h IP [L S]. split; [now rewrite plot_length|]. intros m b.
  set (r1 := place (c_metric c) false (c_1 c)). set (r2 := place (c_metric c) true (c_2 c)).
  assert (P1 : default_place m b = r1 -> c_1 c = None /\ m = c_metric c /\ b = false).
  { intros E. destruct (c_1 c) as [r|] eqn:C.
    - pose proof (its_places n c I false) as Q. cbn in Q. rewrite C in Q. specialize (Q ltac:(discriminate)). fold r1 in Q.
      pose proof (default_place_small m b). unfold r1 in *. rewrite ?C in *. lia.
    - unfold r1 in E. rewrite ?C, place_eq in E. apply default_place_inj in E. tauto. }
  assert (P2 : default_place m b = r2 -> c_2 c = None /\ m = c_metric c /\ b = true).
  { intros E. destruct (c_2 c) as [r|] eqn:C.
    - pose proof (its_places n c I true) as Q. cbn in Q. rewrite C in Q. specialize (Q ltac:(discriminate)). fold r2 in Q.
      pose proof (default_place_small m b). unfold r2 in *. rewrite ?C in *. lia.
    - unfold r2 in E. rewrite ?C, place_eq in E. apply default_place_inj in E. tauto. }
  pose proof (default_place_small m b) as SM.
  destruct (Nat.eq_dec (default_place m b) r1) as [E1|N1].
  - destruct (P1 E1) as (_ & -> & ->).
    assert (N : r1 <> r2) by (intros E; rewrite E in E1; destruct (P2 E1) as (_ & _ & Q); discriminate).
    right. rewrite E1. rewrite plot_first; [|assumption|lia]. rewrite <- E1.
    now apply used_default.
  - destruct (Nat.eq_dec (default_place m b) r2) as [E2|N2].
    + destruct (P2 E2) as (_ & -> & ->).
      assert (N : r1 <> r2) by congruence.
      right. rewrite E2. rewrite plot_second; [|assumption|lia]. rewrite <- E2.
      now apply used_default.
    + rewrite plot_frame by assumption. apply S.
Qed.

Lemma settled_start l : settled (start l).
Proof.
  intros m b. unfold start, look. rewrite app_nth1.
  - destruct m, b; cbn; auto.
  - change (length import_heap) with 26. apply default_place_small.
Qed.
Lemma after_snoc l acts a : after l (acts ++ [a]) = act_on (after l acts) a.
Proof. unfold after. now rewrite fold_left_app. Qed.
Lemma after_settled l acts : Forall (its_own (length l)) acts -> length (after l acts) = 26 + length l /\ settled (after l acts).
Proof.
  induction acts as [|a acts IH] using rev_ind; intros F.
  - split; [unfold after, start; cbn; reflexivity|apply settled_start].
  - apply Forall_app in F. destruct F as [F Fa]. inversion Fa as [|? ? I _]; subst. destruct (IH F) as [L S].
    rewrite after_snoc. destruct a as [c|r d]; cbn [act_on].
    + split; [now rewrite metric_length|]. now apply (settled_metric (length l)).
    + destruct I as (k & Lk & ->). split; [now rewrite put_length|].
      intros m b. rewrite look_put_other; [apply S|]. pose proof (default_place_small m b). unfold own. lia.
Qed.

(** ** What is drawn *)
Lemma options_default m b : options_of m (defaults m b).
Proof.
  unfold options_of. destruct m; cbn; try exact I; intros kv IN; destruct b; cbn in IN; decompose [or] IN; subst; cbn; try tauto.
Qed.
Lemma style_default m b : style m b (defaults m b) = style m b [].
Proof. destruct m, b; reflexivity. Qed.

Lemma style_used p m b d : In p [MDendHist; MDendNum] -> In m [MDendHist; MDendNum] -> style p b (used m b d) = style p b d.
Proof.
  intros IP IM. rewrite !style_eq. unfold or_default.
  assert (E : forall k v, get (defaults m b) k = Some (VStr v) -> k <> "xunit" ->
     match get (used m b d) k with Some x => x | None => VStr v end = match get d k with Some x => x | None => VStr v end).
  { intros k v G N. rewrite get_used by assumption. destruct (get d k); [reflexivity|]. now rewrite G. }
  cbn in IP, IM; decompose [or] IP; decompose [or] IM; try contradiction; subst; cbn [has_symbols key_of_symbol];
    (rewrite !E; [reflexivity|..]); try discriminate; destruct b; reflexivity.
Qed.

Lemma drawn_any m x w r1 r2 h : r1 <> r2 -> r1 < length h -> r2 < length h ->
  options_of m (look h r1) -> options_of m (look h r2) ->
  snd (plot_all (plots m) x w r1 r2 h) =
  (match m with
   | MDendro => [style MDendHist false (look h r1); style MDendHist true (look h r2); style MDendNum false (look h r1); style MDendNum true (look h r2)]
   | _ => [style m false (look h r1); style m true (look h r2)]
   end, None).
Proof.
  intros N L1 L2 O1 O2.
  destruct (match m with MDendro => true | _ => false end) eqn:D.
  - destruct m; try discriminate. cbn [plots].
    rewrite plot_all_cons. pose proof (plot_drawn MDendHist x w r1 r2 h ltac:(discriminate) N L1 L2 I I) as E.
    rewrite E. cbn [snd fst].
    set (h' := fst (plot MDendHist x w r1 r2 h)).
    assert (L' : length h' = length h) by apply plot_length.
    rewrite plot_all_cons. rewrite (plot_drawn MDendNum x w r1 r2 h') by (try discriminate; try assumption; try exact I; now rewrite L').
    cbn [snd fst plot_all app].
    unfold h'. rewrite plot_first, plot_second by assumption.
    rewrite !style_used by (cbn; tauto). reflexivity.
  - assert (ND : m <> MDendro) by (intros ->; discriminate).
    assert (PL : plots m = [m]) by (destruct m; try reflexivity; congruence).
    rewrite PL, plot_all_cons. rewrite plot_drawn by assumption. cbn [snd fst plot_all app].
    destruct m; try reflexivity; congruence.
Qed.
Lemma documented_style m d1 d2 :
  documented m d1 d2 =
  match m with
  | MDendro => [style MDendHist false d1; style MDendHist true d2; style MDendNum false d1; style MDendNum true d2]
  | _ => [style m false d1; style m true d2]
  end.
Proof. destruct m; reflexivity. Qed.
Lemma documented_ext m d1 d2 e1 e2 :
  (forall p, In p (plots m) -> style p false d1 = style p false e1) -> (forall p, In p (plots m) -> style p true d2 = style p true e2) ->
  documented m d1 d2 = documented m e1 e2.
Proof.
  intros A B. rewrite !documented_style. destruct m; cbn [plots] in *;
    rewrite ?(A _ (or_introl eq_refl)), ?(B _ (or_introl eq_refl)), ?(A _ (or_intror (or_introl eq_refl))), ?(B _ (or_intror (or_introl eq_refl)));
    reflexivity.
Qed.

Lemma styles l acts m x w o1 o2 :
  Forall (its_own (length l)) acts -> its_call (length l) (mk_call m true x w o1 o2) -> (o1 = None \/ o1 <> o2) ->
  options_of m (dict_given (after l acts) o1) -> options_of m (dict_given (after l acts) o2) ->
  snd (distance_metric (mk_call m true x w o1 o2) (after l acts)) =
  (documented m (dict_given (after l acts) o1) (dict_given (after l acts) o2), None).
Proof.
  intros F I D O1 O2. destruct (after_settled l acts F) as [L S]. set (h := after l acts) in *.
  unfold distance_metric. cbn [c_verbose c_metric c_xunit c_wave c_1 c_2].
  set (r1 := place m false o1). set (r2 := place m true o2).
  assert (B1 : r1 < length h).
  { unfold r1; rewrite place_eq. destruct o1 as [r|]; [|pose proof (default_place_small m false); lia].
    destruct (I r (or_introl eq_refl)) as (k & Lk & ->). unfold own; lia. }
  assert (B2 : r2 < length h).
  { unfold r2; rewrite place_eq. destruct o2 as [r|]; [|pose proof (default_place_small m true); lia].
    destruct (I r (or_intror eq_refl)) as (k & Lk & ->). unfold own; lia. }
  assert (N : r1 <> r2).
  { unfold r1, r2; rewrite !place_eq. destruct o1 as [r|], o2 as [r'|].
    - destruct D as [D|D]; [discriminate|]. congruence.
    - destruct (I r (or_introl eq_refl)) as (k & Lk & ->). pose proof (default_place_small m true). unfold own; lia.
    - destruct (I r' (or_intror eq_refl)) as (k & Lk & ->). pose proof (default_place_small m false). unfold own; lia.
    - intros E. apply default_place_inj in E. destruct E; discriminate. }
  assert (V : forall b o, look h (place m b o) = dict_given h o \/ (o = None /\ look h (place m b o) = defaults m b)).
  { intros b o. rewrite place_eq. destruct o as [r|]; [left; reflexivity|]. destruct (S m b) as [E|E]; auto. }
  assert (Q : forall b o, options_of m (dict_given h o) -> options_of m (look h (place m b o))).
  { intros b o Oo. destruct (V b o) as [E|[-> E]]; rewrite E; [assumption|apply options_default]. }
  rewrite (drawn_any m x w r1 r2 h N B1 B2 (Q _ _ O1) (Q _ _ O2)). rewrite <- documented_style.
  f_equal. apply documented_ext; intros p IP.
  - unfold r1. destruct (V false o1) as [E|[-> E]]; rewrite E; [reflexivity|]. cbn [dict_given].
    destruct m; cbn in IP; decompose [or] IP; try contradiction; subst p; reflexivity.
  - unfold r2. destruct (V true o2) as [E|[-> E]]; rewrite E; [reflexivity|]. cbn [dict_given].
    destruct m; cbn in IP; decompose [or] IP; try contradiction; subst p; reflexivity.
Qed.

(** ** What happens to the dictionaries *)
Lemma complete_used m p b d : In p (plots m) -> complete m d -> filled (defaults p b) d = d /\ stripped p d = d.
Proof.
  intros IP (C & L & M). split.
  - apply filled_all. intros kv I. destruct m; cbn in IP; decompose [or] IP; try contradiction; subst p; destruct b; cbn in I; decompose [or] I; subst; cbn; tauto.
  - unfold stripped. destruct (drops_xunit p) eqn:D; [|reflexivity]. apply without_none.
    destruct m; cbn in IP; decompose [or] IP; try contradiction; subst p; try discriminate; tauto.
Qed.
Lemma complete_kept m x w o1 o2 v h r :
  26 <= r -> r < length h ->
  (o1 = Some r \/ o2 = Some r -> complete m (look h r)) ->
  look (fst (distance_metric (mk_call m v x w o1 o2) h)) r = look h r.
Proof.
  intros G B C.
  set (c := mk_call m v x w o1 o2).
  destruct (Nat.eq_dec r (place m false o1)) as [E1|N1]; [|destruct (Nat.eq_dec r (place m true o2)) as [E2|N2]].
  3: now apply (metric_frame c).
  - assert (O1 : o1 = Some r).
    { destruct o1 as [q|]; [cbn in E1; congruence|]. pose proof (default_place_small m false) as Q. rewrite place_eq in E1. lia. }
    specialize (C (or_introl O1)).
    refine (proj2 (metric_keeps (fun h' => length h' = length h /\ look h' r = look h r) c h _ (conj eq_refl eq_refl))).
    intros p h' IP [L E]. cbn [c c_metric c_xunit c_wave c_1 c_2] in *. split; [now rewrite plot_length|].
    rewrite <- E1. destruct (Nat.eq_dec r (place m true o2)) as [<-|N].
    + rewrite plot_both by lia. rewrite E.
      rewrite (proj1 (complete_used m p false _ IP C)), (proj1 (complete_used m p true _ IP C)), !(proj2 (complete_used m p true _ IP C)). reflexivity.
    + rewrite plot_first by (assumption || lia). rewrite E. unfold used.
      now rewrite (proj1 (complete_used m p false _ IP C)), (proj2 (complete_used m p true _ IP C)).
  - assert (O2 : o2 = Some r).
    { destruct o2 as [q|]; [cbn in E2; congruence|]. pose proof (default_place_small m true) as Q. rewrite place_eq in E2. lia. }
    specialize (C (or_intror O2)).
    refine (proj2 (metric_keeps (fun h' => length h' = length h /\ look h' r = look h r) c h _ (conj eq_refl eq_refl))).
    intros p h' IP [L E]. cbn [c c_metric c_xunit c_wave c_1 c_2] in *. split; [now rewrite plot_length|].
    rewrite <- E2. rewrite plot_second by (congruence || lia). rewrite E. unfold used.
    now rewrite (proj1 (complete_used m p true _ IP C)), (proj2 (complete_used m p true _ IP C)).
Qed.

Lemma untouched l acts k : Forall (fun a => ~ touches (own k) a) acts -> look (after l acts) (own k) = nth k l [].
Proof.
  induction acts as [|a acts IH] using rev_ind; intros F.
  - unfold after, start, look. cbn [fold_left]. rewrite app_nth2; change (length import_heap) with 26; unfold own; [|lia]. f_equal; lia.
  - apply Forall_app in F. destruct F as [F Fa]. inversion Fa as [|? ? I _]; subst.
    rewrite after_snoc. destruct a as [c|r d]; cbn [act_on touches] in *.
    + destruct (c_verbose c) eqn:V; [|unfold distance_metric; rewrite V; now apply IH].
      rewrite metric_frame; [now apply IH|..]; rewrite place_eq.
      * destruct (c_1 c) as [r|] eqn:C; [intros E; apply I; split; [reflexivity|]; left; now rewrite E|].
        pose proof (default_place_small (c_metric c) false). unfold own; lia.
      * destruct (c_2 c) as [r|] eqn:C; [intros E; apply I; split; [reflexivity|]; right; now rewrite E|].
        pose proof (default_place_small (c_metric c) true). unfold own; lia.
    + rewrite look_put_other; [now apply IH|congruence].
Qed.
