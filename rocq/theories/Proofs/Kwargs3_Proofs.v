(** Proofs about the keyword arguments of the distance constructors. *)
From Coq Require Import Reals String List Arith Bool Lia.
From Verif Require Import Lib.PyBase Model.FitUtils Model.Kwargs Spec.Kwargs Proofs.Kwargs_Proofs Proofs.Kwargs2_Proofs.
Import ListNotations.
Local Open Scope string_scope.
Local Open Scope list_scope.

(** ** The calls of a run are for its object *)
Lemma run_of : forall ins k o e x w w' u, run ins k o e x w = (w', Ok u) ->
  exists evs, steps w' = steps w ++ evs /\ forall c, In c evs -> e_of c = o.
Proof.
  intros ins k o e x w w' u H.
  destruct (run_trace _ _ _ _ _ _ _ _ H) as (a & am & B & D & rp & rr & rf & ca & cm & ffts & ra & rm & pa & pm & fa & fm & f2 & Ep & Er & Ef & Bc & Hf & Br & Bp & Bf & St & N2 & Y2).
  eexists. split; [exact St|]. intros c [<-|Hc]; [reflexivity|]. apply in_app_or in Hc as [Hc|Hc]; [apply (Hf c Hc)|].
  apply in_app_or in Hc as [Hc|Hc]; [destruct Hc as [<-|[<-|[<-|[]]]]; reflexivity|].
  destruct (truthy (heap w') (arg a "fit_2D")) eqn:T; [|rewrite (N2 eq_refl) in Hc; destruct Hc].
  destruct (Y2 eq_refl) as (rg & ga & gm & _ & _ & E2). rewrite E2 in Hc. destruct Hc as [<-|[]]; reflexivity.
Qed.
Lemma run_drops : forall ins k o e x w w' u, run ins k o e x w = (w', Ok u) -> drops (heap w) (heap w') ["threads"; "fit_unbinned"].
Proof.
  intros ins k o e x w w' u H. destruct (run_trace _ _ _ _ _ _ _ _ H) as (a & am & _ & [L D] & _). split; [exact L|].
  intros r n. destruct (D r n) as [E|[I E]]; [now left|]. right. split; [|exact E]. destruct I as [<-|I]; [now left|]. destruct k; cbn in I |- *; intuition.
Qed.

(** The events of one data set do not count for another one *)
Lemma filter_other : forall o o' f evs, o <> o' -> (forall c, In c evs -> e_of c = o') ->
  filter (fun e => Nat.eqb (e_of e) o && String.eqb (e_fun e) f) evs = [].
Proof.
  intros o o' f evs N H. induction evs as [|c evs IH]; [reflexivity|]. cbn.
  rewrite (H c (or_introl eq_refl)). destruct (Nat.eqb_spec o' o); [congruence|]. cbn. apply IH. intros; apply H; now right.
Qed.
Lemma calls_before : forall w w1 w' o f l o' evs, o <> o' -> steps w1 = steps w ++ evs -> (forall c, In c evs -> e_of c = o') ->
  new_calls w1 w' o f l -> new_calls w w' o f l.
Proof.
  intros w w1 w' o f l o' evs N E H [evs2 [E2 F2]]. exists (evs ++ evs2). rewrite E2, E, app_assoc. split; [reflexivity|].
  rewrite filter_app, (filter_other o o') by assumption. exact F2.
Qed.
Lemma calls_after : forall w w1 w' o f l o' evs, o <> o' -> steps w' = steps w1 ++ evs -> (forall c, In c evs -> e_of c = o') ->
  new_calls w w1 o f l -> new_calls w w' o f l.
Proof.
  intros w w1 w' o f l o' evs N E H [evs2 [E2 F2]]. exists (evs2 ++ evs). rewrite E, E2, app_assoc. split; [reflexivity|].
  rewrite filter_app, (filter_other o o' f evs) by assumption. now rewrite app_nil_r.
Qed.
Lemma configured_before : forall w w1 w' o lo hi b d o' evs, o <> o' -> steps w1 = steps w ++ evs -> (forall c, In c evs -> e_of c = o') ->
  configured w1 w' o lo hi b d -> configured w w' o lo hi b d.
Proof.
  intros w w1 w' o lo hi b d o' evs N E H [[c [C1 C2]] [[c' [C3 C4]] C5]].
  split; [exists c; split; [now apply (calls_before w w1 w' o _ _ o' evs)|exact C2]|].
  split; [exists c'; split; [now apply (calls_before w w1 w' o _ _ o' evs)|exact C4]|now apply (calls_before w w1 w' o _ _ o' evs)].
Qed.
Lemma configured_after : forall w w1 w' o lo hi b d o' evs, o <> o' -> steps w' = steps w1 ++ evs -> (forall c, In c evs -> e_of c = o') ->
  configured w w1 o lo hi b d -> configured w w' o lo hi b d.
Proof.
  intros w w1 w' o lo hi b d o' evs N E H [[c [C1 C2]] [[c' [C3 C4]] C5]].
  split; [exists c; split; [now apply (calls_after w w1 w' o _ _ o' evs)|exact C2]|].
  split; [exists c'; split; [now apply (calls_after w w1 w' o _ _ o' evs)|exact C4]|now apply (calls_after w w1 w' o _ _ o' evs)].
Qed.

(** A call that builds the object comes first *)
Lemma calls_build : forall w w1 w' o f l c, steps w1 = steps w ++ [c] -> e_fun c <> f -> new_calls w1 w' o f l -> new_calls w w' o f l.
Proof.
  intros w w1 w' o f l c E N [evs [E2 F2]]. exists (c :: evs). rewrite E2, E, <- app_assoc. split; [reflexivity|]. cbn.
  destruct (String.eqb_spec (e_fun c) f); [contradiction|]. now rewrite andb_false_r.
Qed.
Lemma configured_build : forall w w1 w' o lo hi b d c, steps w1 = steps w ++ [c] -> ~ In (e_fun c) ["fit_pspec"; "pspec"; "fit_2Dpspec"] ->
  configured w1 w' o lo hi b d -> configured w w' o lo hi b d.
Proof.
  intros w w1 w' o lo hi b d c E N [[c1 [C1 C2]] [[c' [C3 C4]] C5]].
  split; [exists c1; split; [apply (calls_build w w1 w' o _ _ c)|exact C2]|split; [exists c'; split; [apply (calls_build w w1 w' o _ _ c)|exact C4]|apply (calls_build w w1 w' o _ _ c)]];
  try assumption; intros Q; apply N; rewrite Q; cbn; auto.
Qed.

(** ** One data set: the run with the limits, the break and the radial options *)
Lemma run_configured : forall ins k o e x w w' u r bv,
  run ins k o e x w = (w', Ok u) -> nth 0 (heap w) [] = [] ->
  get (e ++ x) "fit_kwargs" = Some (VDict r) -> look (heap w) r = [("brk", bv)] -> get (e ++ x) "fit_2D" = Some (VBool false) ->
  configured w w' o (chosen (e ++ x) "low_cut" VNone) (chosen (e ++ x) "high_cut" VNone) bv (options_in (heap w) (e ++ x) "radial_pspec_kwargs").
Proof.
  intros ins k o e x w w' u r bv H H0 Ef Er E2.
  destruct (fit_reach _ _ _ _ _ _ _ _ H H0) as [c [C1 [C2 C3]]].
  destruct (radial_reach _ _ _ _ _ _ _ _ H H0) as [c' [D1 [D2 _]]].
  assert (F := fit2D_reach _ _ _ _ _ _ _ _ H H0 false). unfold chosen at 1 in F. rewrite E2 in F.
  split; [|split; [exists c'; now split|now apply F]].
  exists c. split; [exact C1|]. split; [apply C2; cbn; auto|]. split; [apply C2; cbn; auto|].
  rewrite (C3 "brk" VNone) by (cbn; auto). unfold chosen, options_in. rewrite Ef. unfold look in Er. now rewrite Er.
Qed.

Lemma object_ok : forall o cls opts d w w' u, object_of o cls opts d w = (w', Ok u) ->
  heap w' = heap w /\ (steps w' = steps w \/ steps w' = steps w ++ [ev o cls opts []]) /\ (d <> Raw -> w' = w) /\
  (d = Raw -> steps w' = steps w ++ [ev o cls opts []]).
Proof.
  intros o cls opts d w w' u H. unfold object_of in H. destruct d.
  - injection H as <- _. cbn. repeat split; auto. congruence.
  - unfold ret in H. injection H as <- _. repeat split; auto. congruence.
Qed.
Lemma object_run : forall o cls opts d w, exists w', object_of o cls opts d w = (w', Ok tt) /\ heap w' = heap w /\ (d <> Raw -> w' = w).
Proof. intros. unfold object_of. destruct d; eexists; repeat split; cbn; congruence. Qed.

Lemma break_ok : forall b i w w' v, break_at (two_breaks b) i w = (w', Ok v) -> i < 2 -> w' = w /\ break_for b i = Some v /\ (forall q, b <> BScalarQ q).
Proof.
  intros b i w w' v H Hi. unfold break_at, two_breaks in H. destruct b; try discriminate; unfold break_for.
  - destruct i as [|[|i]]; cbn in H; try lia; unfold ret in H; injection H as <- <-; repeat split; congruence.
  - destruct (nth_error l i); [|discriminate]. unfold ret in H. injection H as <- <-. repeat split; congruence.
  - destruct (nth_error l i); [|discriminate]. unfold ret in H. injection H as <- <-. repeat split; congruence.
  - destruct i as [|[|i]]; cbn in H; try lia; unfold ret in H; injection H as <- <-; repeat split; congruence.
Qed.
Lemma break_run : forall b i v w, i < 2 -> (forall q, b <> BScalarQ q) -> break_for b i = Some v -> break_at (two_breaks b) i w = (w, Ok v).
Proof.
  intros b i v w Hi N H. unfold break_for in H. destruct b; cbn.
  - destruct i as [|[|i]]; try lia; cbn; unfold ret; congruence.
  - now elim (N v0).
  - now rewrite H.
  - now rewrite H.
  - destruct i as [|[|i]]; try lia; cbn; unfold ret; congruence.
Qed.
Lemma limits_at : forall low high lo hi i, check_fit_limits low high = Ok (lo, hi) -> i < 2 ->
  limit_for low i = Some (limit_at lo i) /\ limit_for high i = Some (limit_at hi i).
Proof.
  assert (One : forall l lo i, check_limit l = Ok lo -> i < 2 -> limit_for l i = Some (limit_at lo i)).
  { intros l lo i H Hi. unfold check_limit in H. destruct l; try discriminate.
    - injection H as <-. destruct i as [|[|i]]; try lia; reflexivity.
    - injection H as <-. destruct i as [|[|i]]; try lia; reflexivity.
    - destruct l as [|a [|b [|c l]]]; try discriminate. cbn in H. injection H as <-. destruct i as [|[|i]]; try lia; reflexivity.
    - destruct l as [|a [|b [|c l]]]; try discriminate. cbn in H. injection H as <-. destruct i as [|[|i]]; try lia; reflexivity. }
  intros low high lo hi i H Hi. unfold check_fit_limits in H. destruct (check_limit low) as [lo'|] eqn:E1; [|discriminate]. cbn in H.
  destruct (check_limit high) as [hi'|] eqn:E2; [|discriminate]. cbn in H. injection H as <- <-. split; now apply One.
Qed.
Lemma limits_ok : forall low high i, (exists v, limit_for low i = Some v) -> (exists v, limit_for high i = Some v) ->
  exists lo hi, check_fit_limits low high = Ok (lo, hi).
Proof.
  assert (One : forall l i, (exists v, limit_for l i = Some v) -> exists lo, check_limit l = Ok lo).
  { intros l i [v H]. destruct l; cbn in *; try (eexists; reflexivity); try discriminate;
    destruct l as [|a [|b [|c l]]]; try discriminate; eexists; reflexivity. }
  intros low high i H1 H2. destruct (One _ _ H1) as [lo E1]. destruct (One _ _ H2) as [hi E2].
  exists lo, hi. unfold check_fit_limits. now rewrite E1, E2.
Qed.

(** The heap only grows and loses the keys threads, fit_unbinned (and brk) *)
Definition later (h h' : list dict) : Prop :=
  length h <= length h' /\ forall r n, r < length h -> get (look h' r) n = get (look h r) n \/ In n ["threads"; "fit_unbinned"] /\ get (look h' r) n = None.
Lemma later_refl : forall h, later h h.
Proof. intros. split; [lia|now left]. Qed.
Lemma later_get : forall h h' r n, later h h' -> r < length h -> ~ In n ["threads"; "fit_unbinned"] -> get (look h' r) n = get (look h r) n.
Proof. intros h h' r n [_ L] Hr N. destruct (L r n Hr) as [E|[I _]]; [exact E|contradiction]. Qed.
Lemma later_nil : forall h h' r, later h h' -> r < length h -> look h r = [] -> look h' r = [].
Proof.
  intros h h' r [_ L] Hr E. destruct (look h' r) as [|[k v] d] eqn:Q; [reflexivity|]. exfalso.
  destruct (L r k Hr) as [X|[_ X]]; rewrite ?Q, ?E in X; cbn in X; rewrite String.eqb_refl in X; discriminate.
Qed.
Lemma later_trans : forall h1 h2 h3, later h1 h2 -> later h2 h3 -> later h1 h3.
Proof.
  intros h1 h2 h3 [L1 D1] [L2 D2]. split; [lia|]. intros r n Hr. destruct (D2 r n) as [E|X]; [lia| |now right].
  rewrite E. now apply D1.
Qed.
Lemma later_app : forall h d h', later (h ++ [d]) h' -> later h h'.
Proof.
  intros h d h' [L D]. rewrite app_length in L. cbn in L. split; [lia|]. intros r n Hr.
  destruct (D r n) as [E|X]; [rewrite app_length; lia| |now right]. left. now rewrite E, look_app.
Qed.
Lemma drops_later : forall h h', drops h h' ["threads"; "fit_unbinned"] -> later h h'.
Proof. intros h h' [L D]. split; [lia|]. intros r n _. destruct (D r n) as [E|[I E]]; [now left|right; now split]. Qed.
Lemma configured_ext : forall w w' o lo hi b d d', (forall n, In n (names radial_from_dict) -> get d' n = get d n) ->
  configured w w' o lo hi b d -> configured w w' o lo hi b d'.
Proof.
  intros w w' o lo hi b d d' E [C1 [[c [C2 C3]] C4]]. split; [exact C1|]. split; [|exact C4]. exists c. split; [exact C2|].
  intros n v Hin. rewrite (C3 n v Hin). unfold chosen. rewrite E; [reflexivity|]. apply (in_map fst) in Hin. exact Hin.
Qed.
Lemma radial_not_dropped : forall n, In n (names radial_from_dict) -> ~ In n ["threads"; "fit_unbinned"].
Proof. intros n Hn. cbn in Hn. repeat (destruct Hn as [<-|Hn]; [cbn; intuition discriminate|]). destruct Hn. Qed.

(** VCA and MVC *)
Lemma radial_one_ok : forall ins k cls opts i d lo hi b kw w w' u, i < 2 -> ~ In cls ["fit_pspec"; "pspec"; "fit_2Dpspec"] ->
  (exists rest, heap w = [] :: rest) ->
  radial_one ins k cls opts i d lo hi (two_breaks b) kw w = (w', Ok u) ->
  later (heap w) (heap w') /\ (exists evs, steps w' = steps w ++ evs /\ forall c, In c evs -> e_of c = S i) /\
  (needs_run d = false -> w' = w) /\
  (needs_run d = true -> exists bv, break_for b i = Some bv /\ (forall q, b <> BScalarQ q) /\
     forall r, kw = VDict r -> r < length (heap w) -> configured w w' (S i) (limit_at lo i) (limit_at hi i) bv (look (heap w) r)).
Proof.
  intros ins k cls opts i d lo hi b kw w w' u Hi Nc H0 H. unfold radial_one in H.
  apply thent_ok in H as [w1 [u1 [O H]]]. destruct (object_ok _ _ _ _ _ _ _ O) as [Oh [Os [On Or]]].
  destruct (needs_run d) eqn:Nr.
  - apply thent_ok in H as [w2 [bv [Bk H]]]. apply break_ok in Bk as [-> [Bf Bn]]; [|exact Hi].
    apply thent_ok in H as [w3 [fk [F H]]]. unfold fresh in F. injection F as <- <-. cbn [heap steps] in H.
    set (e := [("fit_kwargs", VDict (length (heap w1))); ("low_cut", limit_at lo i); ("high_cut", limit_at hi i); ("radial_pspec_kwargs", kw); ("fit_2D", VBool false)]) in *.
    assert (L := drops_later _ _ (run_drops _ _ _ _ _ _ _ _ H)). cbn [heap] in L. apply later_app in L. rewrite Oh in L.
    destruct (run_of _ _ _ _ _ _ _ _ H) as [evs [Es Eo]]. cbn [steps] in Es.
    split; [exact L|]. split; [|split; [discriminate|]].
    + destruct Os as [Os|Os]; rewrite Os in Es; [now exists evs|]. rewrite <- app_assoc in Es. eexists. split; [exact Es|].
      intros c [<-|Hc]; [reflexivity|now apply Eo].
    + intros _. exists bv. split; [exact Bf|]. split; [exact Bn|]. intros r Ek Hr.
      assert (C := run_configured _ _ _ _ _ _ _ _ (length (heap w1)) bv H). cbn [heap] in C.
      assert (E0 : nth 0 (heap w1 ++ [[("brk", bv)]]) [] = []) by (destruct H0 as [rest Hw]; rewrite Oh, Hw; reflexivity).
      specialize (C E0 eq_refl (look_fresh _ _) eq_refl). cbn [chosen e app get String.eqb] in C.
      assert (C' : configured (mk_w (heap w1 ++ [[("brk", bv)]]) (steps w1)) w' (S i) (limit_at lo i) (limit_at hi i) bv (look (heap w) r)).
      { eapply configured_ext; [|exact C]. intros n Hn. unfold options_in. cbn [e app get String.eqb]. rewrite Ek. cbn. rewrite Oh.
        unfold look. now rewrite app_nth1. }
      destruct Os as [Os|Os].
      * destruct C' as [[c [C1 C2]] [[c' [C3 C4]] C5]]. unfold configured, new_calls in *. cbn [steps] in *. rewrite Os in *.
        split; [exists c; now split|split; [exists c'; now split|exact C5]].
      * apply (configured_build w (mk_w (heap w1 ++ [[("brk", bv)]]) (steps w1)) w' (S i) _ _ _ _ (ev (S i) cls opts [])); [exact Os|exact Nc|exact C'].
  - assert (Dn : d <> Raw) by (intros ->; discriminate). assert (w1 = w) as -> by now apply On.
    unfold ret in H. injection H as <- _. split; [apply later_refl|]. split; [exists []; rewrite app_nil_r; split; [reflexivity|intros c []]|]. split; [reflexivity|discriminate].
Qed.

Lemma object_events : forall w w' (P : event -> Prop), (exists evs, steps w' = steps w ++ evs /\ forall c, In c evs -> P c) ->
  forall evs, steps w' = steps w ++ evs -> forall c, In c evs -> P c.
Proof. intros w w' P [e1 [E1 H1]] evs E. rewrite E in E1. apply app_inv_head in E1. now subst. Qed.

(** Two data sets run one after the other *)
Definition one_ok (f : task unit) (w : world) (i : nat) (d : given) (lo hi : pv) (b : brks) (radial : list dict -> dict) : Prop :=
  forall w0 w' u, later (heap w) (heap w0) -> f w0 = (w', Ok u) ->
  later (heap w0) (heap w') /\ (exists evs, steps w' = steps w0 ++ evs /\ forall c, In c evs -> e_of c = S i) /\
  (needs_run d = false -> w' = w0) /\
  (needs_run d = true -> exists bv, break_for b i = Some bv /\ (forall q, b <> BScalarQ q) /\ configured w0 w' (S i) lo hi bv (radial (heap w))).
Lemma pair_ok : forall f g w w' u d1 d2 low high lo hi b rad1 rad2,
  check_fit_limits low high = Ok (lo, hi) ->
  one_ok f w 0 d1 (limit_at lo 0) (limit_at hi 0) b rad1 -> one_ok g w 1 d2 (limit_at lo 1) (limit_at hi 1) b rad2 ->
  thent f (fun _ => g) w = (w', Ok u) ->
  as_documented w w' 0 d1 low high b (rad1 (heap w)) /\ as_documented w w' 1 d2 low high b (rad2 (heap w)).
Proof.
  intros f g w w' u d1 d2 low high lo hi b rad1 rad2 Hl Hf Hg H. apply thent_ok in H as [w1 [u1 [F G]]].
  destruct (Hf w w1 u1 (later_refl _) F) as [L1 [[e1 [E1 O1]] [N1 Y1]]].
  destruct (Hg w1 w' u L1 G) as [L2 [[e2 [E2 O2]] [N2 Y2]]].
  destruct (limits_at low high lo hi 0 Hl) as [La Lb]; [lia|]. destruct (limits_at low high lo hi 1 Hl) as [Lc Ld]; [lia|].
  unfold as_documented. split.
  - destruct (needs_run d1).
    + destruct (Y1 eq_refl) as [bv [Bv [_ C]]]. exists (limit_at lo 0), (limit_at hi 0), bv. repeat (split; [assumption|]).
      now apply (configured_after w w1 w' 1 _ _ _ _ 2 e2).
    + apply object_events. exists e2. rewrite E2, (N1 eq_refl). split; [reflexivity|]. intros c Hc. now rewrite (O2 c Hc).
  - destruct (needs_run d2).
    + destruct (Y2 eq_refl) as [bv [Bv [_ C]]]. exists (limit_at lo 1), (limit_at hi 1), bv. repeat (split; [assumption|]).
      now apply (configured_before w w1 w' 2 _ _ _ _ 1 e1).
    + apply object_events. exists e1. rewrite (N2 eq_refl), E1. split; [reflexivity|]. intros c Hc. now rewrite (O1 c Hc).
Qed.
Lemma later_empty : forall h h', (exists rest, h = [] :: rest) -> later h h' -> exists rest, h' = [] :: rest.
Proof.
  intros h h' [rest ->] [L D]. destruct h' as [|d rest']; [cbn in L; lia|]. exists rest'. f_equal.
  apply (later_nil ([] :: rest) (d :: rest') 0); [now split|cbn; lia|reflexivity].
Qed.
Lemma radial_one_pair : forall ins k cls opts i d lo hi b r w, i < 2 -> ~ In cls ["fit_pspec"; "pspec"; "fit_2Dpspec"] ->
  (exists rest, heap w = [] :: rest) -> r < length (heap w) ->
  one_ok (radial_one ins k cls opts i d lo hi (two_breaks b) (VDict r)) w i d (limit_at lo i) (limit_at hi i) b (fun h => look h r).
Proof.
  intros ins k cls opts i d lo hi b r w Hi Nc H0 Hr w0 w' u L H.
  destruct (radial_one_ok ins k cls opts i d lo hi b (VDict r) w0 w' u Hi Nc (later_empty _ _ H0 L) H) as [A [B [C D]]].
  split; [exact A|]. split; [exact B|]. split; [exact C|]. intros N. destruct (D N) as [bv [D1 [D2 D3]]]. exists bv. split; [exact D1|]. split; [exact D2|].
  apply (configured_ext w0 w' (S i) _ _ _ (look (heap w0) r)); [|apply D3; [reflexivity|destruct L; lia]].
  intros n Hn. symmetry. apply later_get; [exact L|exact Hr|now apply radial_not_dropped].
Qed.

Lemma mvc_documented : forall ins d1 d2 b low high kw kw2 w w' u, ready w -> known (heap w) kw -> kw2 = VNone \/ known (heap w) kw2 ->
  mvc_distance ins d1 d2 b low high kw kw2 w = (w', Ok u) ->
  as_documented w w' 0 d1 low high b (dict_for (heap w) kw kw2 0) /\ as_documented w w' 1 d2 low high b (dict_for (heap w) kw kw2 1).
Proof.
  intros ins d1 d2 b low high kw kw2 w w' u [H0 _] [r [-> Hr]] K2 H. unfold mvc_distance in H.
  apply thent_ok in H as [w0 [[lo hi] [Hl H]]]. unfold lift in Hl.
  assert (w0 = w) as -> by congruence. assert (Hl' : check_fit_limits low high = Ok (lo, hi)) by congruence. clear Hl. cbn [fst snd] in H.
  assert (R2 : exists r2, match kw2 with VNone => VDict r | _ => kw2 end = VDict r2 /\ r2 < length (heap w) /\ dict_for (heap w) (VDict r) kw2 1 = look (heap w) r2).
  { destruct K2 as [->|[r2 [-> Hr2]]]; eexists; repeat split; eassumption. }
  destruct R2 as [r2 [E2 [Hr2 Q2]]]. rewrite E2 in H.
  replace (dict_for (heap w) (VDict r) kw2 0) with (look (heap w) r) by (destruct kw2; reflexivity). rewrite Q2.
  refine (pair_ok _ _ w w' u d1 d2 low high lo hi b (fun h => look h r) (fun h => look h r2) Hl' _ _ H);
    apply radial_one_pair; try assumption; try lia; cbn; intuition discriminate.
Qed.
Lemma vca_documented : forall ins d1 d2 cw b low high kw kw2 w w' u, ready w -> known (heap w) kw ->
  vca_distance ins d1 d2 cw b low high kw kw2 w = (w', Ok u) ->
  as_documented w w' 0 d1 low high b (dict_for (heap w) kw VNone 0) /\ as_documented w w' 1 d2 low high b (dict_for (heap w) kw VNone 1).
Proof.
  intros ins d1 d2 cw b low high kw kw2 w w' u [H0 _] [r [-> Hr]] H. unfold vca_distance in H.
  apply thent_ok in H as [w0 [[lo hi] [Hl H]]]. unfold lift in Hl.
  assert (w0 = w) as -> by congruence. assert (Hl' : check_fit_limits low high = Ok (lo, hi)) by congruence. clear Hl. cbn [fst snd] in H.
  refine (pair_ok _ _ w w' u d1 d2 low high lo hi b (fun h => look h r) (fun h => look h r) Hl' _ _ H);
    apply radial_one_pair; try assumption; try lia; cbn; intuition discriminate.
Qed.

(** PowerSpectrum: the dictionary holds options of run *)
Lemma pspec_one_pair : forall ins i d wt lo hi b r w, i < 2 -> ready w -> r < length (heap w) ->
  one_ok (pspec_one ins i d wt lo hi (two_breaks b) (VDict r)) w i d (limit_at lo i) (limit_at hi i) b
         (fun h => options_in h (look h r) "radial_pspec_kwargs").
Proof.
  intros ins i d wt lo hi b r w Hi [H0 Cl] Hr w0 w' u L H. unfold pspec_one in H.
  assert (H0' := later_empty _ _ H0 L).
  apply thent_ok in H as [w1 [u1 [O H]]]. destruct (object_ok _ _ _ _ _ _ _ O) as [Oh [Os [On Or]]].
  destruct (needs_run d) eqn:Nr.
  2: { assert (Dn : d <> Raw) by (intros ->; discriminate). assert (w1 = w0) as -> by now apply On.
       unfold ret in H. injection H as <- _. split; [apply later_refl|]. split; [exists []; rewrite app_nil_r; split; [reflexivity|intros c []]|]. split; [reflexivity|discriminate]. }
  apply thent_ok in H as [w2 [kd [M H]]]. apply mapping_ok in M as [-> [r' [Er ->]]]. assert (r' = r) as -> by congruence. clear Er.
  set (this := without "fit_2D" (without "high_cut" (without "low_cut" (look (heap w1) r)))) in *.
  assert (Gt : forall n, get this n = if (String.eqb "fit_2D" n || String.eqb "high_cut" n || String.eqb "low_cut" n)%bool then None else get (look (heap w1) r) n).
  { intros n. unfold this. rewrite !get_without. destruct (String.eqb "fit_2D" n), (String.eqb "high_cut" n), (String.eqb "low_cut" n); reflexivity. }
  destruct (get this "fit_kwargs") as [v|] eqn:Gf.
  { exfalso. apply thent_ok in H as [w3 [u3 [_ H]]]. apply thent_ok in H as [w4 [bv [_ H]]]. apply thent_ok in H as [w5 [fk [_ H]]].
    unfold run in H. apply thent_ok in H as [w6 [a [B _]]]. unfold lift in B.
    rewrite (bind_twice _ _ _ ("fit_kwargs", fk)) in B; [discriminate|cbn; auto|]. cbn [fst]. now rewrite Gf. }
  apply thent_ok in H as [w3 [u3 [R3 H]]]. unfold ret in R3. injection R3 as <- _.
  apply thent_ok in H as [w4 [bv [Bk H]]]. apply break_ok in Bk as [-> [Bf Bn]]; [|exact Hi].
  apply thent_ok in H as [w5 [fk [F H]]]. unfold fresh in F. injection F as <- <-. cbn [heap steps] in H.
  set (e := [("low_cut", limit_at lo i); ("high_cut", limit_at hi i); ("fit_kwargs", VDict (length (heap w1))); ("fit_2D", VBool false)]) in *.
  assert (L2 := drops_later _ _ (run_drops _ _ _ _ _ _ _ _ H)). cbn [heap] in L2. apply later_app in L2. rewrite Oh in L2.
  destruct (run_of _ _ _ _ _ _ _ _ H) as [evs [Es Eo]]. cbn [steps] in Es.
  split; [exact L2|]. split; [|split; [discriminate|]].
  - destruct Os as [Os|Os]; rewrite Os in Es; [now exists evs|]. rewrite <- app_assoc in Es. eexists. split; [exact Es|].
    intros c [<-|Hc]; [reflexivity|now apply Eo].
  - intros _. exists bv. split; [exact Bf|]. split; [exact Bn|].
    assert (C := run_configured _ _ _ _ _ _ _ _ (length (heap w1)) bv H). cbn [heap] in C.
    assert (E0 : nth 0 (heap w1 ++ [[("brk", bv)]]) [] = []) by (destruct H0' as [rest Hw]; rewrite Oh, Hw; reflexivity).
    specialize (C E0 eq_refl (look_fresh _ _) eq_refl). cbn [chosen e app get String.eqb] in C.
    assert (C' : configured (mk_w (heap w1 ++ [[("brk", bv)]]) (steps w1)) w' (S i) (limit_at lo i) (limit_at hi i) bv (options_in (heap w) (look (heap w) r) "radial_pspec_kwargs")).
    { eapply configured_ext; [|exact C]. intros n Hn. unfold options_in. cbn [e app get]. cbn. rewrite (Gt "radial_pspec_kwargs"). cbn. rewrite Oh.
      rewrite (later_get _ _ r "radial_pspec_kwargs" L Hr) by (cbn; intuition discriminate).
      destruct (get (look (heap w) r) "radial_pspec_kwargs") as [v|] eqn:Gr; [|reflexivity]. destruct v; try reflexivity.
      assert (Q : r0 < length (heap w)).
      { apply (Cl (look (heap w) r) "radial_pspec_kwargs"); [|exact Gr]. unfold look. now apply nth_In. }
      symmetry. rewrite app_nth1 by (destruct L; lia). apply (later_get _ _ r0 n L Q). now apply radial_not_dropped. }
    destruct Os as [Os|Os].
    + destruct C' as [[c [C1 C2]] [[c' [C3 C4]] C5]]. unfold configured, new_calls in *. cbn [steps] in *. rewrite Os in *.
      split; [exists c; now split|split; [exists c'; now split|exact C5]].
    + apply (configured_build w0 (mk_w (heap w1 ++ [[("brk", bv)]]) (steps w1)) w' (S i) _ _ _ _ (ev (S i) "PowerSpectrum" [("weights", wt)] [])); [exact Os|cbn; intuition discriminate|exact C'].
Qed.
Lemma pspec_documented : forall ins d1 d2 w1 w2 b low high kw kw2 w w' u, ready w -> known (heap w) kw -> kw2 = VNone \/ known (heap w) kw2 ->
  pspec_distance ins d1 d2 w1 w2 b low high kw kw2 w = (w', Ok u) ->
  as_documented w w' 0 d1 low high b (options_in (heap w) (dict_for (heap w) kw kw2 0) "radial_pspec_kwargs") /\
  as_documented w w' 1 d2 low high b (options_in (heap w) (dict_for (heap w) kw kw2 1) "radial_pspec_kwargs").
Proof.
  intros ins d1 d2 w1 w2 b low high kw kw2 w w' u Rd [r [-> Hr]] K2 H. unfold pspec_distance in H.
  apply thent_ok in H as [w0 [[lo hi] [Hl H]]]. unfold lift in Hl.
  assert (w0 = w) as -> by congruence. assert (Hl' : check_fit_limits low high = Ok (lo, hi)) by congruence. clear Hl. cbn [fst snd] in H.
  assert (R2 : exists r2, match kw2 with VNone => VDict r | _ => kw2 end = VDict r2 /\ r2 < length (heap w) /\ dict_for (heap w) (VDict r) kw2 1 = look (heap w) r2).
  { destruct K2 as [->|[r2 [-> Hr2]]]; eexists; repeat split; eassumption. }
  destruct R2 as [r2 [E2 [Hr2 Q2]]]. rewrite E2 in H.
  replace (dict_for (heap w) (VDict r) kw2 0) with (look (heap w) r) by (destruct kw2; reflexivity). rewrite Q2.
  refine (pair_ok _ _ w w' u d1 d2 low high lo hi b (fun h => options_in h (look h r) "radial_pspec_kwargs") (fun h => options_in h (look h r2) "radial_pspec_kwargs") Hl' _ _ H);
    apply pspec_one_pair; try assumption; lia.
Qed.
