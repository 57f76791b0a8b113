(** Proofs about Moments objects through histories of calls *)
From Coq Require Import String Reals List Bool Arith Lra Lia.
From Verif Require Import Lib.PyBase Model.MomentsObj Spec.MomentsObj.
Import ListNotations.
Local Open Scope string_scope.

Section Object.
Variables (C K A : Type) (with_mask : C -> K -> result C).
Variables (mom0 mom1 : C -> nat -> string -> result A) (lws : C -> string -> result A) (zeros : A -> A).
Variable err0 : C -> R -> string -> nat -> result A.
Variable err1 : C -> R -> string -> nat -> A -> A -> result A.
Variable errl : C -> R -> string -> A -> A -> A -> result A.
Let step := step C K A with_mask mom0 mom1 lws zeros err0 err1 errl.
Let after := after C K A with_mask mom0 mom1 lws zeros err0 err1 errl.
Let new := new C A.
Let all_moments := all_moments C A.
Let all_moment_errs := all_moment_errs C A.
Let to_dict := to_dict C A.

Lemma after_app : forall o h1 h2, after o (h1 ++ h2) = after (after o h1) h2.
Proof. intros o h1 h2. apply fold_left_app. Qed.

(** What a step does to the cube, the method and the level *)
Lemma step_cube : forall o k, o_cube _ _ (fst (step o k)) = match k with ApplyMask _ m => match with_mask (o_cube _ _ o) m with Ok c' => c' | Err _ => o_cube _ _ o end | _ => o_cube _ _ o end.
Proof.
  intros o [m|s|a u|a s]; cbn; unfold apply_mask, set_scale, make_moments, make_moment_errors, centred, bind.
  - destruct (with_mask _ m); reflexivity.
  - reflexivity.
  - destruct (mom0 _ _ _); [|reflexivity]. cbn. destruct (mom1 _ _ _); [|reflexivity]. cbn. destruct (lws _ _); [|reflexivity]. destruct u; reflexivity.
  - destruct (o_m0 _ _ o); [|reflexivity]. destruct (o_scale _ _ o).
    + destruct (err0 _ _ _ _); [|reflexivity]. cbn. destruct (o_m1 _ _ o) as [[m1 w]|]; [|reflexivity]. cbn. destruct w; try reflexivity.
      destruct (err1 _ _ _ _ _ _); [|reflexivity]. cbn.
      destruct (errl _ _ _ _ _ _); reflexivity.
    + destruct s; [reflexivity|]. cbn. destruct (got (o_m1 _ _ o)); [|reflexivity]. cbn. destruct (got (o_lw _ _ o)); reflexivity.
Qed.
Lemma step_how : forall o k, o_how _ _ (fst (step o k)) = o_how _ _ o.
Proof.
  intros o [m|s|a u|a s]; cbn; unfold apply_mask, set_scale, make_moments, make_moment_errors, centred, bind.
  - destruct (with_mask _ m); reflexivity.
  - reflexivity.
  - destruct (mom0 _ _ _); [|reflexivity]. cbn. destruct (mom1 _ _ _); [|reflexivity]. cbn. destruct (lws _ _); [|reflexivity]. destruct u; reflexivity.
  - destruct (o_m0 _ _ o); [|reflexivity]. destruct (o_scale _ _ o).
    + destruct (err0 _ _ _ _); [|reflexivity]. cbn. destruct (o_m1 _ _ o) as [[m1 w]|]; [|reflexivity]. cbn. destruct w; try reflexivity.
      destruct (err1 _ _ _ _ _ _); [|reflexivity]. cbn.
      destruct (errl _ _ _ _ _ _); reflexivity.
    + destruct s; [reflexivity|]. cbn. destruct (got (o_m1 _ _ o)); [|reflexivity]. cbn. destruct (got (o_lw _ _ o)); reflexivity.
Qed.
Lemma step_scale : forall o k, o_scale _ _ (fst (step o k)) = match k with SetScale _ s => s | _ => o_scale _ _ o end.
Proof.
  intros o [m|s|a u|a s]; cbn; unfold apply_mask, set_scale, make_moments, make_moment_errors, centred, bind.
  - destruct (with_mask _ m); reflexivity.
  - reflexivity.
  - destruct (mom0 _ _ _); [|reflexivity]. cbn. destruct (mom1 _ _ _); [|reflexivity]. cbn. destruct (lws _ _); [|reflexivity]. destruct u; reflexivity.
  - destruct (o_m0 _ _ o); [|reflexivity]. destruct (o_scale _ _ o) eqn:Q.
    + destruct (err0 _ _ _ _); [|exact Q]. cbn. destruct (o_m1 _ _ o) as [[m1 w]|]; [|exact Q]. cbn. destruct w; try exact Q.
      destruct (err1 _ _ _ _ _ _); [|exact Q]. cbn.
      destruct (errl _ _ _ _ _ _); exact Q.
    + destruct s; [exact Q|]. cbn. destruct (got (o_m1 _ _ o)); [|exact Q]. cbn. destruct (got (o_lw _ _ o)); exact Q.
Qed.
(** Only make_moments touches the maps, only make_moment_errors the errors *)
Lemma step_maps : forall o k, makes k = false -> o_m0 _ _ (fst (step o k)) = o_m0 _ _ o /\ o_m1 _ _ (fst (step o k)) = o_m1 _ _ o /\ o_lw _ _ (fst (step o k)) = o_lw _ _ o.
Proof.
  intros o [m|s|a u|a s] M; try discriminate M; cbn; unfold apply_mask, set_scale, make_moment_errors, centred, bind.
  - destruct (with_mask _ m); repeat split.
  - repeat split.
  - destruct (o_m0 _ _ o) eqn:Q0; [|(repeat split; try exact Q0)]. destruct (o_scale _ _ o).
    + destruct (err0 _ _ _ _); [|(repeat split; try exact Q0)]. cbn [put_e0 o_m1]. destruct (got (o_m1 _ _ o)) as [[m1 w]|]; [|(repeat split; try exact Q0)].
      destruct (match snd (m1, w) with Spectral => _ | _ => _ end); [|(repeat split; try exact Q0)]. cbn [put_e1 put_e0 o_m1]. destruct (got (o_m1 _ _ o)) as [[m2 w']|]; [|(repeat split; try exact Q0)].
      destruct (match snd (m2, w') with Spectral => _ | _ => _ end); (repeat split; try exact Q0).
    + destruct s; [(repeat split; try exact Q0)|]. cbn. destruct (got (o_m1 _ _ o)); [|(repeat split; try exact Q0)]. cbn.
      destruct (got (o_lw _ _ o)); (repeat split; try exact Q0).
Qed.
Lemma step_errs : forall o k, makes_errors k = false -> o_e0 _ _ (fst (step o k)) = o_e0 _ _ o /\ o_e1 _ _ (fst (step o k)) = o_e1 _ _ o /\ o_el _ _ (fst (step o k)) = o_el _ _ o.
Proof.
  intros o [m|s|a u|a s] M; try discriminate M; cbn; unfold apply_mask, set_scale, make_moments.
  - destruct (with_mask _ m); repeat split.
  - repeat split.
  - destruct (mom0 _ _ _); [|repeat split]. cbn. destruct (mom1 _ _ _); [|repeat split]. cbn. destruct (lws _ _); [|repeat split]. destruct u; repeat split.
Qed.

Lemma after_cube : forall h o, o_cube _ _ (after o h) = masked with_mask (o_cube _ _ o) h.
Proof. induction h as [|k h IH]; intro o; [reflexivity|]. change (after o (k :: h)) with (after (fst (step o k)) h). rewrite IH, step_cube. unfold masked. cbn. destruct k; reflexivity. Qed.
Lemma after_scale : forall h o, o_scale _ _ (after o h) = level (o_scale _ _ o) h.
Proof. induction h as [|k h IH]; intro o; [reflexivity|]. change (after o (k :: h)) with (after (fst (step o k)) h). rewrite IH, step_scale. unfold level. cbn. destruct k; reflexivity. Qed.
Lemma after_how : forall h o, o_how _ _ (after o h) = o_how _ _ o.
Proof. induction h as [|k h IH]; intro o; [reflexivity|]. change (after o (k :: h)) with (after (fst (step o k)) h). rewrite IH, step_how. reflexivity. Qed.
Lemma after_maps : forall h o, forallb (fun k => negb (makes k)) h = true ->
  o_m0 _ _ (after o h) = o_m0 _ _ o /\ o_m1 _ _ (after o h) = o_m1 _ _ o /\ o_lw _ _ (after o h) = o_lw _ _ o.
Proof.
  induction h as [|k h IH]; intros o F; [repeat split|]. cbn in F. apply andb_prop in F as [F1 F2]. apply negb_true_iff in F1.
  change (after o (k :: h)) with (after (fst (step o k)) h). destruct (IH (fst (step o k)) F2) as (a & b & c), (step_maps o k F1) as (a' & b' & c').
  rewrite a, b, c. auto.
Qed.
Lemma after_errs : forall h o, forallb (fun k => negb (makes_errors k)) h = true ->
  o_e0 _ _ (after o h) = o_e0 _ _ o /\ o_e1 _ _ (after o h) = o_e1 _ _ o /\ o_el _ _ (after o h) = o_el _ _ o.
Proof.
  induction h as [|k h IH]; intros o F; [repeat split|]. cbn in F. apply andb_prop in F as [F1 F2]. apply negb_true_iff in F1.
  change (after o (k :: h)) with (after (fst (step o k)) h). destruct (IH (fst (step o k)) F2) as (a & b & c), (step_errs o k F1) as (a' & b' & c').
  rewrite a, b, c. auto.
Qed.

(** make_moments that returns *)
Lemma make_ok : forall o a, snd (step o (Make K a true)) = None -> exists m0 m1 l,
  mom0 (o_cube _ _ o) a (o_how _ _ o) = Ok m0 /\ mom1 (o_cube _ _ o) a (o_how _ _ o) = Ok m1 /\ lws (o_cube _ _ o) (o_how _ _ o) = Ok l /\
  fst (step o (Make K a true)) = mk_obj C A (o_cube _ _ o) (o_how _ _ o) (o_scale _ _ o) (Some (m0, axis_units a)) (Some (m1, axis_units a)) (Some (l, Spectral)) (o_e0 _ _ o) (o_e1 _ _ o) (o_el _ _ o).
Proof.
  intros o a. cbn. unfold make_moments. destruct (mom0 _ _ _) as [m0|]; [|discriminate]. cbn. destruct (mom1 _ _ _) as [m1|]; [|discriminate]. cbn.
  destruct (lws _ _) as [l|]; [|discriminate]. intros _. exists m0, m1, l. repeat split.
Qed.
Lemma make_snd : forall o f a, o_cube _ _ o = o_cube _ _ f -> o_how _ _ o = o_how _ _ f -> snd (step o (Make K a true)) = snd (step f (Make K a true)).
Proof.
  intros o f a E1 E2. cbn. unfold make_moments. cbn. rewrite E1, E2. destruct (mom0 _ _ _); [|reflexivity]. cbn.
  destruct (mom1 _ _ _); [|reflexivity]. cbn. destruct (lws _ _); reflexivity.
Qed.

Theorem maps_last : forall c0 how s0 h1 a h2, forallb (fun k => negb (makes k)) h2 = true ->
  snd (step (after (new c0 how s0) h1) (Make K a true)) = None -> exists m0 m1 l,
  mom0 (masked with_mask c0 h1) a how = Ok m0 /\ mom1 (masked with_mask c0 h1) a how = Ok m1 /\ lws (masked with_mask c0 h1) how = Ok l /\
  all_moments (after (new c0 how s0) (h1 ++ Make K a true :: h2)) = Ok [m0; m1; l].
Proof.
  intros c0 how s0 h1 a h2 F M. destruct (make_ok _ _ M) as (m0 & m1 & l & Q0 & Q1 & Ql & E).
  rewrite after_cube, after_how in Q0, Q1, Ql. exists m0, m1, l. split; [exact Q0|]. split; [exact Q1|]. split; [exact Ql|].
  rewrite after_app. change (after (after (new c0 how s0) h1) (Make K a true :: h2)) with (after (fst (step (after (new c0 how s0) h1) (Make K a true))) h2).
  rewrite E. match goal with |- all_moments (after ?o h2) = _ => destruct (after_maps h2 o F) as (a0 & b0 & l0) end.
  unfold all_moments, MomentsObj.all_moments. rewrite a0, b0, l0. reflexivity.
Qed.

(** make_moment_errors with a level of the object *)
Lemma errors_ok : forall o a g s, o_scale _ _ o = Some s -> snd (step o (Errors K a g)) = None -> exists m0 w m1 e0 e1 el,
  o_m0 _ _ o = Some (m0, w) /\ o_m1 _ _ o = Some (m1, Spectral) /\ err0 (o_cube _ _ o) s (o_how _ _ o) a = Ok e0 /\
  err1 (o_cube _ _ o) s (o_how _ _ o) a m0 m1 = Ok e1 /\ errl (o_cube _ _ o) s (o_how _ _ o) m0 m1 e1 = Ok el /\
  fst (step o (Errors K a g)) = mk_obj C A (o_cube _ _ o) (o_how _ _ o) (o_scale _ _ o) (o_m0 _ _ o) (o_m1 _ _ o) (o_lw _ _ o) (Some e0) (Some e1) (Some el).
Proof.
  intros [c how sc q0 q1 ql x0 x1 xl] a g s E. cbn in E. subst sc. cbn. unfold make_moment_errors, centred, bind. cbn.
  destruct q0 as [[m0 w]|]; [|discriminate].
  destruct (err0 _ _ _ _) as [e0|] eqn:E0; [|discriminate]. cbn. destruct q1 as [[m1 w1]|]; [|discriminate]. cbn. destruct w1; try discriminate.
  destruct (err1 _ _ _ _ _ _) as [e1|] eqn:E1; [|discriminate]. cbn. destruct (errl _ _ _ _ _ _) as [el|] eqn:El; [|discriminate].
  intros _. exists m0, w, m1, e0, e1, el. repeat split; assumption.
Qed.

Theorem errors_last : forall c0 how s0 h1 a g h2 s, forallb (fun k => negb (makes_errors k)) h2 = true -> level s0 h1 = Some s ->
  snd (step (after (new c0 how s0) h1) (Errors K a g)) = None -> exists m0 m1 e0 e1 el,
  (exists w w', o_m0 _ _ (after (new c0 how s0) h1) = Some (m0, w) /\ o_m1 _ _ (after (new c0 how s0) h1) = Some (m1, w')) /\
  err0 (masked with_mask c0 h1) s how a = Ok e0 /\ err1 (masked with_mask c0 h1) s how a m0 m1 = Ok e1 /\
  errl (masked with_mask c0 h1) s how m0 m1 e1 = Ok el /\
  all_moment_errs (after (new c0 how s0) (h1 ++ Errors K a g :: h2)) = Ok [e0; e1; el].
Proof.
  intros c0 how s0 h1 a g h2 s F L M. assert (Q : o_scale _ _ (after (new c0 how s0) h1) = Some s) by (rewrite after_scale; exact L).
  destruct (errors_ok _ _ _ _ Q M) as (m0 & w & m1 & e0 & e1 & el & Q0 & Q1 & E0 & E1 & El & E).
  rewrite after_cube, after_how in E0, E1, El. exists m0, m1, e0, e1, el. split; [exists w, Spectral; split; assumption|].
  split; [exact E0|]. split; [exact E1|]. split; [exact El|].
  rewrite after_app. change (after (after (new c0 how s0) h1) (Errors K a g :: h2)) with (after (fst (step (after (new c0 how s0) h1) (Errors K a g))) h2).
  rewrite E. match goal with |- all_moment_errs (after ?o h2) = _ => destruct (after_errs h2 o F) as (a0 & b0 & l0) end.
  unfold all_moment_errs, MomentsObj.all_moment_errs. rewrite a0, b0, l0. reflexivity.
Qed.

(** Two objects that differ in their errors only *)
Lemma errors_same : forall c how s m0 m1 l x0 x1 xl y0 y1 yl a g, s <> None \/ g = None ->
  let o := mk_obj C A c how s (Some m0) (Some m1) (Some l) x0 x1 xl in let f := mk_obj C A c how s (Some m0) (Some m1) (Some l) y0 y1 yl in
  snd (step o (Errors K a g)) = snd (step f (Errors K a g)) /\ (snd (step f (Errors K a g)) = None -> fst (step o (Errors K a g)) = fst (step f (Errors K a g))).
Proof.
  intros c how s m0 m1 l x0 x1 xl y0 y1 yl a g G. cbn. unfold make_moment_errors, put_e0, put_e1, put_el, centred, bind. cbn.
  destruct s as [s|].
  - destruct (err0 _ _ _ _); [|split; [reflexivity|discriminate]]. cbn. destruct (snd m1); try (split; [reflexivity|discriminate]).
    destruct (err1 _ _ _ _ _ _); [|split; [reflexivity|discriminate]]. cbn. destruct (errl _ _ _ _ _ _); [|split; [reflexivity|discriminate]].
    split; reflexivity.
  - destruct G as [G| ->]; [congruence|]. cbn. split; reflexivity.
Qed.

Theorem fresh : forall c0 how s0 h a g, level s0 h <> None \/ g = None ->
  let o := after (new c0 how s0) h in let f := new (masked with_mask c0 h) how (level s0 h) in
  let o1 := step o (Make K a true) in let f1 := step f (Make K a true) in
  let o2 := step (fst o1) (Errors K a g) in let f2 := step (fst f1) (Errors K a g) in
  snd o1 = snd f1 /\ (snd f1 = None -> all_moments (fst o1) = all_moments (fst f1) /\ snd o2 = snd f2 /\
    (snd f2 = None -> all_moments (fst o2) = all_moments (fst f2) /\ all_moment_errs (fst o2) = all_moment_errs (fst f2) /\ to_dict (fst o2) = to_dict (fst f2))).
Proof.
  intros c0 how s0 h a g G o f o1 f1 o2 f2.
  assert (Ec : o_cube _ _ o = o_cube _ _ f) by (unfold o; rewrite after_cube; reflexivity).
  assert (Eh : o_how _ _ o = o_how _ _ f) by (unfold o; rewrite after_how; reflexivity).
  assert (Es : o_scale _ _ o = o_scale _ _ f) by (unfold o; rewrite after_scale; reflexivity).
  assert (S1 : snd o1 = snd f1) by (apply make_snd; assumption). split; [exact S1|]. intro N.
  destruct (make_ok f a N) as (m0 & m1 & l & Q0 & Q1 & Ql & E).
  assert (No : snd (step o (Make K a true)) = None) by (unfold o1 in S1; rewrite S1; exact N).
  destruct (make_ok o a No) as (n0 & n1 & k & R0 & R1 & Rl & E').
  rewrite Ec, Eh in R0, R1, Rl. rewrite Q0 in R0. rewrite Q1 in R1. rewrite Ql in Rl. injection R0 as <-. injection R1 as <-. injection Rl as <-.
  fold f1 in E. fold o1 in E'. rewrite Ec, Eh, Es in E'.
  split; [rewrite E, E'; reflexivity|]. unfold o2, f2. rewrite E, E'.
  match goal with |- snd (step (mk_obj C A ?c ?hw ?s (Some ?a0) (Some ?a1) (Some ?a2) ?x0 ?x1 ?xl) _) = snd (step (mk_obj C A _ _ _ _ _ _ ?y0 ?y1 ?yl) _) /\ _ =>
    destruct (errors_same c hw s a0 a1 a2 x0 x1 xl y0 y1 yl a g G) as [A1 A2] end.
  split; [exact A1|]. intro N2. rewrite (A2 N2). repeat split.
Qed.

(** A mask after the maps *)
Theorem mask_between : forall c how s k c' m0 m1 l, with_mask c k = Ok c' -> mom0 c 0 how = Ok m0 -> mom1 c 0 how = Ok m1 -> lws c how = Ok l ->
  forall e0 e1 el, err0 c' s how 0 = Ok e0 -> err1 c' s how 0 m0 m1 = Ok e1 -> errl c' s how m0 m1 e1 = Ok el ->
  to_dict (after (new c how (Some s)) [Make K 0 true; ApplyMask K k; Errors K 0 None]) = Ok (c', [(m0, e0); (m1, e1); (l, el)]).
Proof.
  intros c how s k c' m0 m1 l M Q0 Q1 Ql e0 e1 el E0 E1 El. unfold to_dict, MomentsObj.to_dict, after, MomentsObj.after. cbn.
  unfold make_moments. cbn. rewrite Q0. cbn. rewrite Q1. cbn. rewrite Ql. cbn. unfold apply_mask. cbn. rewrite M. cbn.
  unfold make_moment_errors. cbn. rewrite E0. cbn. rewrite E1. cbn. rewrite El. reflexivity.
Qed.

(** Maps along an axis of the sky *)
Theorem sky_axis : forall c0 how s0 h a g s, level s0 h = Some s ->
  snd (step (after (new c0 how s0) h) (Make K (S a) true)) = None ->
  let o := after (new c0 how s0) (h ++ [Make K (S a) true]) in let o' := fst (step o (Errors K (S a) g)) in
  (forall e0, err0 (masked with_mask c0 h) s how (S a) = Ok e0 ->
     snd (step o (Errors K (S a) g)) = Some UnitConversionError /\ o_e0 _ _ o' = Some e0 /\
     o_e1 _ _ o' = o_e1 _ _ (after (new c0 how s0) h) /\ o_el _ _ o' = o_el _ _ (after (new c0 how s0) h)) /\
  (forall e, err0 (masked with_mask c0 h) s how (S a) = Err e -> snd (step o (Errors K (S a) g)) = Some e /\ o' = o).
Proof.
  intros c0 how s0 h a g s L N o o'. destruct (make_ok _ _ N) as (m0 & m1 & l & Q0 & Q1 & Ql & E).
  assert (Eo : o = fst (step (after (new c0 how s0) h) (Make K (S a) true))) by (unfold o; rewrite after_app; reflexivity).
  rewrite E in Eo. rewrite after_cube, after_how, after_scale in Eo. cbn [new MomentsObj.new o_cube o_how o_scale] in Eo.
  change (o_scale C A (new c0 how s0)) with s0 in Eo. change (o_cube C A (new c0 how s0)) with c0 in Eo. change (o_how C A (new c0 how s0)) with how in Eo.
  rewrite L in Eo. unfold o'. rewrite Eo. cbn. unfold make_moment_errors. cbn.
  split; [intros e0 E0|intros e E0]; rewrite E0; cbn; repeat split.
Qed.

(** What a call that raises leaves *)
Theorem raised_partial : forall o k, snd (step o k) <> None ->
  o_cube _ _ (fst (step o k)) = o_cube _ _ o /\ o_scale _ _ (fst (step o k)) = o_scale _ _ o /\ o_how _ _ (fst (step o k)) = o_how _ _ o /\
  (makes k = false -> all_moments (fst (step o k)) = all_moments o) /\ (makes_errors k = false -> all_moment_errs (fst (step o k)) = all_moment_errs o).
Proof.
  intros o k N. split; [|split; [|split; [|split]]].
  - rewrite step_cube. destruct k as [m|s|a u|a s]; try reflexivity. cbn in N. unfold apply_mask in N. destruct (with_mask _ m); [|reflexivity]. exfalso; apply N; reflexivity.
  - rewrite step_scale. destruct k as [m|s|a u|a s]; try reflexivity. exfalso; apply N; reflexivity.
  - apply step_how.
  - intro M. destruct (step_maps o k M) as (x & y & z). unfold all_moments, MomentsObj.all_moments. rewrite x, y, z. reflexivity.
  - intro M. destruct (step_errs o k M) as (x & y & z). unfold all_moment_errs, MomentsObj.all_moment_errs. rewrite x, y, z. reflexivity.
Qed.
End Object.
