(** Proofs about the moves of the break and about when it is kept. *)
From Coq Require Import Reals List Arith Lia Lra Bool.
From Verif Require Import Lib.PyBase Lib.RSum Lib.Fl Spec.Blank Spec.Segmented Model.LmSeg Proofs.LmSeg_Proofs.
Import ListNotations.
Local Open Scope R_scope.

Section Step.
Variables (x : list R) (b0 g b : R).
Hypothesis B : b <> 0.

Lemma term_fin st : fdiv (fmul (Fin st) (Fin g)) (Fin b) = Fin (st * g / b).
Proof. cbn. destruct (Reqb_spec b 0); [contradiction|reflexivity]. Qed.

Lemma halve_spec : forall todo st k r st' h,
  halve x (Fin g) (Fin b) (Fin (st / 2 ^ k)) (Fin (moved_break b0 st b g k)) todo k = (r, st', h) ->
  (k <= h <= k + todo)%nat /\ (forall j, (k < j < h)%nat -> ~ splits (moved_break b0 st b g j) x) /\ st' = Fin (st / 2 ^ h) /\
  ((k < h)%nat /\ r = Some (moved_break b0 st b g h) /\ splits (moved_break b0 st b g h) x \/
   r = None /\ h = (k + todo)%nat /\ ((k < h)%nat -> ~ splits (moved_break b0 st b g h) x)).
Proof.
  induction todo as [|todo IH]; intros st k r st' h; cbn [halve].
  - intros E. assert (r = None /\ st' = Fin (st / 2 ^ k) /\ h = k) as (->&->&->) by (repeat split; congruence).
    split; [lia|]. split; [intros; lia|]. split; [reflexivity|]. right. split; [reflexivity|]. split; [lia|]. intros; lia.
  - rewrite term_fin. assert (E2 : fdiv (Fin (st / 2 ^ k)) (Fin 2) = Fin (st / 2 ^ S k)).
    { cbn. destruct (Reqb_spec 2 0); [lra|]. f_equal. field. apply pow_nonzero; lra. }
    rewrite E2, term_fin. unfold fsub. cbn [fneg fadd].
    match goal with |- context [usable x (Fin ?v)] => replace v with (moved_break b0 st b g (S k))
      by (unfold moved_break; cbn [pow]; field; split; [apply pow_nonzero; lra|exact B]) end.
    destruct (usable x _) eqn:U.
    + intros E. assert (r = Some (moved_break b0 st b g (S k)) /\ st' = Fin (st / 2 ^ S k) /\ h = S k) as (->&->&->) by (repeat split; congruence).
      destruct (usable_fin _ _ U) as [w [W Sp]]. injection W as <-.
      split; [lia|]. split; [intros; lia|]. split; [reflexivity|]. left. split; [lia|]. auto.
    + assert (N : ~ splits (moved_break b0 st b g (S k)) x) by (intros Sp; apply splits_usable in Sp; congruence).
      intros E. destruct (IH _ _ _ _ _ E) as (A&C&D&F). split; [lia|]. split.
      { intros j Hj. destruct (Nat.eq_dec j (S k)) as [->|]; [exact N|apply C; lia]. }
      split; [exact D|]. destruct F as [(F1&F2&F3)|(F1&F2&F3)]; [left; split; [lia|auto]|right].
      split; [exact F1|]. split; [lia|]. intros _. destruct (Nat.eq_dec h (S k)) as [->|]; [exact N|apply F3; lia].
Qed.
End Step.

(** One turn of the search. *)
Lemma step_moves s solver constant n c c' stop h st beta gamma :
  search_step s solver constant n c = Ok (c', stop, h) -> c_step c = Fin st ->
  (forall f, c_fit c' = Some f -> nth_error (f_params f) 2 = Some (Fin beta) /\ nth_error (f_params f) 3 = Some (Fin gamma)) -> beta <> 0 ->
  let to := moved_break (c_brk c) st beta gamma in
  c_step c' = Fin (st / 2 ^ h) /\ (forall j, (j < h)%nat -> ~ splits (to j) (seg_x s)) /\
  (splits (to h) (seg_x s) /\ c_brk c' = to h /\ c_fail c' = c_fail c \/
   h = 5%nat /\ ~ splits (to h) (seg_x s) /\ c_brk c' = c_brk c /\ c_fail c' = true).
Proof.
  intros H Est P B to. unfold search_step in H. apply bind_ok in H. destruct H as [f [Hf H]]. apply bind_ok in H. destruct H as [be [Hb H]]. apply bind_ok in H. destruct H as [ga [Hg H]].
  rewrite Est in H.
  assert (Fit : c_fit c' = Some f). { destruct (if usable _ _ then _ else _) as [[found sx] hh]. destruct found; injection H as <- _ _; reflexivity. }
  destruct (P f Fit) as [P2 P3]. unfold index in Hb, Hg. rewrite P2 in Hb. rewrite P3 in Hg.
  assert (be = Fin beta) by congruence. assert (ga = Fin gamma) by congruence. subst be ga. clear Hb Hg P2 P3.
  rewrite term_fin in H by exact B. cbn [fadd] in H.
  assert (T0 : to 0%nat = c_brk c + st * gamma / beta) by (unfold to, moved_break; cbn [pow]; field; exact B).
  rewrite <- T0 in H. destruct (usable (seg_x s) (Fin (to 0%nat))) eqn:U.
  - injection H as <- _ <-. cbn. destruct (usable_fin _ _ U) as [w [W Sp]]. injection W as <-.
    split; [f_equal; field|]. split; [intros; lia|]. left. auto.
  - destruct (halve (seg_x s) (Fin gamma) (Fin beta) (Fin st) (Fin (to 0%nat)) 5 0) as [[found sx] hh] eqn:E.
    replace st with (st / 2 ^ 0) in E at 1 by (cbn [pow]; field).
    destruct (halve_spec (seg_x s) (c_brk c) gamma beta B 5 st 0 found sx hh E) as (A&C&D&F).
    assert (N : ~ splits (to 0%nat) (seg_x s)) by (intros Sp; apply splits_usable in Sp; congruence).
    assert (C' : forall j, (j < hh)%nat -> ~ splits (to j) (seg_x s)). { intros [|j] Hj; [exact N|]. apply C. lia. }
    destruct F as [(F1&->&F3)|(->&F2&F3)]; injection H as <- _ <-; cbn [c_step c_brk c_fail].
    + split; [exact D|]. split; [exact C'|]. left. auto.
    + split; [exact D|]. split; [exact C'|]. right. split; [lia|]. split; [apply F3; lia|]. auto.
Qed.

Lemma halve_step_fin x g b : forall todo st nb k r st' h, halve x g b (Fin st) nb todo k = (r, st', h) -> exists m, st' = Fin (st / 2 ^ m).
Proof.
  induction todo as [|todo IH]; intros st nb k r st' h; cbn [halve].
  - intros E. exists 0%nat. replace (st / 2 ^ 0) with st by (cbn [pow]; field). congruence.
  - assert (E2 : fdiv (Fin st) (Fin 2) = Fin (st / 2)) by (cbn; destruct (Reqb_spec 2 0); [lra|reflexivity]). rewrite E2.
    destruct (usable x _).
    + intros E. exists 1%nat. replace (st / 2 ^ 1) with (st / 2) by (cbn [pow]; field). congruence.
    + intros E. destruct (IH _ _ _ _ _ _ E) as [m ->]. exists (S m). f_equal. cbn [pow]. field. apply pow_nonzero; lra.
Qed.
Lemma step_step_fin s solver constant n c c' stop h st : search_step s solver constant n c = Ok (c', stop, h) -> c_step c = Fin st ->
  exists m, c_step c' = Fin (st / 2 ^ m).
Proof.
  unfold search_step. intros H Est. apply bind_ok in H. destruct H as [f [Hf H]]. apply bind_ok in H. destruct H as [be [Hb H]]. apply bind_ok in H. destruct H as [ga [Hg H]].
  rewrite Est in H. destruct (usable (seg_x s) _).
  - exists 0%nat. replace (st / 2 ^ 0) with st by (cbn [pow]; field). destruct (fadd _ _); injection H as <- _ _; reflexivity.
  - destruct (halve _ _ _ _ _ _ _) as [[found sx] hh] eqn:E. destruct (halve_step_fin _ _ _ _ _ _ _ _ _ _ E) as [m ->]. exists m.
    destruct found; injection H as <- _ _; reflexivity.
Qed.

(** The last turn of the search. *)
Lemma loop_last s solver constant n tol : forall fuel c c' st, search_loop s solver constant n tol fuel c = Some (Ok c') -> continues tol c = true ->
  c_fail c = false -> c_step c = Fin st ->
  exists l stop h k, search_step s solver constant n l = Ok (c', stop, h) /\ c_fail l = false /\ c_step l = Fin (st / 2 ^ k) /\ (c_brk l = c_brk c \/ splits (c_brk l) (seg_x s)).
Proof.
  induction fuel as [|fuel IH]; intros c c' st; cbn [search_loop]; intros H C NF Est; rewrite C in H; [discriminate|].
  destruct (search_step s solver constant n c) as [[[c1 stop] h]|e] eqn:E; [|discriminate].
  assert (HERE : c1 = c' -> exists l stop h k, search_step s solver constant n l = Ok (c', stop, h) /\ c_fail l = false /\ c_step l = Fin (st / 2 ^ k) /\ (c_brk l = c_brk c \/ splits (c_brk l) (seg_x s))).
  { intros <-. exists c, stop, h, 0%nat. rewrite E, NF, Est. split; [reflexivity|]. split; [reflexivity|]. split; [f_equal; cbn [pow]; field|]. now left. }
  destruct stop; [apply HERE; congruence|].
  destruct (step_spec _ _ _ _ _ _ _ _ E) as (_&_&_&S2). destruct S2 as [(_&F1&Sp)|(K&_)]; [|discriminate].
  destruct (step_step_fin _ _ _ _ _ _ _ _ _ E Est) as [m Em].
  destruct (continues tol c1) eqn:C1.
  - destruct (IH c1 c' (st / 2 ^ m) H C1 ltac:(congruence) Em) as (l&stop&h'&k&A&B&D&F). exists l, stop, h', (m + k)%nat.
    split; [exact A|]. split; [exact B|]. split; [rewrite D; f_equal; rewrite pow_add; field; split; apply pow_nonzero; lra|].
    right. destruct F as [->|F]; assumption.
  - apply HERE. destruct fuel; cbn [search_loop] in H; rewrite C1 in H; congruence.
Qed.

(** When the break is kept. *)
Lemma kept_iff s solver n tol h e0 fuel g : 0 <= tol < e0 -> fit_model s solver true n tol h e0 fuel = Some (Ok g) ->
  exists b, (b = seg_brk s \/ splits b (seg_x s)) /\
  let line := solver (add_constant [seg_x s]) in let broken := solver (add_constant (columns (seg_x s) b)) in
  (g_fail g = false -> forall v w, rss line = Fin v -> rss broken = Fin w -> w < v) /\
  (g_fail g = true -> forall v w, rss line = Fin v -> rss broken = Fin w ->
     v <= w \/ exists k, forall beta gamma, nth_error (f_params broken) 2 = Some (Fin beta) -> nth_error (f_params broken) 3 = Some (Fin gamma) -> beta <> 0 ->
       forall j, (j <= 5)%nat -> ~ splits (moved_break b (h / 2 ^ k) beta gamma j) (seg_x s)).
Proof.
  intros Ht. unfold fit_model. destruct (lm_fit s solver _) as [init|e] eqn:L; [|discriminate]. destruct (Rltb_spec e0 tol); [lra|].
  destruct (search_loop s solver true n tol fuel _) as [[c|e]|] eqn:SL; [|discriminate|discriminate]. intros F. injection F as F.
  destruct (loop_last _ _ _ _ _ _ _ _ h SL) as (l&stop&hh&k&A&B&D&E).
  { unfold continues. cbn [c_eps fabs fltb]. destruct (Rltb_spec tol (Rabs e0)) as [|N]; [reflexivity|]. rewrite Rabs_pos_eq in N by lra. lra. }
  { reflexivity. }
  { reflexivity. }
  cbn [c_brk] in E. exists (c_brk l). split; [exact E|]. cbv zeta.
  apply lm_fit_solver in L. cbv iota in L. subst init.
  destruct (step_spec _ _ _ _ _ _ _ _ A) as (_&_&(f&Hf&Hl&_)&_). apply lm_fit_solver in Hl. cbv iota in Hl. subst f.
  set (line := solver (add_constant [seg_x s])) in *. set (broken := solver (add_constant (columns (seg_x s) (c_brk l)))) in *.
  unfold finish in F. rewrite Hf in F. fold (rss line) (rss broken) in F.
  destruct (c_fail c) eqn:FA.
  - cbn [bind] in F. destruct (lm_fit s solver _); cbn [bind] in F; [|discriminate]. injection F as <-. cbn [g_fail]. split; [discriminate|].
    intros _ v w _ _. right. exists k. intros beta gamma Pb Pg Nb.
    destruct (step_moves _ _ _ _ _ _ _ _ _ beta gamma A D) as (M1&M2&M3).
    { intros f Ef. rewrite Hf in Ef. injection Ef as <-. auto. }
    { exact Nb. }
    destruct M3 as [(_&_&M3)|(M3&M4&_)]; [congruence|]. subst hh. intros j Hj. destruct (Nat.eq_dec j 5) as [->|]; [exact M4|apply M2; lia].
  - destruct (fleb (rss line) (rss broken)) eqn:LE; cbn [bind] in F.
    + destruct (lm_fit s solver _); cbn [bind] in F; [|discriminate]. injection F as <-. cbn [g_fail]. split; [discriminate|].
      intros _ v w Ev Ew. rewrite Ev, Ew in LE. cbn in LE. left. destruct (Rleb_spec v w); [assumption|discriminate].
    + destruct (lm_fit s solver _) as [ft|]; cbn [bind] in F; [|discriminate]. destruct (brk_errs _ _); cbn [bind] in F; [|discriminate]. injection F as <-. cbn [g_fail].
      split; [|discriminate]. intros _ v w Ev Ew. rewrite Ev, Ew in LE. cbn in LE. destruct (Rleb_spec v w); [discriminate|lra].
Qed.
