(** Proofs about Model/LmSeg.v. *)
From Coq Require Import Reals List Arith Lia Lra Bool.
From Verif Require Import Lib.PyBase Lib.RSum Lib.Fl Spec.Blank Spec.Segmented Model.LmSeg.
Import ListNotations.
Local Open Scope R_scope.

(** *** The search stops *)
Lemma halve_count x g b : forall todo st nb h r st' k, halve x g b st nb todo h = (r, st', k) -> (k <= h + todo)%nat.
Proof.
  induction todo as [|todo IH]; intros st nb h r st' k; cbn [halve].
  - intros E. injection E as _ _ <-. lia.
  - destruct (usable _ _); intros E; [injection E as _ _ <-; lia|]. apply IH in E. lia.
Qed.

Lemma usable_fin x b : usable x b = true -> exists r, b = Fin r /\ splits r x.
Proof.
  unfold usable. rewrite Bool.andb_true_iff, Bool.negb_true_iff. intros [A B]. apply existsb_exists in A. destruct A as [v [Hv A]].
  assert (C : exists w, In w x /\ fltb b (Fin w) = false).
  { clear -B. induction x as [|w x IH]; cbn in B; [discriminate|]. destruct (fltb b (Fin w)) eqn:E.
    - destruct (IH B) as [u [Hu Eu]]. exists u. split; [now right|exact Eu].
    - exists w. split; [now left|exact E]. }
  destruct C as [w [Hw C]]. destruct b as [r| | |]; cbn in A, C; try discriminate.
  exists r. split; [reflexivity|]. destruct (Rltb_spec r v); [|discriminate]. destruct (Rltb_spec r w); [discriminate|].
  split; [exists w; split; [auto|lra]|eauto].
Qed.

Lemma splits_usable x r : splits r x -> usable x (Fin r) = true.
Proof.
  intros [[u [Hu U]] [v [Hv V]]]. unfold usable. apply Bool.andb_true_iff. split.
  - apply existsb_exists. exists v. split; auto. cbn. destruct (Rltb_spec r v); auto.
  - apply Bool.negb_true_iff. destruct (forallb _ x) eqn:E; auto. rewrite forallb_forall in E. specialize (E u Hu). cbn in E. destruct (Rltb_spec r u); [lra|discriminate].
Qed.

Lemma halve_found x g b : forall todo st nb h r st' k, halve x g b st nb todo h = (Some r, st', k) -> splits r x.
Proof.
  induction todo as [|todo IH]; intros st nb h r st' k; cbn [halve]; [discriminate|].
  destruct (usable x _) eqn:U.
  - destruct (usable_fin _ _ U) as [w [E S]]. rewrite E. intros F. injection F as <- _ _. exact S.
  - apply IH.
Qed.

Lemma bind_ok {A B} (r : result A) (k : A -> result B) v : bind r k = Ok v -> exists a, r = Ok a /\ k a = Ok v.
Proof. destruct r; cbn; [eauto|discriminate]. Qed.

(** Everything about one turn that went through. *)
Lemma step_spec s solver constant n c c' stop h : search_step s solver constant n c = Ok (c', stop, h) ->
  (h <= 5)%nat /\ stop = Nat.ltb n (c_it c') /\ (exists f, c_fit c' = Some f /\ lm_fit s solver (if constant then add_constant (columns (seg_x s) (c_brk c)) else columns (seg_x s) (c_brk c)) = Ok f /\ (4 <= length (f_params f))%nat) /\
  ((c_it c' = S (c_it c) /\ c_fail c' = c_fail c /\ splits (c_brk c') (seg_x s)) \/ (stop = true /\ c_fail c' = true /\ c_brk c' = c_brk c)).
Proof.
  unfold search_step. intros H. apply bind_ok in H. destruct H as [f [Hf H]]. apply bind_ok in H. destruct H as [beta [Hb H]]. apply bind_ok in H. destruct H as [gamma [Hg H]].
  assert (L : (4 <= length (f_params f))%nat).
  { unfold index in Hg. destruct (nth_error (f_params f) 3) eqn:E; [|discriminate]. assert (3 < length (f_params f))%nat; [|lia]. apply nth_error_Some. congruence. }
  set (nb := fadd (Fin (c_brk c)) (fdiv (fmul (c_step c) gamma) beta)) in *.
  destruct (if usable (seg_x s) nb then _ else _) as [[found step] halvings] eqn:F.
  assert (Hh : (halvings <= 5)%nat /\ forall r, found = Some r -> splits r (seg_x s)).
  { destruct (usable (seg_x s) nb) eqn:U.
    - injection F as <- <- <-. split; [lia|]. intros r E. destruct (usable_fin _ _ U) as [w [W S]]. rewrite W in E. injection E as <-. exact S.
    - split; [apply halve_count in F; lia|]. intros r ->. eapply halve_found; eauto. }
  destruct Hh as [Hh Hs]. destruct found as [r|]; injection H as <- <- <-; cbn.
  - split; [auto|]. split; [reflexivity|]. split; [eauto|]. left. split; [reflexivity|]. split; [reflexivity|]. now apply Hs.
  - split; [auto|]. split; [reflexivity|]. split; [eauto|]. right. split; [|split; reflexivity]. apply Nat.leb_le. lia.
Qed.

Lemma loop_stops s solver constant n tol : forall fuel c, (c_it c <= n)%nat -> (S n <= c_it c + fuel)%nat ->
  search_loop s solver constant n tol fuel c <> None.
Proof.
  induction fuel as [|fuel IH]; intros c Hc Hf; [lia|]. cbn [search_loop]. destruct (continues tol c); [|discriminate].
  destruct (search_step s solver constant n c) as [[[c' stop] h]|e] eqn:E; [|discriminate].
  destruct (step_spec _ _ _ _ _ _ _ _ E) as (_&S1&_&S2). destruct stop; [discriminate|]. symmetry in S1. apply Nat.ltb_ge in S1.
  destruct S2 as [(I&_)|(A&_)]; [|discriminate]. apply IH; [lia|]. rewrite I. lia.
Qed.

Lemma loop_more s solver constant n tol r : forall fuel c fuel', (fuel <= fuel')%nat ->
  search_loop s solver constant n tol fuel c = Some r -> search_loop s solver constant n tol fuel' c = Some r.
Proof.
  induction fuel as [|fuel IH]; intros c fuel' Hle; cbn [search_loop].
  - destruct (continues tol c) eqn:C; [discriminate|]. intros E. destruct fuel'; cbn [search_loop]; now rewrite C.
  - destruct fuel' as [|fuel']; [lia|]. cbn [search_loop]. destruct (continues tol c); [|auto].
    destruct (search_step s solver constant n c) as [[[c' stop] h]|e]; [|auto]. destruct stop; [auto|]. apply IH. lia.
Qed.

Lemma fit_model_stops s solver constant n tol h e0 : fit_model s solver constant n tol h e0 (S n) <> None /\
  forall fuel, (S n <= fuel)%nat -> fit_model s solver constant n tol h e0 fuel = fit_model s solver constant n tol h e0 (S n).
Proof.
  unfold fit_model. destruct (lm_fit s solver _) as [init|e]; [|split; [discriminate|auto]]. destruct (Rltb e0 tol); [split; [discriminate|auto]|].
  set (c0 := mk_search _ _ _ _ _ _ _). pose proof (loop_stops s solver constant n tol (S n) c0) as L. cbn [c_it c0] in L.
  destruct (search_loop s solver constant n tol (S n) c0) as [r|] eqn:E; [|exfalso; apply L; subst c0; cbn; auto; lia].
  split; [destruct r; discriminate|]. intros fuel Hf. now rewrite (loop_more _ _ _ _ _ _ _ _ _ Hf E).
Qed.

(** *** What the search leaves *)
Lemma loop_result s solver constant n tol : forall fuel c c', search_loop s solver constant n tol fuel c = Some (Ok c') ->
  (c' = c /\ continues tol c = false) \/
  ((exists f b, c_fit c' = Some f /\ lm_fit s solver (if constant then add_constant (columns (seg_x s) b) else columns (seg_x s) b) = Ok f /\ (4 <= length (f_params f))%nat) /\
   (c_fail c' = false -> splits (c_brk c') (seg_x s))).
Proof.
  induction fuel as [|fuel IH]; intros c c'; cbn [search_loop].
  - destruct (continues tol c) eqn:C; [discriminate|]. intros E. injection E as <-. auto.
  - destruct (continues tol c) eqn:C; [|intros E; injection E as <-; auto].
    destruct (search_step s solver constant n c) as [[[c1 stop] h]|e] eqn:E; [|discriminate].
    destruct (step_spec _ _ _ _ _ _ _ _ E) as (_&S1&(f&Hf&Hl&Hn)&S2). destruct stop.
    + intros F. injection F as <-. right. split; [exists f, (c_brk c); auto|]. intros NF. destruct S2 as [(_&_&K)|(_&K&_)]; [exact K|congruence].
    + intros F. apply IH in F. destruct F as [[-> _]|F]; [|right; exact F]. right. split; [exists f, (c_brk c); auto|].
      intros _. destruct S2 as [(_&_&K)|(K&_)]; [exact K|discriminate].
Qed.

(** A failed turn is the last one. *)
Lemma const_col_in c v w : const_col c = true -> In v c -> In w c -> v = w /\ v <> 0.
Proof.
  destruct c as [|a c]; cbn; [discriminate|]. rewrite Bool.andb_true_iff, Bool.negb_true_iff. intros [A B] Hv Hw. rewrite forallb_forall in B.
  assert (forall z, z = a \/ In z c -> z = a) as G. { intros z [->|Z]; auto. specialize (B z Z). destruct (Reqb_spec a z); [auto|discriminate]. }
  destruct (Reqb_spec a 0); [discriminate|]. assert (v = a) by (apply G; destruct Hv; auto). assert (w = a) by (apply G; destruct Hw; auto). subst. auto.
Qed.

Lemma spread_not_const x : spread x -> const_col x = false.
Proof. intros (u&v&Hu&Hv&L). destruct (const_col x) eqn:E; auto. destruct (const_col_in _ u v E Hu Hv). lra. Qed.
Lemma splits_spread x b : splits b x -> spread x.
Proof. intros [[u [Hu U]] [v [Hv V]]]. exists u, v. repeat split; auto. lra. Qed.

Lemma add_constant_one x : spread x -> length (add_constant [x]) = 2%nat.
Proof. intros H. unfold add_constant. cbn [existsb]. rewrite (spread_not_const x H). reflexivity. Qed.

Lemma col_U_zero x b u : In u x -> u <= b -> In 0 (col_U x b).
Proof. intros Hu U. unfold col_U. apply in_map_iff. exists u. split; auto. destruct (Rltb_spec b u); [lra|ring]. Qed.
Lemma deriv_zero x b u : In u x -> u < b -> In 0 (deriv_max x b).
Proof. intros Hu U. unfold deriv_max. apply in_map_iff. exists u. split; auto. destruct (Rltb_spec u b); [reflexivity|lra]. Qed.

Lemma zero_not_const c : In 0 c -> const_col c = false.
Proof. intros H. destruct (const_col c) eqn:E; auto. destruct (const_col_in _ 0 0 E H H). contradiction. Qed.

Lemma add_constant_columns x b : spread x -> (exists u, In u x /\ u < b) -> length (add_constant (columns x b)) = 4%nat.
Proof.
  intros S (u&Hu&U). unfold add_constant, columns. cbn [existsb].
  rewrite (spread_not_const x S), (zero_not_const (col_U x b)), (zero_not_const (deriv_max x b)); [reflexivity| |].
  - eapply deriv_zero; eauto.
  - eapply col_U_zero; eauto. lra.
Qed.

Lemma add_constant_lowest x b : x <> [] -> lowest b x -> length (add_constant (columns x b)) = 3%nat.
Proof.
  intros N L. unfold add_constant, columns. cbn [existsb]. replace (const_col (deriv_max x b)) with true; [now rewrite !Bool.orb_true_r|].
  symmetry. assert (E : deriv_max x b = map (fun _ => -1) x). { unfold deriv_max. apply map_ext_in. intros v Hv. specialize (L v Hv). destruct (Rltb_spec v b); [lra|reflexivity]. }
  rewrite E. destruct x as [|v x]; [contradiction|]. cbn. destruct (Reqb_spec (-1) 0); [lra|]. cbn. apply forallb_forall. intros w Hw. apply in_map_iff in Hw. destruct Hw as [z [<- _]]. destruct (Reqb_spec (-1) (-1)); auto.
Qed.

Lemma rmax_of_spec l : l <> [] -> is_max (rmax_of l) l.
Proof.
  intros N. unfold rmax_of. assert (G : forall d r, is_max (fold_right Rmax d r) (d :: r)).
  { intros d r. induction r as [|v r [IH1 IH2]]; cbn [fold_right].
    - split; [now left|]. intros y [<-|[]]. lra.
    - split.
      + unfold Rmax at 1. destruct (Rle_dec v (fold_right Rmax d r)); [|right; now left]. destruct IH1 as [E|E]; [now left|right; now right].
      + intros y [<-|[<-|Hy]].
        * apply Rle_trans with (fold_right Rmax d r); [apply IH2; now left|apply Rmax_r].
        * apply Rmax_l.
        * apply Rle_trans with (fold_right Rmax d r); [apply IH2; now right|apply Rmax_r]. }
  destruct l as [|d r]; [contradiction|]. cbn [hd]. destruct (G d (d :: r)) as [A B]. split.
  - destruct A as [A|A]; auto. rewrite <- A. now left.
  - intros y Hy. apply B. now right.
Qed.

Lemma index_ok l i : (i < length l)%nat -> exists v, index l i = Ok v /\ nth_error l i = Some v.
Proof. intros H. unfold index. destruct (nth_error l i) eqn:E; [eauto|]. apply nth_error_None in E. lia. Qed.

Lemma lm_fit_solver s solver cols f : lm_fit s solver cols = Ok f -> f = solver cols.
Proof. unfold lm_fit. destruct (seg_weights s); [destruct (Nat.eqb _ _)|]; intros E; inversion E; reflexivity. Qed.

Lemma params_length g : length (params g) = S (length (g_params g)).
Proof. unfold params. rewrite app_length. cbn. lia. Qed.
Lemma param_errs_length g : length (param_errs g) = S (length (g_errs g)).
Proof. unfold param_errs. rewrite app_length. cbn. lia. Qed.

Lemma slopes_broken g : g_fail g = false -> length (g_params g) = 4%nat -> length (g_errs g) = 4%nat ->
  exists p1 p2 e1 e2, nth_error (g_params g) 1 = Some p1 /\ nth_error (g_params g) 2 = Some p2 /\ nth_error (g_errs g) 1 = Some e1 /\ nth_error (g_errs g) 2 = Some e2 /\
  get_slopes g = Ok ([p1; fadd p2 p1], [e1; fsqrt (fadd (fsqr e2) (fsqr e1))]).
Proof.
  intros F A B. unfold get_slopes. rewrite F, params_length, A. cbn [Nat.sub].
  unfold params, param_errs. destruct g as [b be p e fl]. cbn in *. do 4 (destruct p as [|? p]; [discriminate|]). do 4 (destruct e as [|? e]; [discriminate|]). cbn. eauto 10.
Qed.

Lemma fit_model_outcome s solver constant n tol h e0 fuel g : well_formed solver -> spread (seg_x s) ->
  fit_model s solver constant n tol h e0 fuel = Some (Ok g) ->
  (g_fail g = true /\ is_max (g_brk g) (seg_x s) /\ length (params g) = 3%nat /\ exists s1 e1, get_slopes g = Ok ([s1], [e1])) \/
  (g_fail g = false /\ splits (g_brk g) (seg_x s) /\
   (~ lowest (g_brk g) (seg_x s) -> length (params g) = 5%nat /\
     exists p1 p2 e1 e2, nth_error (params g) 1 = Some p1 /\ nth_error (params g) 2 = Some p2 /\ nth_error (param_errs g) 1 = Some e1 /\ nth_error (param_errs g) 2 = Some e2 /\
     get_slopes g = Ok ([p1; fadd p2 p1], [e1; fsqrt (fadd (fsqr e2) (fsqr e1))]))).
Proof.
  intros W Sp. unfold fit_model. destruct (lm_fit s solver (if constant then add_constant [seg_x s] else [seg_x s])) as [init|]; [|discriminate].
  destruct (Rltb e0 tol); [discriminate|]. set (c0 := mk_search _ _ _ _ _ _ _).
  destruct (search_loop s solver constant n tol fuel c0) as [[c|]|] eqn:E; try discriminate. intros H. injection H as H.
  unfold finish in H. apply bind_ok in H. destruct H as [fail [Hfail H]]. destruct fail.
  - apply bind_ok in H. destruct H as [f [Hf H]]. injection H as <-. left. apply lm_fit_solver in Hf. subst f.
    destruct (W (add_constant [seg_x s])) as (L1&L2&_). rewrite add_constant_one in L1, L2 by auto.
    split; [reflexivity|]. split; [apply rmax_of_spec; destruct Sp as (u&_&Hu&_); intros Z; rewrite Z in Hu; destruct Hu|].
    split; [rewrite params_length; cbn; lia|]. unfold get_slopes. cbn [g_fail].
    destruct (index_ok (params (mk_seg_fit (rmax_of (seg_x s)) (Fin 0) (f_params (solver (add_constant [seg_x s]))) (f_bse (solver (add_constant [seg_x s]))) true)) 1) as [s1 [-> _]]; [rewrite params_length; cbn; lia|].
    destruct (index_ok (param_errs (mk_seg_fit (rmax_of (seg_x s)) (Fin 0) (f_params (solver (add_constant [seg_x s]))) (f_bse (solver (add_constant [seg_x s]))) true)) 1) as [e1 [-> _]]; [rewrite param_errs_length; cbn; lia|].
    cbn. eauto.
  - apply bind_ok in H. destruct H as [f [Hf H]]. apply bind_ok in H. destruct H as [be [Hbe H]]. injection H as <-. right. apply lm_fit_solver in Hf. subst f.
    assert (Fc : c_fail c = false) by (destruct (c_fail c); [discriminate|reflexivity]).
    destruct (loop_result _ _ _ _ _ _ _ _ E) as [[-> _]|[_ K]]; [discriminate|]. specialize (K Fc).
    split; [reflexivity|]. split; [exact K|]. cbn [g_brk]. intros NL.
    assert (X : exists u, In u (seg_x s) /\ u < c_brk c).
    { clear -NL. unfold lowest in NL. induction (seg_x s) as [|v x IH]; [exfalso; apply NL; intros v []|]. destruct (Rlt_dec v (c_brk c)) as [L|L]; [exists v; split; [now left|auto]|].
      destruct IH as [u [Hu U]]; [|exists u; split; [now right|auto]]. intros Q. apply NL. intros w [<-|Hw]; [lra|auto]. }
    destruct (W (add_constant (columns (seg_x s) (c_brk c)))) as (L1&L2&_). rewrite add_constant_columns in L1, L2 by auto.
    split; [rewrite params_length; cbn; lia|].
    destruct (slopes_broken (mk_seg_fit (c_brk c) be (f_params (solver (add_constant (columns (seg_x s) (c_brk c))))) (f_bse (solver (add_constant (columns (seg_x s) (c_brk c))))) false)) as (p1&p2&e1&e2&A1&A2&A3&A4&A5); auto.
    exists p1, p2, e1, e2. cbn [g_params g_errs] in *. unfold params, param_errs. cbn [g_params g_errs].
    rewrite !nth_error_app1 by lia. auto.
Qed.

(** *** Errors of the fit *)
Lemma step_error s solver n c e : well_formed solver -> spread (seg_x s) -> (match seg_weights s with None => True | Some w => length w = length (seg_y s) end) ->
  search_step s solver true n c = Err e -> e = IndexError /\ lowest (c_brk c) (seg_x s).
Proof.
  intros W Sp Wt H. unfold search_step in H.
  assert (L : lm_fit s solver (add_constant (columns (seg_x s) (c_brk c))) = Ok (solver (add_constant (columns (seg_x s) (c_brk c))))).
  { unfold lm_fit. destruct (seg_weights s); [|reflexivity]. now rewrite Wt, Nat.eqb_refl. }
  rewrite L in H. cbn [bind] in H. destruct (W (add_constant (columns (seg_x s) (c_brk c)))) as (L1&_).
  destruct (index (f_params _) 2) as [beta|e2] eqn:I2; cbn [bind] in H.
  - destruct (index (f_params _) 3) as [gamma|e3] eqn:I3; cbn [bind] in H.
    + destruct (if usable _ _ then _ else _) as [[[r|] st] k]; discriminate.
    + injection H as <-. unfold index in I3. destruct (nth_error _ 3) eqn:N; [discriminate|]. injection I3 as <-. split; [reflexivity|].
      apply nth_error_None in N. intros v Hv. destruct (Rle_dec (c_brk c) v) as [Q|Q]; auto. exfalso. rewrite add_constant_columns in L1; [lia|auto|]. exists v. split; [auto|lra].
  - injection H as <-. unfold index in I2. destruct (nth_error _ 2) eqn:N; [discriminate|]. injection I2 as <-. split; [reflexivity|].
    apply nth_error_None in N. intros v Hv. destruct (Rle_dec (c_brk c) v) as [Q|Q]; auto. exfalso. rewrite add_constant_columns in L1; [lia|auto|]. exists v. split; [auto|lra].
Qed.

Lemma loop_error s solver n tol e : well_formed solver -> spread (seg_x s) -> (match seg_weights s with None => True | Some w => length w = length (seg_y s) end) ->
  forall fuel c, search_loop s solver true n tol fuel c = Some (Err e) ->
  e = IndexError /\ exists b, (b = c_brk c \/ splits b (seg_x s)) /\ lowest b (seg_x s).
Proof.
  intros W Sp Wt. induction fuel as [|fuel IH]; intros c; cbn [search_loop].
  - destruct (continues tol c); discriminate.
  - destruct (continues tol c); [|discriminate]. destruct (search_step s solver true n c) as [[[c1 stop] h]|e1] eqn:E.
    + destruct stop; [discriminate|]. intros H. apply IH in H. destruct H as [-> (b&[->|B]&L)].
      * split; [reflexivity|]. destruct (step_spec _ _ _ _ _ _ _ _ E) as (_&_&_&[(_&_&K)|(K&_)]); [|discriminate]. exists (c_brk c1). auto.
      * split; [reflexivity|]. exists b. auto.
    + intros H. injection H as ->. apply step_error in E; auto. destruct E as [-> L]. split; [reflexivity|]. exists (c_brk c). auto.
Qed.

Lemma brk_errs_ok ps cov n : length ps = S n -> length cov = n -> (forall r, In r cov -> length r = n) -> (4 <= n)%nat -> exists v, brk_errs ps cov = Ok v.
Proof.
  intros A B C D. unfold brk_errs. destruct (index_ok ps 2) as [p2 [-> _]]; [lia|]. destruct (index_ok ps 3) as [p3 [-> _]]; [lia|]. cbn [bind].
  destruct (nth_error cov 3) as [c3|] eqn:E3; [|apply nth_error_None in E3; lia]. destruct (nth_error cov 2) as [c2|] eqn:E2; [|apply nth_error_None in E2; lia]. cbn [bind].
  apply nth_error_In in E3. apply nth_error_In in E2. apply C in E3. apply C in E2.
  destruct (index_ok c3 3) as [a [-> _]]; [lia|]. destruct (index_ok c2 2) as [b [-> _]]; [lia|]. destruct (index_ok c3 2) as [d [-> _]]; [lia|]. cbn [bind]. eauto.
Qed.

Lemma brk_errs_ok' ps cov : (4 <= length ps)%nat -> (4 <= length cov)%nat -> (forall r, In r cov -> (4 <= length r)%nat) -> exists v, brk_errs ps cov = Ok v.
Proof.
  intros A B C. unfold brk_errs. destruct (index_ok ps 2) as [p2 [-> _]]; [lia|]. destruct (index_ok ps 3) as [p3 [-> _]]; [lia|]. cbn [bind].
  destruct (nth_error cov 3) as [c3|] eqn:E3; [|apply nth_error_None in E3; lia]. destruct (nth_error cov 2) as [c2|] eqn:E2; [|apply nth_error_None in E2; lia]. cbn [bind].
  apply nth_error_In in E3. apply nth_error_In in E2. apply C in E3. apply C in E2.
  destruct (index_ok c3 3) as [a [-> _]]; [lia|]. destruct (index_ok c2 2) as [b [-> _]]; [lia|]. destruct (index_ok c3 2) as [d [-> _]]; [lia|]. cbn [bind]. eauto.
Qed.

Lemma add_constant_length x b : (3 <= length (add_constant (columns x b)))%nat.
Proof. unfold add_constant. destruct (existsb _ _); cbn; lia. Qed.

Lemma fit_model_error s solver n tol h e0 fuel e : well_formed solver -> spread (seg_x s) ->
  (match seg_weights s with None => True | Some w => length w = length (seg_y s) end) -> 0 <= tol < e0 ->
  fit_model s solver true n tol h e0 fuel = Some (Err e) ->
  e = IndexError /\ exists b, (b = seg_brk s \/ splits b (seg_x s)) /\ lowest b (seg_x s).
Proof.
  intros W Sp Wt Ht. assert (Lf : forall cols, lm_fit s solver cols = Ok (solver cols)).
  { intros cols. unfold lm_fit. destruct (seg_weights s); [|reflexivity]. now rewrite Wt, Nat.eqb_refl. }
  unfold fit_model. rewrite Lf. destruct (Rltb_spec e0 tol); [lra|]. set (c0 := mk_search _ _ _ _ _ _ _).
  destruct (search_loop s solver true n tol fuel c0) as [[c|e1]|] eqn:E; try discriminate.
  - intros H. exfalso. injection H as H. unfold finish in H.
    destruct (loop_result _ _ _ _ _ _ _ _ E) as [[-> C]|[(f&b&Hf&Hl&Hn) K]].
    + unfold continues in C. cbn in C. destruct (Rltb_spec tol (Rabs e0)) as [Q|Q]; [discriminate|]. rewrite Rabs_pos_eq in Q; lra.
    + rewrite Hf, !Lf in H. cbn [bind] in H. apply lm_fit_solver in Hl. subst f.
      assert (G : forall z, (4 <= length (f_params (solver z)))%nat -> (4 <= length (f_cov (solver z)))%nat /\ forall r, In r (f_cov (solver z)) -> (4 <= length r)%nat).
      { intros z Hz. destruct (W z) as (A1&A2&A3&A4). split; [lia|]. intros r Hr. rewrite (A4 r Hr). lia. }
      destruct (G _ Hn) as [G1 G2]. destruct (brk_errs_ok' (f_params (solver (add_constant (columns (seg_x s) (c_brk c)))) ++ [Fin (c_brk c)]) (f_cov (solver (add_constant (columns (seg_x s) b))))) as [v V]; auto.
      * rewrite app_length. destruct (W (add_constant (columns (seg_x s) (c_brk c)))) as (A1&_). rewrite A1. pose proof (add_constant_length (seg_x s) (c_brk c)). cbn. lia.
      * destruct (c_fail c); cbn [bind] in H; [discriminate|]. destruct (fleb _ _); [discriminate|]. rewrite V in H. discriminate.
  - intros H. injection H as ->. eapply loop_error in E; eauto.
Qed.

Lemma fit_model_lowest s solver n tol h e0 fuel : well_formed solver -> seg_x s <> [] -> (match seg_weights s with None => True | Some w => length w = length (seg_y s) end) ->
  0 <= tol < e0 -> lowest (seg_brk s) (seg_x s) -> fit_model s solver true n tol h e0 (S fuel) = Some (Err IndexError).
Proof.
  intros W N Wt Ht L. assert (Lf : forall cols, lm_fit s solver cols = Ok (solver cols)).
  { intros cols. unfold lm_fit. destruct (seg_weights s); [|reflexivity]. now rewrite Wt, Nat.eqb_refl. }
  unfold fit_model. rewrite Lf. destruct (Rltb_spec e0 tol); [lra|]. cbn [search_loop]. unfold continues. cbn [c_eps fabs fltb]. rewrite Rabs_pos_eq by lra. destruct (Rltb_spec tol e0); [|lra].
  unfold search_step. rewrite Lf. cbn [bind c_brk]. destruct (W (add_constant (columns (seg_x s) (seg_brk s)))) as (L1&_). rewrite add_constant_lowest in L1 by auto.
  unfold index. destruct (nth_error _ 2) eqn:E2; [|apply nth_error_None in E2; lia]. cbn [bind]. destruct (nth_error _ 3) eqn:E3; [|reflexivity]. exfalso. assert (nth_error (f_params (solver (add_constant (columns (seg_x s) (seg_brk s))))) 3 <> None) as Q by congruence. apply nth_error_Some in Q. lia.
Qed.

(** *** The model *)
Lemma nearest_in b : forall l best, In (nearest b best l) (best :: l).
Proof. induction l as [|v l IH]; intros best; cbn [nearest]; [now left|]. destruct (Rltb _ _); [right; apply IH|]. destruct (IH best) as [E|E]; [left; exact E|right; right; exact E]. Qed.
Lemma nearest_min b : forall l best w, In w (best :: l) -> Rabs (nearest b best l - b) <= Rabs (w - b).
Proof.
  induction l as [|v l IH]; intros best w; cbn [nearest].
  - intros [<-|[]]. lra.
  - intros H. destruct (Rltb_spec (Rabs (v - b)) (Rabs (best - b))) as [Q|Q].
    + destruct H as [<-|H]; [|apply IH; exact H]. apply Rle_trans with (Rabs (v - b)); [apply IH; now left|lra].
    + destruct H as [<-|[<-|H]].
      * apply IH. now left.
      * apply Rle_trans with (Rabs (best - b)); [apply IH; now left|lra].
      * apply IH. now right.
Qed.

Lemma model_value p0 p1 p2 brk xs : xs <> [] -> exists t, In t xs /\ (forall w, In w xs -> Rabs (t - brk) <= Rabs (w - brk)) /\
  model p0 p1 p2 brk xs = Ok (map (fun k => if Rltb k brk then p0 + p1 * k else p0 + (p1 + p2) * k - p2 * t) xs).
Proof.
  destruct xs as [|v r]; [contradiction|]. intros _. exists (nearest brk v r). split; [apply nearest_in|]. split; [intros; now apply nearest_min|].
  unfold model. apply (f_equal Ok). apply map_ext. intros k. destruct (Rltb_spec k brk), (Rleb_spec brk k); try lra; ring.
Qed.

(** The right line exceeds the left one at the break by p2 (brk - t). *)
Lemma model_meets p0 p1 p2 brk xs : In brk xs ->
  model p0 p1 p2 brk xs = Ok (map (broken_line p0 p1 (p1 + p2) brk) xs).
Proof.
  intros H. assert (N : xs <> []) by (intros ->; destruct H). destruct (model_value p0 p1 p2 brk xs N) as (t&Ht&M&E). rewrite E. apply (f_equal Ok). apply map_ext_in. intros k _. unfold broken_line.
  assert (t = brk). { specialize (M brk H). replace (brk - brk) with 0 in M by ring. rewrite Rabs_R0 in M. pose proof (Rabs_pos (t - brk)). destruct (Req_dec (t - brk) 0); [lra|]. pose proof (Rabs_pos_lt _ H1). lra. }
  subst t. destruct (Rltb_spec k brk); ring.
Qed.

Lemma model_gap : exists p0 p1 p2 brk xs v, model p0 p1 p2 brk xs = Ok v /\ v <> map (broken_line p0 p1 (p1 + p2) brk) xs /\
  exists k, In k xs /\ brk <= k.
Proof.
  destruct (model_value 0 0 1 1 [0; 3]) as (t&Ht&M&E); [discriminate|]. exists 0, 0, 1, 1, [0; 3]. eexists. split; [exact E|]. split.
  - assert (t = 0). { destruct Ht as [<-|[<-|[]]]; [reflexivity|]. specialize (M 0 (or_introl eq_refl)). rewrite (Rabs_pos_eq (3 - 1)), (Rabs_left (0 - 1)) in M by lra. lra. }
    subst t. cbn. unfold broken_line. destruct (Rltb_spec 3 1); [lra|]. intros Q. injection Q. intros. lra.
  - exists 3. split; [right; now left|lra].
Qed.

Lemma model_not_pointwise : exists p0 p1 p2 brk k xs ys v w, In k xs /\ In k ys /\
  model p0 p1 p2 brk (k :: xs) = Ok v /\ model p0 p1 p2 brk (k :: ys) = Ok w /\ nth 0 v 0 <> nth 0 w 0.
Proof.
  exists 0, 0, 1, 1, 3, [3; 0], [3; 1].
  unfold model. cbn [nearest].
  destruct (Rltb_spec (Rabs (3 - 1)) (Rabs (3 - 1))) as [Q|Q]; [lra|]. clear Q.
  destruct (Rltb_spec (Rabs (0 - 1)) (Rabs (3 - 1))) as [Q|Q]; [clear Q|rewrite (Rabs_pos_eq (3 - 1)), (Rabs_left (0 - 1)) in Q by lra; lra].
  destruct (Rltb_spec (Rabs (1 - 1)) (Rabs (3 - 1))) as [Q|Q]; [clear Q|rewrite (Rabs_pos_eq (3 - 1)), (Rabs_pos_eq (1 - 1)) in Q by lra; lra].
  eexists _, _. split; [now left|]. split; [now left|]. split; [reflexivity|]. split; [reflexivity|]. cbn [nth map].
  destruct (Rltb_spec 3 1); [lra|]. destruct (Rleb_spec 1 3); [|lra]. lra.
Qed.

(** After a dropped break: a straight line up to the highest point, another slope beyond. *)
Lemma failed_model_inside p0 p1 brk xs : xs <> [] -> (forall k, In k xs -> k <= brk) -> model p0 p1 brk brk xs = Ok (map (fun k => p0 + p1 * k) xs).
Proof.
  intros N H. destruct (model_value p0 p1 brk brk xs N) as (t&Ht&M&E). rewrite E. apply (f_equal Ok). apply map_ext_in. intros k Hk. destruct (Rltb_spec k brk) as [Q|Q]; [reflexivity|].
  assert (k = brk) by (specialize (H k Hk); lra). subst k.
  assert (t = brk). { specialize (M brk Hk). replace (brk - brk) with 0 in M by ring. rewrite Rabs_R0 in M. pose proof (Rabs_pos (t - brk)). destruct (Req_dec (t - brk) 0) as [|Z]; [lra|]. pose proof (Rabs_pos_lt _ Z). lra. }
  subst t. ring.
Qed.
Lemma failed_model_outside : exists p0 p1 brk xs v, model p0 p1 brk brk xs = Ok v /\ v <> map (fun k => p0 + p1 * k) xs.
Proof.
  destruct (model_value 0 1 1 1 [1; 2]) as (t&Ht&M&E); [discriminate|]. exists 0, 1, 1, [1; 2]. eexists. split; [exact E|].
  assert (t = 1). { destruct Ht as [<-|[<-|[]]]; [reflexivity|]. specialize (M 1 (or_introl eq_refl)). rewrite (Rabs_pos_eq (2 - 1)), (Rabs_pos_eq (1 - 1)) in M by lra. lra. }
  subst t. cbn. destruct (Rltb_spec 2 1); [lra|]. intros Q. injection Q. intros. lra.
Qed.

(** *** Error of the break *)
Definition fscale (c : R) (l : list fl) : list fl := map (fmul (Fin c)) l.
Lemma brk_errs_value a b beta gamma rest c0 c1 c20 c21 v22 c23 c30 c31 v32 v33 : beta <> 0 -> 0 <= v33 + v22 * (gamma / beta * (gamma / beta)) + 2 * v32 * (gamma / beta) ->
  brk_errs (a :: b :: Fin beta :: Fin gamma :: rest) [c0; c1; [c20; c21; Fin v22; c23]; [c30; c31; Fin v32; Fin v33]] =
  Ok (Fin (sqrt (v33 + v22 * (gamma / beta * (gamma / beta)) + 2 * v32 * (gamma / beta)))).
Proof.
  intros B P. unfold brk_errs. cbn [index nth_error bind]. apply (f_equal Ok). unfold fsqr, fdiv. destruct (Reqb_spec beta 0); [contradiction|]. cbn [fmul fadd fsqrt].
  destruct (Rltb_spec (v33 + v22 * (gamma / beta * (gamma / beta)) + 2 * v32 * (gamma / beta)) 0); [lra|reflexivity].
Qed.

(** The 2x2 matrix [v22 v32; v32 v33] is positive semi-definite. *)
Lemma brk_err_real v22 v32 v33 r : (forall a b, 0 <= a * a * v22 + 2 * a * b * v32 + b * b * v33) -> 0 <= v33 + v22 * (r * r) + 2 * v32 * r.
Proof. intros H. specialize (H r 1). lra. Qed.

(** *** The constructor *)
Lemma init_nan_range : exists x y brk s, lm_seg_init x y (Fin brk) None = Ok s /\ forall v, In v (fins x) -> v < brk.
Proof.
  exists [Fin 1; Fin 2; Fin 3; Fin 4; NaN], [Fin 1; Fin 1; Fin 1; Fin 1; Fin 1], 9. eexists. split; [reflexivity|].
  cbn. intros v [<-|[<-|[<-|[<-|[]]]]]; lra.
Qed.

Lemma existsb_nan x : (forall v, In v x -> v <> NaN) -> existsb is_nan x = false.
Proof. intros H. destruct (existsb is_nan x) eqn:E; auto. apply existsb_exists in E. destruct E as [v [Hv E]]. destruct v; try discriminate. exfalso. now apply (H NaN Hv). Qed.
