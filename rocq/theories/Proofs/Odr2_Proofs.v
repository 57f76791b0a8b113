(** More about Model/Odr.v: fits of power laws, units, exchanged axes, absent errors *)
From Coq Require Import String Reals List Lia Lra Bool.
From Coq Require Import List.
From Verif Require Import Lib.PyBase Lib.Fl Lib.RSum Model.Units Model.BaseStat Model.EllipPlaw Model.PcaFit Model.Odr Spec.Odr Proofs.Odr_Proofs.
From Verif Require Model.WidthMethods.
Import ListNotations.
Local Open Scope R_scope.

(** ** Exact laws *)
Lemma nodup_filter {A B} (f : A -> B) (g : A -> bool) l : NoDup (map f l) -> NoDup (map f (filter g l)).
Proof.
  induction l as [|x l IH]; intro H; [constructor|]. cbn [map] in H. inversion H as [|? ? N D]; subst. cbn [filter]. destruct (g x); [|now apply IH]. cbn [map]. constructor; [|now apply IH].
  intro I. apply N. apply in_map_iff in I as [y [E I]]. apply filter_In in I as [I _]. rewrite <- E. now apply in_map.
Qed.
Lemma filter_two {A} (f g : A -> bool) l : filter (fun x => f x && g x) l = filter f (filter g l).
Proof. induction l as [|x l IH]; [reflexivity|]. cbn [filter]. destruct (g x); cbn [filter]; destruct (f x); cbn [andb]; now rewrite IH. Qed.
Lemma law_rows A alpha pts : 0 < A -> (forall r, In r pts -> positive r /\ on_law A alpha r) -> exists qs, posq qs /\ map odr_datum (map log_point pts) = map datum_of qs /\
  (forall q, In q qs -> qy q = alpha * qx q + log10 A) /\ forall s es v ev, In (component s es v ev) pts -> exists q, In q qs /\ qx q = log10 s /\ 0 < s.
Proof.
  intros PA. induction pts as [|r pts IH]; intro H.
  - exists []. split; [constructor|]. split; [reflexivity|]. split; [intros q []|intros ? ? ? ? []].
  - destruct (H r (or_introl eq_refl)) as [[s [es [v [ev [S [ES [V [EV ->]]]]]]]] [s' [es' [v' [ev' [C L]]]]]]. assert (s' = s /\ v' = v) as [-> ->] by (unfold component in C; split; congruence).
    destruct IH as [qs [P [E [Q W]]]]; [intros r' I; apply H; now right|]. destruct (row_quad s es v ev S ES V EV) as [R1 R2]. exists (quad_of s es v ev :: qs).
    split; [constructor; assumption|]. cbn [map]. split; [now rewrite R1, E|]. split.
    + intros q [<-|I]; [|now apply Q]. cbn [quad_of qx qy]. rewrite L, log10_mult, log10_power by (try apply exp_pos; assumption). ring.
    + intros s1 es1 v1 ev1 [C1|I]; [|destruct (W _ _ _ _ I) as [q [I' K]]; exists q; split; [now right|exact K]]. exists (quad_of s es v ev). split; [now left|]. assert (s1 = s) as -> by (unfold component in C1; congruence). split; [reflexivity|exact S].
Qed.
Lemma law_found s rows linreg odr_run bayes st c st' A alpha : finds_exact odr_run -> c_method c = "odr"%string -> 0 < A ->
  (forall r, In r rows -> all_finite r = true -> positive r /\ on_law A alpha r) -> NoDup (map w_spat (filter all_finite rows)) ->
  fit_plaw s rows (fit_odr linreg odr_run) bayes st c = (st', None) -> exists f, p_fit st' = Some f /\ f_index f = alpha /\ f_intercept f = A.
Proof.
  intros Fi M PA Law ND H. unfold fit_plaw in H. rewrite M in H. cbn [String.eqb Ascii.eqb Bool.eqb negb andb] in H.
  destruct (limit_pixels s (c_xlow c)) as [lo|]; [|discriminate]. destruct (limit_pixels s (c_xhigh c)) as [hi|]; [|discriminate].
  destruct (fit_rows lo hi rows) as [pts|] eqn:Fr; [|discriminate]. injection H as <-. cbn [p_fit]. eexists. split; [reflexivity|].
  unfold fit_rows in Fr. destruct (negb (existsb (within lo hi) rows)); [discriminate|]. destruct (Nat.ltb_spec (length (filter (fun r => within lo hi r && all_finite r) rows)) 2) as [|Len]; [discriminate|].
  assert (EQ : filter (fun r => within lo hi r && all_finite r) rows = pts) by (now injection Fr). rewrite EQ in Len.
  assert (ND' : NoDup (map w_spat pts)) by (rewrite <- EQ, filter_two; now apply nodup_filter).
  assert (All : forall r, In r pts -> positive r /\ on_law A alpha r) by (intros r I; rewrite <- EQ in I; apply filter_In in I as [I B]; apply andb_true_iff in B as [_ B]; now apply Law).
  clear Fr EQ ND Law. destruct (law_rows A alpha pts PA All) as [qs [P [E [Q W]]]].
  unfold fit_odr, leastsq_linear. set (start := linreg _).
  assert (B := Fi (map odr_datum (map log_point pts)) start alpha (log10 A)). destruct (odr_run (map odr_datum (map log_point pts)) start) as [[a b] [ea eb]] eqn:O. cbn [fst snd] in B |- *. unfold odr_fitted. cbn [f_index f_intercept].
  rewrite E in B. assert (X := proj1 (exact_best qs alpha (log10 A) P Q a b)).
  assert (Y : forall q, In q qs -> qy q = a * qx q + b).
  { apply X, B.
    - unfold proper. apply Forall_forall. intros d I. apply in_map_iff in I as [q [<- I]]. unfold posq in P. rewrite Forall_forall in P. destruct (P q I). exists (qx q), (qy q), (qd q), (qe q). repeat split; assumption.
    - rewrite misfit_real. f_equal. clear -Q. induction qs as [|q qs IH]; [reflexivity|]. cbn [rmis]. rewrite IH by (intros q' I; apply Q; now right). rewrite (Q q (or_introl eq_refl)). ring. }
  destruct pts as [|r1 [|r2 pts]]; [cbn in Len; lia|cbn in Len; lia|].
  destruct (All r1 (or_introl eq_refl)) as [[s1 [es1 [v1 [ev1 [S1 [_ [_ [_ R1]]]]]]]] _]. destruct (All r2 (or_intror (or_introl eq_refl))) as [[s2 [es2 [v2 [ev2 [S2 [_ [_ [_ R2]]]]]]]] _].
  destruct (W s1 es1 v1 ev1) as [q1 [I1 [X1 _]]]; [left; exact R1|]. destruct (W s2 es2 v2 ev2) as [q2 [I2 [X2 _]]]; [right; left; exact R2|].
  assert (D : log10 s1 <> log10 s2).
  { intro K. apply log10_inj in K; try assumption. cbn [map] in ND'. inversion ND' as [|? ? N _]; subst. apply N. left. reflexivity. }
  assert (Q1 := Q q1 I1). assert (Q2 := Q q2 I2). assert (Y1 := Y q1 I1). assert (Y2 := Y q2 I2). rewrite X1 in Q1, Y1. rewrite X2 in Q2, Y2.
  assert (a = alpha) as ->.
  { assert (K : (a - alpha) * (log10 s1 - log10 s2) = 0) by (replace ((a - alpha) * (log10 s1 - log10 s2)) with ((a * log10 s1 + b) - (a * log10 s2 + b) - ((alpha * log10 s1 + log10 A) - (alpha * log10 s2 + log10 A))) by ring; rewrite <- Q1, <- Q2, <- Y1, <- Y2; ring).
    apply Rmult_integral in K as [K|K]; lra. }
  split; [reflexivity|]. assert (b = log10 A) as -> by lra. now apply power10_log.
Qed.

(** ** Units *)
(** Lines and points changed so that each line keeps its cost times [k] *)
Lemma best_moved g l (h : R -> R -> R) (k : R) : 0 < k -> posq l -> posq (map g l) -> (forall a b, cost (map g l) a (h a b) = k * cost l a b) -> (forall a b', exists b, h a b = b') ->
  forall a b, best (map datum_of l) a b <-> best (map datum_of (map g l)) a (h a b).
Proof.
  intros K P P' C S a b. rewrite !best_iff by assumption. split.
  - intros H a' b'. destruct (S a' b') as [b1 <-]. rewrite !C. apply Rmult_le_compat_l; [lra|apply H].
  - intros H a' b'. specialize (H a' (h a' b')). rewrite !C in H. now apply Rmult_le_reg_l in H.
Qed.
Lemma cost_map g l a b a' b' k : (forall q, In q l -> cost1 (g q) a' b' = k * cost1 q a b) -> cost (map g l) a' b' = k * cost l a b.
Proof.
  unfold cost. intro H. induction l as [|q l IH]; cbn [map]; [cbn; ring|]. rewrite !lsum_cons, IH by (intros q' I; apply H; now right). rewrite H by now left. ring.
Qed.
Lemma size_units k rows A alpha : 0 < k -> Forall positive rows -> (best_law rows A alpha <-> best_law (map (size_unit k) rows) (A * Rpower k (- alpha)) alpha).
Proof.
  intros K H. destruct (rows_quads (size_unit k) (fun q => mk_q (qx q + log10 k) (qy q) (qd q) (qe q)) rows) as [qs [P [E [P' E']]]]; [|exact H|].
  - intros s es v ev S ES V EV. assert (KS : 0 < k * s) by now apply Rmult_lt_0_compat. assert (KE : 0 < k * es) by now apply Rmult_lt_0_compat.
    destruct (row_quad (k * s) (k * es) v ev KS KE V EV) as [R1 [R2 R3]]. unfold size_unit, times. cbn [component w_spat w_spat_err w_spec w_spec_err fmul]. fold (component (k * s) (k * es) v ev). rewrite R1.
    cbn [qd qe quad_of qx qy]. split.
    + unfold datum_of, quad_of. cbn [qx qy qd qe]. rewrite log10_mult by assumption. replace (434 / 1000 * (k * es) / (k * s)) with (434 / 1000 * es / s) by (field; lra). now rewrite (Rplus_comm (log10 k)).
    + cbn [qd qe quad_of] in *. destruct (row_quad s es v ev S ES V EV) as [_ [Q1 Q2]]. split; assumption.
  - unfold best_law. rewrite E, E'. assert (PW : 0 < Rpower k (- alpha)) by apply exp_pos.
    assert (B := best_moved (fun q => mk_q (qx q + log10 k) (qy q) (qd q) (qe q)) qs (fun a b => b - a * log10 k) 1 ltac:(lra) P P').
    assert (B' := B ltac:(intros a b; apply cost_map; intros q _; unfold cost1, resid; cbn [qx qy qd qe]; rewrite Rmult_1_l; replace (qy q - a * (qx q + log10 k) - (b - a * log10 k)) with (qy q - a * qx q - b) by ring; reflexivity) ltac:(intros a b'; exists (b' + a * log10 k); ring)). clear B.
    specialize (B' alpha (log10 A)). split; intros [PA G].
    + split; [now apply Rmult_lt_0_compat|]. rewrite log10_mult, log10_power by assumption. replace (log10 A + - alpha * log10 k) with (log10 A - alpha * log10 k) by ring. now apply B'.
    + assert (PA' : 0 < A) by (apply (Rmult_lt_reg_r (Rpower k (- alpha))); lra). split; [exact PA'|]. apply B'. rewrite log10_mult, log10_power in G by assumption. replace (log10 A - alpha * log10 k) with (log10 A + - alpha * log10 k) by ring. exact G.
Qed.
Lemma width_units k rows A alpha : 0 < k -> Forall positive rows -> (best_law rows A alpha <-> best_law (map (width_unit k) rows) (A * k) alpha).
Proof.
  intros K H. destruct (rows_quads (width_unit k) (fun q => mk_q (qx q) (qy q + log10 k) (qd q) (qe q)) rows) as [qs [P [E [P' E']]]]; [|exact H|].
  - intros s es v ev S ES V EV. assert (KS : 0 < k * v) by now apply Rmult_lt_0_compat. assert (KE : 0 < k * ev) by now apply Rmult_lt_0_compat.
    destruct (row_quad s es (k * v) (k * ev) S ES KS KE) as [R1 [R2 R3]]. unfold width_unit, times. cbn [component w_spat w_spat_err w_spec w_spec_err fmul]. fold (component s es (k * v) (k * ev)). rewrite R1.
    cbn [qd qe quad_of qx qy]. split.
    + unfold datum_of, quad_of. cbn [qx qy qd qe]. rewrite log10_mult by assumption. replace (434 / 1000 * (k * ev) / (k * v)) with (434 / 1000 * ev / v) by (field; lra). now rewrite (Rplus_comm (log10 k)).
    + cbn [qd qe quad_of] in *. destruct (row_quad s es v ev S ES V EV) as [_ [Q1 Q2]]. split; assumption.
  - unfold best_law. rewrite E, E'.
    assert (B := best_moved (fun q => mk_q (qx q) (qy q + log10 k) (qd q) (qe q)) qs (fun a b => b + log10 k) 1 ltac:(lra) P P').
    assert (B' := B ltac:(intros a b; apply cost_map; intros q _; unfold cost1, resid; cbn [qx qy qd qe]; rewrite Rmult_1_l; replace (qy q + log10 k - a * qx q - (b + log10 k)) with (qy q - a * qx q - b) by ring; reflexivity) ltac:(intros a b'; exists (b' - log10 k); ring)). clear B.
    specialize (B' alpha (log10 A)). split; intros [PA G].
    + split; [now apply Rmult_lt_0_compat|]. rewrite log10_mult by assumption. now apply B'.
    + assert (PA' : 0 < A) by (apply (Rmult_lt_reg_r k); lra). split; [exact PA'|]. apply B'. now rewrite log10_mult in G by assumption.
Qed.
Lemma error_units k rows A alpha : 0 < k -> Forall positive rows -> (best_law rows A alpha <-> best_law (map (error_unit k) rows) A alpha).
Proof.
  intros K H. assert (K2 : 0 < k * k) by now apply Rmult_lt_0_compat.
  destruct (rows_quads (error_unit k) (fun q => mk_q (qx q) (qy q) (/ (k * k) * qd q) (/ (k * k) * qe q)) rows) as [qs [P [E [P' E']]]]; [|exact H|].
  - intros s es v ev S ES V EV. assert (KS : 0 < k * es) by now apply Rmult_lt_0_compat. assert (KE : 0 < k * ev) by now apply Rmult_lt_0_compat.
    destruct (row_quad s (k * es) v (k * ev) S KS V KE) as [R1 [R2 R3]]. unfold error_unit, times. cbn [component w_spat w_spat_err w_spec w_spec_err fmul]. fold (component s (k * es) v (k * ev)). rewrite R1.
    cbn [qd qe quad_of qx qy]. split.
    + unfold datum_of, quad_of. cbn [qx qy qd qe]. f_equal; f_equal; field; lra.
    + cbn [qd qe quad_of] in *. destruct (row_quad s es v ev S ES V EV) as [_ [Q1 Q2]]. cbn [qd qe quad_of] in *. split; apply Rmult_lt_0_compat; try assumption; now apply Rinv_0_lt_compat.
  - unfold best_law. rewrite E, E'.
    assert (B := best_moved (fun q => mk_q (qx q) (qy q) (/ (k * k) * qd q) (/ (k * k) * qe q)) qs (fun a b => b) (/ (k * k)) ltac:(now apply Rinv_0_lt_compat) P P').
    assert (B' : forall a b, best (map datum_of qs) a b <-> best (map datum_of (map (fun q => mk_q (qx q) (qy q) (/ (k * k) * qd q) (/ (k * k) * qe q)) qs)) a b).
    { apply B; [|intros a b'; exists b'; reflexivity]. intros a b. apply cost_map. intros q I. unfold posq in P. rewrite Forall_forall in P. destruct (P q I) as [D F]. unfold cost1, resid. cbn [qx qy qd qe]. pose proof (den_pos q a D F).
      field. repeat split; lra. }
    split; intros [PA G]; (split; [exact PA|]); now apply B'.
Qed.

(** ** Exchanged axes *)
Definition swapq (q : quad) : quad := mk_q (qy q) (qx q) (qe q) (qd q).
Lemma cost_swap l a b : a <> 0 -> posq l -> cost (map swapq l) (/ a) (- b / a) = cost l a b.
Proof.
  intros N P. rewrite <- (Rmult_1_l (cost l a b)). apply cost_map. intros q I. unfold posq in P. rewrite Forall_forall in P. destruct (P q I) as [D F]. unfold cost1, resid, swapq. cbn [qx qy qd qe].
  pose proof (den_pos q a D F). assert (0 < qe q + / a * / a * qd q) by (pose proof (Rle_0_sqr (/ a)) as S; unfold Rsqr in S; assert (0 <= / a * / a * qd q) by (apply Rmult_le_pos; lra); lra).
  replace (qe q + / a * / a * qd q) with ((qd q + a * a * qe q) / (a * a)) by (field; exact N). field. repeat split; lra.
Qed.
Lemma cost_continuous l b : posq l -> continuity_pt (fun a => cost l a b) 0.
Proof.
  unfold cost. intro P. induction P as [|q l [D E] P IH]; cbn [map]; [apply continuity_pt_const; intros x y; reflexivity|].
  assert (C : continuity_pt (fun a => cost1 q a b + lsum (map (fun q => cost1 q a b) l)) 0).
  { apply (continuity_pt_plus (fun a => cost1 q a b) (fun a => lsum (map (fun q => cost1 q a b) l))); [|exact IH]. unfold cost1, resid. reg. lra. }
  revert C. apply continuity_pt_locally_ext with (a := 1); [lra|]. intros z _. now rewrite lsum_cons.
Qed.
Lemma best_swapped l a b : a <> 0 -> posq l -> best (map datum_of l) a b -> best (map datum_of (map swapq l)) (/ a) (- b / a).
Proof.
  intros N P H. assert (P' : posq (map swapq l)).
  { unfold posq in *. rewrite Forall_forall in *. intros q I. apply in_map_iff in I as [q0 [<- I]]. destruct (P q0 I). split; assumption. }
  rewrite best_iff in H by exact P. rewrite best_iff by exact P'. rewrite cost_swap by assumption.
  assert (Sw : map swapq (map swapq l) = l) by (rewrite map_map; rewrite <- (map_id l) at 2; apply map_ext; intros [x y d e]; reflexivity).
  assert (NZ : forall a' b', a' <> 0 -> cost l a b <= cost (map swapq l) a' b').
  { intros a' b' N'. rewrite <- (cost_swap (map swapq l) a' b' N' P'), Sw. apply H. }
  intros a' b'. destruct (Req_dec a' 0) as [->|N']; [|now apply NZ].
  apply Rnot_lt_le. intro L. destruct (cost_continuous (map swapq l) b' P' (cost l a b - cost (map swapq l) 0 b') ltac:(lra)) as [eta [Pe C]].
  specialize (C (eta / 2)). assert (NZ' := NZ (eta / 2) b' ltac:(lra)). unfold D_x, no_cond, dist, R_met, R_dist in C. cbn in C. unfold R_dist in C.
  assert (K : Rabs (cost (map swapq l) (eta / 2) b' - cost (map swapq l) 0 b') < cost l a b - cost (map swapq l) 0 b').
  { apply C. split; [split; [exact I|lra]|]. rewrite Rminus_0_r, Rabs_right; lra. }
  apply Rabs_def2 in K. lra.
Qed.
Lemma axes_exchanged rows A alpha : Forall positive rows -> alpha <> 0 -> best_law rows A alpha -> best_law (map exchanged rows) (Rpower A (- (1 / alpha))) (1 / alpha).
Proof.
  intros H N [PA B]. destruct (rows_quads exchanged swapq rows) as [qs [P [E [P' E']]]]; [|exact H|].
  - intros s es v ev S ES V EV. destruct (row_quad v ev s es V EV S ES) as [R1 [R2 R3]]. unfold exchanged. cbn [component w_spat w_spat_err w_spec w_spec_err]. fold (component v ev s es). split; [exact R1|split; assumption].
  - split; [apply exp_pos|]. rewrite E'. rewrite E in B. rewrite log10_power. replace (- (1 / alpha) * log10 A) with (- log10 A / alpha) by (field; exact N). unfold Rdiv at 1. rewrite Rmult_1_l. now apply best_swapped.
Qed.

(** ** Spectral widths without errors *)
Lemma interpolate_error fit y w e : WidthMethods.width_1D fit "interpolate"%string y = Ok (w, e) -> e = Fin 0.
Proof.
  unfold WidthMethods.width_1D. cbn [String.eqb Ascii.eqb Bool.eqb]. unfold WidthMethods.width_interpolate. destruct (WidthMethods.minima y) as [|m r]; [discriminate|]. destruct (Nat.ltb 1 m); intro H; congruence.
Qed.
Lemma interpolate_errors fit : forall ys ws, WidthMethods.widths_1D fit "interpolate"%string ys = Ok ws -> Forall (fun w => snd w = Fin 0) ws.
Proof.
  induction ys as [|y ys IH]; intros ws H; cbn [WidthMethods.widths_1D] in H; [injection H as <-; constructor|]. destruct (WidthMethods.width_1D fit "interpolate" y) as [[w e]|] eqn:E; [|discriminate]. cbn [bind] in H.
  destruct (WidthMethods.widths_1D fit "interpolate" ys) as [l|]; [|discriminate]. cbn [bind] in H. injection H as <-. constructor; [exact (interpolate_error _ _ _ _ E)|now apply IH].
Qed.
Lemma fadd_notfin x y : is_fin x = false -> is_fin (fadd x y) = false.
Proof. destruct x, y; cbn; congruence. Qed.
Lemma fmul_notfin x y : is_fin x = false -> is_fin (fmul x y) = false.
Proof. intros H. destruct x, y; cbn in *; try discriminate; try reflexivity; unfold sinf; destruct (Rltb 0 r); cbn; try reflexivity; destruct (Rltb r 0); reflexivity. Qed.
Lemma no_errors_no_misfit pts a b delta : pts <> [] -> (forall r, In r pts -> w_spec_err r = Fin 0 /\ is_fin (w_spec r) = true) -> is_fin (misfit (map odr_datum (map log_point pts)) a b delta) = false.
Proof.
  intros N H. destruct pts as [|r pts]; [contradiction|]. destruct (H r (or_introl eq_refl)) as [E F]. cbn [map misfit]. apply fadd_notfin, fadd_notfin, fmul_notfin.
  destruct (w_spec r) as [v| | |] eqn:V; try discriminate. cbn [odr_datum d_we log_point p_ey]. rewrite E, V. cbn [fmul fdiv]. destruct (Reqb_spec v 0).
  - unfold sinf. destruct (Rltb_spec 0 (434 / 1000 * 0)); [lra|]. destruct (Rltb_spec (434 / 1000 * 0) 0); [lra|]. reflexivity.
  - cbn [pow_m2]. destruct (Reqb_spec (434 / 1000 * 0 / v) 0) as [|K]; [reflexivity|]. exfalso. apply K. unfold Rdiv. ring.
Qed.
Lemma interpolated_misfit fit ys ws rows lo hi pts a b delta : WidthMethods.widths_1D fit "interpolate"%string ys = Ok ws -> map (fun r => (w_spec r, w_spec_err r)) rows = ws ->
  fit_rows lo hi rows = Ok pts -> is_fin (misfit (map odr_datum (map log_point pts)) a b delta) = false.
Proof.
  intros H E F. apply interpolate_errors in H. rewrite <- E in H. unfold fit_rows in F. destruct (negb (existsb (within lo hi) rows)); [discriminate|].
  destruct (Nat.ltb_spec (length (filter (fun r => within lo hi r && all_finite r) rows)) 2) as [|Len]; [discriminate|]. assert (EQ : filter (fun r => within lo hi r && all_finite r) rows = pts) by (now injection F). rewrite EQ in Len.
  apply no_errors_no_misfit; [intros ->; cbn in Len; lia|]. intros r I. rewrite <- EQ in I. apply filter_In in I as [I B]. apply andb_true_iff in B as [_ B]. rewrite Forall_forall in H. split; [exact (H _ (in_map _ _ _ I))|].
  unfold all_finite in B. now destruct (is_fin (w_spec r)).
Qed.
