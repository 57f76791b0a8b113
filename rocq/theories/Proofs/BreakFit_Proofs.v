(** Proofs about Model/BreakFit.v: the segmented fit of a line that is broken exactly. *)
From Coq Require Import Reals List Arith Lia Lra Bool.
From Verif Require Import Lib.PyBase Lib.RSum Lib.Fl Model.FitState Model.LmSeg Model.BreakFit Spec.Blank Spec.Segmented Spec.BreakFit Proofs.Fl_Proofs Proofs.LmSeg_Proofs Proofs.Ols_Proofs.
Import ListNotations.
Local Open Scope R_scope.

Lemma nth_map_R (f : R -> R) l i : (i < length l)%nat -> nth i (map f l) 0 = f (nth i l 0).
Proof. intros H. rewrite (nth_indep _ 0 (f 0)) by now rewrite map_length. apply map_nth. Qed.
Lemma nth_repeat_lt n i : (i < n)%nat -> nth i (repeat 1 n) 0 = 1.
Proof. revert i. induction n as [|n IH]; intros i H; [lia|]. destruct i; cbn; [reflexivity|]. apply IH. lia. Qed.
Lemma two_sided_splits b x : two_sided b x -> splits b x.
Proof. intros [(u&v&Hu&Hv&_&U&V) (p&q&Hp&Hq&_&P&Q)]. split; [exists u; split; [auto|lra]|exists p; auto]. Qed.
Lemma two_sided_below b x : two_sided b x -> exists u, In u x /\ u < b.
Proof. intros [(u&v&Hu&Hv&_&U&V) _]. eauto. Qed.
Lemma gap_sided b c x : same_gap b c x -> two_sided b x -> two_sided c x.
Proof.
  intros G [(u&v&Hu&Hv&D&U&V) (p&q&Hp&Hq&D'&P&Q)]. split.
  - exists u, v. split; [exact Hu|]. split; [exact Hv|]. split; [exact D|]. split; [apply (G u Hu); exact U|apply (G v Hv); exact V].
  - exists p, q. split; [exact Hp|]. split; [exact Hq|]. split; [exact D'|]. split; apply Rnot_le_lt; intros Z; [apply (G p Hp) in Z|apply (G q Hq) in Z]; lra.
Qed.

Lemma columns_cols x c : two_sided c x -> add_constant (columns x c) = [repeat 1 (length x); x; col_U x c; deriv_max x c].
Proof.
  intros T. pose proof (splits_spread _ _ (two_sided_splits _ _ T)) as S. destruct (two_sided_below _ _ T) as (u&Hu&U). unfold add_constant, columns. cbn [existsb].
  rewrite (spread_not_const x S), (zero_not_const (col_U x c)), (zero_not_const (deriv_max x c)); [reflexivity| |].
  - eapply deriv_zero; eauto.
  - eapply col_U_zero; eauto. lra.
Qed.
Lemma line_cols x : spread x -> add_constant [x] = [repeat 1 (length x); x].
Proof. intros S. unfold add_constant. cbn [existsb]. rewrite (spread_not_const x S). reflexivity. Qed.

Lemma predicted_4 x c a0 a1 a2 a3 i : (i < length x)%nat ->
  predicted [repeat 1 (length x); x; col_U x c; deriv_max x c] [a0; a1; a2; a3] i =
  a0 + a1 * nth i x 0 + a2 * ((nth i x 0 - c) * (if Rltb c (nth i x 0) then 1 else 0)) + a3 * (if Rltb (nth i x 0) c then 0 else -1).
Proof. intros H. rewrite !predicted_cons. unfold predicted. cbn [combine map lsum fold_right]. rewrite nth_repeat_lt by exact H. unfold col_U, deriv_max. rewrite !nth_map_R by exact H. ring. Qed.
Lemma predicted_2 x a0 a1 i : (i < length x)%nat -> predicted [repeat 1 (length x); x] [a0; a1] i = a0 + a1 * nth i x 0.
Proof. intros H. rewrite !predicted_cons. unfold predicted. cbn [combine map lsum fold_right]. rewrite nth_repeat_lt by exact H. ring. Qed.
Lemma in_index (v : R) x : In v x -> exists i, (i < length x)%nat /\ nth i x 0 = v.
Proof. intros H. destruct (In_nth x v 0 H) as [i [Hi E]]. eauto. Qed.

(** The residuals of the fit as numbers *)
Lemma rss_value (r : nat -> R) n : fsum (map fsqr (map (fun i => Fin (r i)) (seq 0 n))) = Fin (lsum (map (fun i => r i * r i) (seq 0 n))).
Proof. rewrite map_map. rewrite <- fsum_Fin. rewrite map_map. reflexivity. Qed.
Lemma lsum_squares_nonneg (r : nat -> R) l : 0 <= lsum (map (fun i => r i * r i) l).
Proof. induction l as [|i l IH]; cbn; [lra|]. unfold lsum in IH. pose proof (Rle_0_sqr (r i)). unfold Rsqr in *. lra. Qed.
Lemma lsum_squares_zero (r : nat -> R) l : lsum (map (fun i => r i * r i) l) = 0 -> forall i, In i l -> r i = 0.
Proof.
  induction l as [|j l IH]; cbn; intros H i Hi; [destruct Hi|]. pose proof (lsum_squares_nonneg r l) as P. unfold lsum in *. pose proof (Rle_0_sqr (r j)) as Q. unfold Rsqr in Q.
  destruct Hi as [<-|Hi]; [|apply IH; [lra|exact Hi]]. assert (Z : r j * r j = 0) by lra. apply Rmult_integral in Z. tauto.
Qed.
Lemma lsum_squares_all_zero (r : nat -> R) l : (forall i, In i l -> r i = 0) -> lsum (map (fun i => r i * r i) l) = 0.
Proof.
  induction l as [|j l IH]; intros H; [reflexivity|]. change (r j * r j + lsum (map (fun i => r i * r i) l) = 0). rewrite IH by (intros; apply H; now right). rewrite (H j) by now left. ring.
Qed.

Lemma broken_as_columns p0 s1 s2 b c v : ((v < c <-> v < b) /\ (v <= c <-> v <= b)) ->
  broken_line p0 s1 s2 b v = p0 + s1 * v + (s2 - s1) * ((v - c) * (if Rltb c v then 1 else 0)) + (s2 - s1) * (b - c) * (if Rltb v c then 0 else -1).
Proof.
  intros [G1 G2]. unfold broken_line. destruct (Rltb_spec v b) as [L|L].
  - apply G1 in L. destruct (Rltb_spec c v); [lra|]. destruct (Rltb_spec v c); [ring|contradiction].
  - destruct (Rltb_spec v c) as [L'|L']; [tauto|]. destruct (Rltb_spec c v) as [M|M]; [ring|].
    assert (v = c) by lra. assert (v <= b) by (apply G2; lra). assert (b = c) by lra. subst. ring.
Qed.
Lemma two_points a m u v : u <> v -> a + m * u = 0 -> a + m * v = 0 -> a = 0 /\ m = 0.
Proof.
  intros D A B. assert (Z : m * (u - v) = 0) by lra. apply Rmult_integral in Z. destruct Z as [->|Z]; [|lra]. lra.
Qed.

Section Exact.
Variables (ols : list R -> option (list R) -> list (list R) -> fit_result) (s : lm_seg) (p0 s1 s2 b : R).
Hypothesis REG : regression ols.
Hypothesis GW : good_weights (seg_y s) (seg_weights s).
Hypothesis DATA : seg_y s = map (broken_line p0 s1 s2 b) (seg_x s).
Hypothesis BREAK : s1 <> s2.
Hypothesis SIDES : two_sided b (seg_x s).
Definition sol (cols : list (list R)) : fit_result := ols (seg_y s) (seg_weights s) cols.
Lemma len_y : length (seg_y s) = length (seg_x s).
Proof. rewrite DATA. apply map_length. Qed.
Lemma y_at i : (i < length (seg_x s))%nat -> nth i (seg_y s) 0 = broken_line p0 s1 s2 b (nth i (seg_x s) 0).
Proof. intros H. rewrite DATA. now apply nth_map_R. Qed.
Lemma solves cols : lm_fit s sol cols = Ok (sol cols).
Proof. unfold lm_fit. destruct (seg_weights s) as [l|] eqn:E; [|reflexivity]. cbn in GW. rewrite (proj1 GW), Nat.eqb_refl. reflexivity. Qed.
Lemma wf : well_formed sol.
Proof. exact (proj1 (REG _ _ GW)). Qed.

Lemma fit_at c : same_gap b c (seg_x s) ->
  f_params (sol (add_constant (columns (seg_x s) c))) = map Fin [p0; s1; s2 - s1; (s2 - s1) * (b - c)] /\
  rss (sol (add_constant (columns (seg_x s) c))) = Fin 0.
Proof.
  intros G. pose proof (gap_sided _ _ _ G SIDES) as T. rewrite (columns_cols _ _ T).
  set (x := seg_x s) in *. set (cols := [repeat 1 (length x); x; col_U x c; deriv_max x c]).
  assert (LC : forall d, In d cols -> length d = length (seg_y s)).
  { intros d Hd. rewrite len_y. fold x. unfold cols, col_U, deriv_max in Hd. repeat (destruct Hd as [<-|Hd]; [rewrite ?repeat_length, ?map_length; reflexivity|]). destruct Hd. }
  assert (EX : forall i, (i < length (seg_y s))%nat -> nth i (seg_y s) 0 = predicted cols [p0; s1; s2 - s1; (s2 - s1) * (b - c)] i).
  { intros i Hi. rewrite len_y in Hi. fold x in Hi. unfold cols. rewrite predicted_4 by exact Hi. rewrite y_at by exact Hi. fold x. apply broken_as_columns. apply G. now apply nth_In. }
  destruct (exact_fit _ _ cols (sol cols) [p0; s1; s2 - s1; (s2 - s1) * (b - c)] GW (proj2 (REG _ _ GW) cols LC) eq_refl EX) as [p [Lp [E1 [E2 E3]]]].
  assert (P : p = [p0; s1; s2 - s1; (s2 - s1) * (b - c)]).
  { destruct p as [|a0 [|a1 [|a2 [|a3 [|]]]]]; try discriminate.
    assert (PT : forall v, In v x -> a0 + a1 * v + a2 * ((v - c) * (if Rltb c v then 1 else 0)) + a3 * (if Rltb v c then 0 else -1) =
      p0 + s1 * v + (s2 - s1) * ((v - c) * (if Rltb c v then 1 else 0)) + (s2 - s1) * (b - c) * (if Rltb v c then 0 else -1)).
    { intros v Hv. destruct (in_index v x Hv) as [i [Hi <-]]. assert (Hi' : (i < length (seg_y s))%nat) by (rewrite len_y; exact Hi).
      pose proof (E3 i Hi') as A. rewrite (EX i Hi') in A. unfold cols in A. rewrite !predicted_4 in A by exact Hi. exact A. }
    destruct T as [(u&v&Hu&Hv&D&U&V) (q&r&Hq&Hr&D'&Q&R')].
    assert (K1 : a0 - p0 = 0 /\ a1 - s1 = 0).
    { apply (two_points _ _ u v D); [specialize (PT u Hu)|specialize (PT v Hv)].
      - destruct (Rltb_spec c u); [lra|]. destruct (Rltb_spec u c); [|contradiction]. lra.
      - destruct (Rltb_spec c v); [lra|]. destruct (Rltb_spec v c); [|contradiction]. lra. }
    destruct K1 as [K1 K2]. assert (a0 = p0) by lra. assert (a1 = s1) by lra. subst a0 a1.
    assert (K3 : (s2 - s1) * (b - c) - a3 + c * (s2 - s1 - a2) = 0 /\ a2 - (s2 - s1) = 0).
    { apply (two_points _ _ q r D'); [specialize (PT q Hq)|specialize (PT r Hr)].
      - destruct (Rltb_spec c q); [|lra]. destruct (Rltb_spec q c); [lra|]. lra.
      - destruct (Rltb_spec c r); [|lra]. destruct (Rltb_spec r c); [lra|]. lra. }
    destruct K3 as [K3 K4]. assert (a2 = s2 - s1) by lra. subst a2. assert (a3 = (s2 - s1) * (b - c)) by lra. now subst a3. }
  subst p. split; [exact E1|]. unfold rss. rewrite E2, rss_value. apply f_equal.
  apply (lsum_squares_all_zero (fun i => nth i (seg_y s) 0 - predicted cols [p0; s1; s2 - s1; (s2 - s1) * (b - c)] i)). intros i Hi. apply in_seq in Hi. rewrite E3 by lia. ring.
Qed.

Lemma straight_rss : exists d, 0 < d /\ rss (sol (add_constant [seg_x s])) = Fin d.
Proof.
  pose proof (splits_spread _ _ (two_sided_splits _ _ SIDES)) as S. rewrite (line_cols _ S). set (x := seg_x s) in *. set (cols := [repeat 1 (length x); x]).
  assert (LC : forall d, In d cols -> length d = length (seg_y s)).
  { intros d Hd. rewrite len_y. fold x. unfold cols in Hd. repeat (destruct Hd as [<-|Hd]; [rewrite ?repeat_length; reflexivity|]). destruct Hd. }
  destruct (proj2 (REG _ _ GW) cols LC) as [p [Lp [E1 [E2 _]]]]. fold (sol cols) in E1, E2. unfold rss. rewrite E2, rss_value. eexists. split; [|reflexivity].
  destruct p as [|a0 [|a1 [|]]]; try discriminate.
  pose proof (lsum_squares_nonneg (fun i => nth i (seg_y s) 0 - predicted cols [a0; a1] i) (seq 0 (length (seg_y s)))) as N.
  destruct N as [N|N]; [exact N|]. exfalso. symmetry in N. pose proof (lsum_squares_zero _ _ N) as Z. cbv beta in Z.
  assert (PT : forall v, In v x -> broken_line p0 s1 s2 b v = a0 + a1 * v).
  { intros v Hv. destruct (in_index v x Hv) as [i [Hi <-]]. specialize (Z i). rewrite in_seq in Z. rewrite len_y in Z. fold x in Z. assert (Z' := Z ltac:(lia)). unfold cols in Z'. rewrite predicted_2 in Z' by exact Hi.
    rewrite y_at in Z' by exact Hi. fold x in Z'. lra. }
  destruct SIDES as [(u&v&Hu&Hv&D&U&V) (q&r&Hq&Hr&D'&Q&R')]. fold x in Hu, Hv, Hq, Hr.
  assert (K1 : a0 - p0 = 0 /\ a1 - s1 = 0).
  { apply (two_points _ _ u v D); [pose proof (PT u Hu) as A|pose proof (PT v Hv) as A]; unfold broken_line in A.
    - destruct (Rltb_spec u b); [|contradiction]. lra.
    - destruct (Rltb_spec v b); [|contradiction]. lra. }
  assert (K2 : a0 - p0 - s1 * b + s2 * b = 0 /\ a1 - s2 = 0).
  { apply (two_points _ _ q r D'); [pose proof (PT q Hq) as A|pose proof (PT r Hr) as A]; unfold broken_line in A.
    - destruct (Rltb_spec q b); [lra|]. lra.
    - destruct (Rltb_spec r b); [lra|]. lra. }
  apply BREAK. lra.
Qed.

(** One turn mirrors the break at the true one. *)
Lemma turn c d eps fail it fo : 0 <= d -> same_gap b c (seg_x s) -> same_gap b (2 * b - c) (seg_x s) ->
  search_step s sol true 100 (mk_search c (Fin 2) eps (Fin d) fail it fo) =
  Ok (mk_search (2 * b - c) (Fin 2) (Fin ((0 - d) / (d + 1 / 1000))) (Fin 0) fail (S it) (Some (sol (add_constant (columns (seg_x s) c)))), Nat.ltb 100 (S it), 0%nat).
Proof.
  intros Hd G G'. destruct (fit_at c G) as [EP ER]. unfold search_step. cbn [c_brk c_step c_dev c_fail c_it]. rewrite solves. cbn [bind]. rewrite EP. cbn [map index nth_error bind]. unfold index. cbn [nth_error bind].
  assert (NB : fadd (Fin c) (fdiv (fmul (Fin 2) (Fin ((s2 - s1) * (b - c)))) (Fin (s2 - s1))) = Fin (2 * b - c)).
  { cbn [fmul]. rewrite fdiv_fin by lra. cbn [fadd]. apply f_equal. field. lra. }
  rewrite NB. rewrite (splits_usable _ _ (two_sided_splits _ _ (gap_sided _ _ _ G' SIDES))). change (fsum (map fsqr (f_resid (sol (add_constant (columns (seg_x s) c)))))) with (rss (sol (add_constant (columns (seg_x s) c)))).
  rewrite ER. change (fadd (Fin d) (Fin (1 / 1000))) with (Fin (d + 1 / 1000)). rewrite fsub_fin, fdiv_fin by lra. reflexivity.
Qed.

Theorem fit_exact : same_gap b (seg_brk s) (seg_x s) -> same_gap b (2 * b - seg_brk s) (seg_x s) ->
  exists g, fit_model s sol true 100 (1 / 1000) 2 10 101 = Some (Ok g) /\ (g_brk g = seg_brk s \/ g_brk g = 2 * b - seg_brk s) /\ g_fail g = false /\
    g_params g = map Fin [p0; s1; s2 - s1; (s2 - s1) * (b - g_brk g)] /\ length (g_errs g) = 4%nat.
Proof.
  intros G G'. destruct straight_rss as [d [Hd RD]]. unfold fit_model. rewrite solves. destruct (Rltb_spec 10 (1 / 1000)); [lra|].
  change (fsum (map fsqr (f_resid (sol (add_constant [seg_x s]))))) with (rss (sol (add_constant [seg_x s]))). rewrite RD.
  assert (L : exists c fo e st it, search_loop s sol true 100 (1 / 1000) 101 (mk_search (seg_brk s) (Fin 2) (Fin 10) (Fin d) false 0 None) =
    Some (Ok (mk_search c st e (Fin 0) false it (Some (sol (add_constant (columns (seg_x s) fo)))))) /\ (c = seg_brk s \/ c = 2 * b - seg_brk s) /\ same_gap b c (seg_x s) /\ same_gap b fo (seg_x s)).
  { cbn [search_loop]. unfold continues at 1. cbn [c_eps fabs fltb]. rewrite Rabs_pos_eq by lra. destruct (Rltb_spec (1 / 1000) 10); [|lra].
    rewrite (turn (seg_brk s) d (Fin 10) false 0%nat None ltac:(lra) G G'). cbn [Nat.ltb Nat.leb].
    destruct (continues (1 / 1000) _) eqn:C1.
    - rewrite (turn (2 * b - seg_brk s) 0 _ false 1%nat _ ltac:(lra) G'); [|replace (2 * b - (2 * b - seg_brk s)) with (seg_brk s) by ring; exact G]. cbn [Nat.ltb Nat.leb].
      match goal with |- context [continues ?t ?c] => assert (continues t c = false) as -> end.
      { unfold continues. cbn [c_eps fabs fltb]. replace ((0 - 0) / (0 + 1 / 1000)) with 0 by field. rewrite Rabs_R0. destruct (Rltb_spec (1 / 1000) 0); [lra|reflexivity]. }
      do 5 eexists. split; [reflexivity|]. split; [left; ring|]. split; [|exact G']. replace (2 * b - (2 * b - seg_brk s)) with (seg_brk s) by ring. exact G.
    - do 5 eexists. split; [reflexivity|]. split; [now right|]. split; [exact G'|exact G]. }
  destruct L as (c&fo&e&st&it&EL&Hc&Gc&Gf). rewrite EL. unfold finish. cbn [c_fail c_fit bind c_brk].
  change (fsum (map fsqr (f_resid (sol (add_constant [seg_x s]))))) with (rss (sol (add_constant [seg_x s]))). change (fsum (map fsqr (f_resid (sol (add_constant (columns (seg_x s) fo)))))) with (rss (sol (add_constant (columns (seg_x s) fo)))).
  destruct (fit_at c Gc) as [EPc _]. destruct (fit_at fo Gf) as [EPf ERf]. rewrite RD, ERf. cbn [fleb]. destruct (Rleb_spec d 0); [lra|]. cbn [bind]. rewrite solves. cbn [bind].
  pose proof (wf (add_constant (columns (seg_x s) c))) as (W1&W2&_). pose proof (wf (add_constant (columns (seg_x s) fo))) as (V1&_&V3&V4).
  rewrite EPc in W1. rewrite EPf in V1. cbn [map length] in W1, V1. rewrite <- W1 in W2. rewrite <- V1 in V3, V4.
  destruct (brk_errs_ok (f_params (sol (add_constant (columns (seg_x s) c))) ++ [Fin c]) (f_cov (sol (add_constant (columns (seg_x s) fo)))) 4) as [v V]; [rewrite EPc; reflexivity|exact V3|exact V4|lia|].
  rewrite V. cbn [bind]. eexists. split; [reflexivity|]. cbn [g_brk g_fail g_params g_errs]. auto.
Qed.
End Exact.

(** *** Through the constructor *)
Lemma np_range x b : two_sided b x -> exists mx mn, np_max (map Fin x) = Ok (Fin mx) /\ np_min (map Fin x) = Ok (Fin mn) /\ ~ mx < b /\ ~ b < mn.
Proof.
  intros T. assert (N : x <> []) by (destruct (two_sided_below _ _ T) as (u&Hu&_); intros ->; destruct Hu).
  assert (NN : existsb is_nan (map Fin x) = false) by (apply existsb_nan; intros v Hv; apply in_map_iff in Hv; destruct Hv as [r [<- _]]; discriminate).
  destruct (nanmax_spec (map Fin x) (blankable_map_Fin x)) as [mx [E1 [_ M1]]]; [now rewrite fins_map_Fin|].
  destruct (nanmin_spec (map Fin x) (blankable_map_Fin x)) as [mn [E2 [_ M2]]]; [now rewrite fins_map_Fin|].
  rewrite fins_map_Fin in M1, M2. exists mx, mn. unfold np_max, np_min. rewrite NN. destruct x as [|v x]; [contradiction|]. cbn [map] in *. rewrite E1, E2. split; [reflexivity|]. split; [reflexivity|].
  destruct T as [(u&_&Hu&_&_&U&_) (q&_&Hq&_&_&Q&_)]. specialize (M1 q Hq). specialize (M2 u Hu). split; lra.
Qed.
Lemma two_sided_length b x : two_sided b x -> (4 <= length x)%nat.
Proof.
  intros [(u&v&Hu&Hv&D&U&V) (p&q&Hp&Hq&D'&P&Q)]. assert (NoDup [u; v; p; q]).
  { constructor; [|constructor; [|constructor; [|constructor; [|constructor]]]]; cbn; intuition lra. }
  apply (NoDup_incl_length H). intros z [<-|[<-|[<-|[<-|[]]]]]; assumption.
Qed.
Lemma init_fin x y b0 w : two_sided b0 x -> length y = length x -> match w with None => True | Some l => length l = length x end ->
  lm_seg_init (map Fin x) (map Fin y) (Fin b0) (option_map (map Fin) w) = Ok (mk_seg x y b0 w).
Proof.
  intros T Ly Lw. destruct (np_range x b0 T) as (mx&mn&E1&E2&M1&M2). unfold lm_seg_init. rewrite E1, E2. cbn [bind fltb]. destruct (Rltb_spec mx b0); [contradiction|]. destruct (Rltb_spec b0 mn); [contradiction|]. cbn [orb].
  assert (EG : filter (fun p => is_fin (fst p) && is_fin (snd p)) (combine (map Fin x) (map Fin y)) = combine (map Fin x) (map Fin y)).
  { clear -Ly. revert y Ly. induction x as [|u x IH]; intros [|v y] L; try discriminate; cbn; [reflexivity|]. f_equal. apply IH. cbn in L. lia. }
  assert (M1' : map fst (combine (map Fin x) (map Fin y)) = map Fin x). { clear -Ly. revert y Ly. induction x as [|u x IH]; intros [|v y] L; try discriminate; cbn; [reflexivity|]. f_equal. apply IH. cbn in L. lia. }
  assert (M2' : map snd (combine (map Fin x) (map Fin y)) = map Fin y). { clear -Ly. revert y Ly. induction x as [|u x IH]; intros [|v y] L; try discriminate; cbn; [reflexivity|]. f_equal. apply IH. cbn in L. lia. }
  assert (LL : Nat.leb (length (combine (map Fin x) (map Fin y))) 3 = false). { apply Nat.leb_gt. rewrite combine_length, !map_length, Ly. pose proof (two_sided_length _ _ T). lia. }
  assert (EW : match option_map (map Fin) w with None => Ok None | Some w => if negb (Nat.eqb (length (map Fin x)) (length w)) then Err ValueError else if forallb is_fin w then Ok (Some (fins w)) else Err ValueError end = Ok w).
  { destruct w as [l|]; cbn [option_map]; [|reflexivity]. rewrite !map_length, Lw, Nat.eqb_refl. cbn [negb]. rewrite fins_map_Fin. replace (forallb is_fin (map Fin l)) with true; [reflexivity|]. symmetry. apply forallb_forall. intros v Hv. apply in_map_iff in Hv. destruct Hv as [r [<- _]]. reflexivity. }
  rewrite EW. cbn [bind]. rewrite EG, LL, M1', M2', !fins_map_Fin. reflexivity.
Qed.

Theorem lm_exact ols x w p0 s1 s2 b b0 : regression ols -> s1 <> s2 -> two_sided b x -> same_gap b b0 x -> same_gap b (2 * b - b0) x ->
  match w with None => True | Some l => length l = length x /\ forall v, In v l -> 0 < v end ->
  exists g, lm_seg_fit ols (map Fin x) (map Fin (map (broken_line p0 s1 s2 b) x)) (Fin b0) (option_map (map Fin) w) = Ok g /\
    (g_brk g = b0 \/ g_brk g = 2 * b - b0) /\ g_fail g = false /\ g_params g = map Fin [p0; s1; s2 - s1; (s2 - s1) * (b - g_brk g)] /\ length (g_errs g) = 4%nat.
Proof.
  intros REG NE T G G' HW. unfold lm_seg_fit.
  rewrite (init_fin x (map (broken_line p0 s1 s2 b) x) b0 w (gap_sided _ _ _ G T)); [|apply map_length|destruct w; [apply HW|exact I]]. cbn [bind seg_y seg_weights].
  set (s := mk_seg x (map (broken_line p0 s1 s2 b) x) b0 w).
  assert (GW : good_weights (seg_y s) (seg_weights s)). { destruct w as [l|]; cbn; [|exact I]. now rewrite map_length. }
  destruct (fit_exact ols s p0 s1 s2 b REG GW eq_refl NE T G G') as [g [E R']]. change (fit_model s (ols (map (broken_line p0 s1 s2 b) x) w)) with (fit_model s (sol ols s)). rewrite E. exists g. split; [reflexivity|exact R'].
Qed.
Lemma read_exact boot g p0 s1 s2 z : g_fail g = false -> g_params g = map Fin [p0; s1; s2 - s1; z] -> length (g_errs g) = 4%nat ->
  exists errs, read_break boot g = Ok (Some (g_brk g, g_brk_err g, (Fin s1, Fin s2), errs, boot g, Fin p0)).
Proof.
  intros F P L. destruct (slopes_broken g F) as (q1&q2&e1&e2&A1&A2&A3&A4&A5); [rewrite P; reflexivity|exact L|]. unfold read_break. rewrite A5. cbn [bind]. rewrite params_length, P. cbn [map length Nat.eqb].
  rewrite P in A1, A2. cbn in A1, A2. injection A1 as <-. injection A2 as <-. cbn [fadd]. replace (s2 - s1 + s1) with s2 by ring. eauto.
Qed.
