From Coq Require Import Reals List Bool ZArith Arith Lia Lra Sorted.
From Verif Require Import Lib.PyBase Lib.PySlice Lib.RSum Lib.Fl Lib.Arr Lib.Hist Spec.Lag Spec.Blank Spec.Bins Spec.Distrib Model.Units Model.StatsUtils Model.Tsallis
  Proofs.StatsUtils_Proofs Proofs.StatsUtils2_Proofs Proofs.Fl_Proofs Proofs.Hist_Proofs Proofs.Tsallis_Proofs Proofs.Tsallis2_Proofs Proofs.Tsallis3_Proofs Proofs.Tsallis4_Proofs.
Import ListNotations.
Local Open Scope R_scope.

(** ** the points used for the fit *)
Lemma fins_le l : (length (fins l) <= length l)%nat.
Proof. induction l as [|v l IH]; [cbn; lia |]. unfold fins in *. destruct v; cbn in *; lia. Qed.
Theorem fit_points_clipped s dist x y : In (x, y) (fit_points (Some s) dist) <-> In (x, y) (combine (fst dist) (snd dist)) /\ exists v, y = Fin v /\ Rabs v < s.
Proof.
  unfold fit_points, clip_to_sigma. rewrite filter_In. cbn [snd]. split.
  - intros [I H]. split; [exact I |]. destruct y as [v| | |]; cbn in H; try discriminate. exists v. split; [reflexivity |].
    destruct (Rltb_spec v s), (Rltb_spec (- s) v); try discriminate. apply Rabs_def1; lra.
  - intros [I [v [-> H]]]. split; [exact I |]. cbn. apply Rabs_def2 in H. destruct (Rltb_spec v s), (Rltb_spec (- s) v); cbn; auto; lra.
Qed.
Theorem fit_points_all dist x y : In (x, y) (fit_points None dist) <-> In (x, y) (combine (fst dist) (snd dist)) /\ is_fin y = true.
Proof. unfold fit_points. apply filter_In. Qed.

Lemma log_gt c n : (0 < c)%nat -> INR n < 10 ^ 5 -> (c <= n)%nat -> -5 < ln (INR c / INR n) / ln 10.
Proof.
  intros C N L. assert (PC : 1 <= INR c) by (change 1 with (INR 1); apply le_INR; lia). assert (PN : 1 <= INR n) by (change 1 with (INR 1); apply le_INR; lia).
  pose proof ln10_pos as P. assert (Q : / 10 ^ 5 < INR c / INR n).
  { apply Rlt_le_trans with (/ INR n); [apply Rinv_lt_contravar; [apply Rmult_lt_0_compat; [lra | apply pow_lt; lra] | exact N] |].
    unfold Rdiv. rewrite <- (Rmult_1_l (/ INR n)) at 1. apply Rmult_le_compat_r; [left; apply Rinv_0_lt_compat; lra | exact PC]. }
  apply (Rmult_lt_reg_r (ln 10)); [exact P |]. unfold Rdiv at 1. rewrite Rmult_assoc, Rinv_l, Rmult_1_r by lra.
  replace (-5 * ln 10) with (ln (/ 10 ^ 5)).
  - apply ln_increasing; [apply Rinv_0_lt_compat, pow_lt; lra | exact Q].
  - rewrite ln_Rinv by (apply pow_lt; lra). rewrite ln_pow by lra. cbn [INR]. ring.
Qed.
(** up to 10^5 values the default clipping drops nothing *)
Theorem default_clip_useless nb arr data dist : numbers arr -> distribution nb arr = Ok (data, dist) -> INR (length (concat arr)) < 10 ^ 5 ->
  fit_points (Some 5) dist = fit_points None dist.
Proof.
  intros N E L. assert (NB : (1 <= nb)%nat).
  { destruct nb; [exfalso | lia]. unfold distribution in E. cbv zeta in E. rewrite filter_nonnan in E by now apply numbers_std. unfold counts_edges in E. rewrite all_fin in E. cbn in E. discriminate. }
  destruct (distribution_hist nb arr N NB) as [data' [edges [xs [ys [E' [LE [IE [LX [LY [RG [_ H]]]]]]]]]]]. rewrite E in E'. inversion E'; subst data' dist. clear E'.
  assert (FL : forall k, (k < nb)%nat -> is_fin (nth k ys NaN) = true -> exists v, nth k ys NaN = Fin v /\ -5 < v <= 0).
  { intros k Hk F. assert (NE : fins (concat data) <> [] \/ fins (concat data) = []) by (destruct (fins (concat data)); [now right | left; discriminate]).
    destruct NE as [NE | Z].
    - destruct (H NE k Hk) as [H0 H1]. destruct (Nat.eq_dec (length (filter (in_binb edges k) (fins (concat data)))) 0) as [C|C].
      + rewrite (H0 C) in F. discriminate.
      + destruct H1 as [y [Ey [Y0 Y1]]]; [lia |]. exists y. split; [exact Ey |]. split; [| exact Y0].
        set (c := length (filter (in_binb edges k) (fins (concat data)))) in *. set (n := length (fins (concat data))) in *.
        assert (CN : (c <= n)%nat) by (unfold c, n; generalize (fins (concat data)); intros l; clear; induction l as [|x l IH]; cbn; [lia |]; destruct (in_binb edges k x); cbn; lia).
        assert (NN : INR n < 10 ^ 5).
        { eapply Rle_lt_trans; [| exact L]. apply le_INR. unfold n.
          assert (D : data = standardize2 arr).
          { unfold distribution in E. cbv zeta in E. destruct (counts_edges _ nb) as [[h e]|]; cbn [bind] in E; [| discriminate]. now inversion E. }
          rewrite D, std2_concat. unfold standardize. rewrite <- (map_length (fun v => fdiv (fsub v (nanmean (concat arr))) (nanstd (concat arr))) (concat arr)). apply fins_le. }
        pose proof (log_gt c n ltac:(lia) NN CN) as G. rewrite <- Y1 in G. unfold Rpower in G. rewrite ln_exp in G. pose proof ln10_pos. replace (y * ln 10 / ln 10) with y in G by (field; lra). exact G.
    - (* no values: every share is 0 / 0 *)
      exfalso. unfold distribution in E. cbv zeta in E. assert (D : data = standardize2 arr) by (destruct (counts_edges _ nb) as [[h e]|]; cbn [bind] in E; [| discriminate]; now inversion E).
      rewrite filter_nonnan in E by now apply numbers_std. rewrite D in Z. unfold counts_edges in E. rewrite all_fin, fins_map_Fin, Z in E. destruct (bin_edges [] (NumBins nb)) as [ed|]; cbn [bind] in E; [| discriminate].
      inversion E as [[D2 X Y]]. assert (T : forall i, nth i (counts [] ed) 0 = 0).
      { intros i. destruct (Nat.lt_ge_cases i (length ed - 1)) as [Hi|Hi]; [| apply nth_overflow; now rewrite counts_length]. rewrite counts_nth by lia. unfold cum_n, count_le, count_lt. cbn [filter length INR]. destruct (Nat.eqb (S (S i)) (length ed)), (Nat.eqb (S i) (length ed)); lra. }
      assert (T0 : lsum (counts [] ed) = 0) by (rewrite (lsum_nth _ 0); rewrite (rsum_ext _ _ (fun _ => 0)); [apply rsum_0 | intros; apply T]).
      rewrite <- Y in F. destruct (Nat.lt_ge_cases k (length (counts [] ed))) as [Hk2|Hk2].
      + rewrite (nth_indep _ NaN (flog10 (fdiv (Fin 0) (Fin (lsum (counts [] ed)))))) in F by now rewrite map_length. rewrite (map_nth (fun h => flog10 (fdiv (Fin h) (Fin (lsum (counts [] ed)))))), T, T0 in F.
        unfold fdiv, sinf in F. destruct (Reqb_spec 0 0); [| lra]. destruct (Rltb_spec 0 0); [lra |]. discriminate.
      + rewrite nth_overflow in F by now rewrite map_length. discriminate. }
  unfold fit_points, clip_to_sigma. cbn [fst snd]. apply filter_ext_in. intros [x y] I. cbn [snd].
  apply (In_nth _ _ (0, NaN)) in I. destruct I as [k [Hk Ek]]. rewrite combine_length in Hk. rewrite combine_nth in Ek by lia. inversion Ek as [[X Y]].
  destruct (is_fin (nth k ys NaN)) eqn:F; rewrite ?andb_false_r; [| reflexivity].
  destruct (FL k ltac:(lia) F) as [v [-> [V1 V2]]]. cbn. destruct (Rltb_spec v 5), (Rltb_spec (- (5)) v); cbn; try lra; reflexivity.
Qed.

(** a 2x2 point source at lag 1: the bin beyond 1 sigma is used *)
Definition point2 : list (list fl) := [[Fin 1; Fin 0]; [Fin 0; Fin 0]].
Lemma point2_diff : lag_difference true 2 point2 1 = [[Fin (-1); Fin (1 / 2)]; [Fin (1 / 2); Fin 0]].
Proof.
  replace point2 with (tab2 2 2 (fun i j => if (Nat.eqb i 0 && Nat.eqb j 0)%bool then Fin 1 else Fin 0)) by reflexivity. rewrite difference_periodic.
  unfold tab2, tab1, neigh, wrap. cbn [seq map Z.of_nat Pos.of_succ_nat Pos.succ Z.sub Z.opp Z.add Z.pos_sub Pos.pred_double].
  cbv [Z.modulo Z.div_eucl Z.pos_div_eucl Z.add Z.sub Z.mul Z.opp Z.leb Z.ltb Z.compare Pos.compare Pos.compare_cont Pos.mul Pos.add Pos.succ Z.pos_sub Z.succ_double Z.double Z.pred_double Pos.pred_double Z.to_nat Pos.to_nat Pos.iter_op Nat.add Nat.eqb andb fst snd].
  rewrite !combo_fin. repeat (f_equal; try lra).
Qed.
Lemma point2_std : standardize2 [[Fin (-1); Fin (1 / 2)]; [Fin (1 / 2); Fin 0]] =
  (let s := sqrt (3 / 8) in [[Fin (-1 / s); Fin (1 / 2 / s)]; [Fin (1 / 2 / s); Fin 0]]).
Proof.
  set (l := [Fin (-1); Fin (1 / 2); Fin (1 / 2); Fin 0]). assert (B : Forall blankable l) by (unfold l; repeat constructor).
  assert (F : fins l = [-1; 1 / 2; 1 / 2; 0]) by reflexivity.
  assert (M : rmean (fins l) = 0) by (rewrite F; unfold rmean; cbn; lra).
  assert (V : rvar (fins l) = 3 / 8) by (unfold rvar; rewrite M, F; unfold rmean; cbn; lra).
  unfold standardize2. cbv zeta. cbn [concat app map]. fold l.
  assert (Q : 0 < sqrt (3 / 8)) by (apply sqrt_lt_R0; lra).
  assert (T : forall r, In (Fin r) l -> fdiv (fsub (Fin r) (nanmean l)) (nanstd l) = Fin (r / sqrt (3 / 8))).
  { intros r Hr. rewrite (standardize_values l (Fin r) B Hr). rewrite M, V. destruct (Reqb_spec (3 / 8) 0); [lra |]. f_equal. field. lra. }
  rewrite !T by (unfold l; cbn; tauto). do 3 f_equal. repeat (f_equal; try reflexivity). unfold Rdiv. now rewrite Rmult_0_l.
Qed.
Theorem clip_refuted : exists arr dist x y, shape 2 2 point2 /\ distribution (default_bins point2) (lag_difference true 2 point2 1) = Ok (arr, dist) /\
  In (x, y) (fit_points (Some 1) dist) /\ 1 < Rabs x.
Proof.
  assert (S : shape 2 2 point2) by (split; [reflexivity |]; intros row [<-|[<-|[]]]; reflexivity).
  assert (N : numbers point2) by (repeat constructor).
  assert (NB : default_bins point2 = 2%nat) by reflexivity. rewrite NB.
  set (s := sqrt (3 / 8)). assert (Q : 0 < s) by (apply sqrt_lt_R0; lra). assert (SS : s * s = 3 / 8) by (apply sqrt_sqrt; lra).
  set (d := [-1 / s; 1 / 2 / s; 1 / 2 / s; 0]). assert (IS : 0 < / s) by now apply Rinv_0_lt_compat.
  assert (LM : outer_edges d = (-1 / s, 1 / 2 / s)).
  { unfold outer_edges, d, lmin, lmax. rewrite (Rmin_left (-1 / s) (1 / 2 / s)) by (unfold Rdiv; lra). rewrite (Rmin_left (-1 / s) (1 / 2 / s)) by (unfold Rdiv; lra). rewrite (Rmin_left (-1 / s) 0) by (unfold Rdiv; lra).
    rewrite (Rmax_right (-1 / s) (1 / 2 / s)) by (unfold Rdiv; lra). rewrite (Rmax_left (1 / 2 / s) (1 / 2 / s)) by lra. rewrite (Rmax_left (1 / 2 / s) 0) by (unfold Rdiv; lra).
    destruct (Reqb_spec (-1 / s) (1 / 2 / s)); [unfold Rdiv in *; lra | reflexivity]. }
  assert (NL : numbers (lag_difference true 2 point2 1)) by (apply (difference_numbers true 2); auto).
  destruct (distribution_hist 2 _ NL) as [data [edges [xs [ys [E [LE [IE [LX [LY [RG [XS H]]]]]]]]]]]; [lia |].
  rewrite E. exists data, (xs, ys), (nth 0 xs 0), (nth 0 ys NaN). split; [exact S |]. split; [reflexivity |].
  assert (D : data = (let s := sqrt (3 / 8) in [[Fin (-1 / s); Fin (1 / 2 / s)]; [Fin (1 / 2 / s); Fin 0]])).
  { unfold distribution in E. cbv zeta in E. rewrite <- point2_std, <- point2_diff. destruct (counts_edges _ 2) as [[h e]|]; cbn [bind] in E; [| discriminate]. now inversion E. }
  assert (FD : fins (concat data) = d) by (rewrite D; reflexivity).
  assert (EX : bin_edges d (NumBins 2) = Ok [-1 / s + 0 * ((1 / 2 / s - -1 / s) / 2); -1 / s + 1 * ((1 / 2 / s - -1 / s) / 2); -1 / s + 2 * ((1 / 2 / s - -1 / s) / 2)]).
  { unfold bin_edges. rewrite LM. cbn [tab1 seq map Nat.add]. replace (INR 2) with 2 by (cbn; lra). unfold tab1. cbn [seq map INR]. do 4 f_equal. }
  (* the first bin holds -1/s only *)
  assert (ED : xs = mid [-1 / s + 0 * ((1 / 2 / s - -1 / s) / 2); -1 / s + 1 * ((1 / 2 / s - -1 / s) / 2); -1 / s + 2 * ((1 / 2 / s - -1 / s) / 2)] /\
               ys = map (fun h => flog10 (fdiv (Fin h) (Fin (lsum (counts d [-1 / s + 0 * ((1 / 2 / s - -1 / s) / 2); -1 / s + 1 * ((1 / 2 / s - -1 / s) / 2); -1 / s + 2 * ((1 / 2 / s - -1 / s) / 2)]))))) (counts d [-1 / s + 0 * ((1 / 2 / s - -1 / s) / 2); -1 / s + 1 * ((1 / 2 / s - -1 / s) / 2); -1 / s + 2 * ((1 / 2 / s - -1 / s) / 2)])).
  { unfold distribution in E. cbv zeta in E. rewrite filter_nonnan in E by now apply numbers_std. unfold counts_edges in E. rewrite all_fin, fins_map_Fin in E.
    assert (D' : standardize2 (lag_difference true 2 point2 1) = data) by (rewrite D, point2_diff; apply point2_std). rewrite D', FD, EX in E. cbn [bind] in E. inversion E. split; reflexivity. }
  destruct ED as [EDX EDY].
  split.
  - apply fit_points_clipped. split.
    + cbn [fst snd]. rewrite <- (combine_nth xs ys 0 0 NaN) by lia. apply nth_In. rewrite combine_length. lia.
    + rewrite FD in H. destruct (H ltac:(discriminate) 0%nat ltac:(lia)) as [_ H1]. clear H.
      assert (C : nth 0 (counts d [-1 / s + 0 * ((1 / 2 / s - -1 / s) / 2); -1 / s + 1 * ((1 / 2 / s - -1 / s) / 2); -1 / s + 2 * ((1 / 2 / s - -1 / s) / 2)]) 0 = 1).
      { rewrite counts_nth by (cbn; lia). unfold cum_n. cbn [length Nat.eqb nth]. unfold count_lt, d. cbn [filter].
        destruct (Rltb_spec (-1 / s) (-1 / s + 1 * ((1 / 2 / s - -1 / s) / 2))); [| unfold Rdiv in *; lra].
        destruct (Rltb_spec (1 / 2 / s) (-1 / s + 1 * ((1 / 2 / s - -1 / s) / 2))); [unfold Rdiv in *; lra |].
        destruct (Rltb_spec 0 (-1 / s + 1 * ((1 / 2 / s - -1 / s) / 2))); [unfold Rdiv in *; lra |].
        destruct (Rltb_spec (-1 / s) (-1 / s + 0 * ((1 / 2 / s - -1 / s) / 2))); [unfold Rdiv in *; lra |].
        destruct (Rltb_spec (1 / 2 / s) (-1 / s + 0 * ((1 / 2 / s - -1 / s) / 2))); [unfold Rdiv in *; lra |].
        destruct (Rltb_spec 0 (-1 / s + 0 * ((1 / 2 / s - -1 / s) / 2))); [unfold Rdiv in *; lra |]. cbn. lra. }
      assert (T : lsum (counts d [-1 / s + 0 * ((1 / 2 / s - -1 / s) / 2); -1 / s + 1 * ((1 / 2 / s - -1 / s) / 2); -1 / s + 2 * ((1 / 2 / s - -1 / s) / 2)]) = 4).
      { rewrite counts_sum by (cbn; lia). cbn [length nth Nat.sub].
        rewrite count_le_all. 2:{ intros x [<-|[<-|[<-|[<-|[]]]]]; unfold Rdiv; lra. }
        rewrite count_lt_none. 2:{ intros x [<-|[<-|[<-|[<-|[]]]]]; unfold Rdiv; lra. } cbn. lra. }
      rewrite EDY. rewrite (nth_indep _ NaN (flog10 (fdiv (Fin 0) (Fin 4)))) by (rewrite map_length, counts_length; cbn; lia). rewrite T.
      rewrite (map_nth (fun h => flog10 (fdiv (Fin h) (Fin 4)))), C. unfold fdiv. destruct (Reqb_spec 4 0); [lra |]. unfold flog10. destruct (Rltb_spec 0 (1 / 4)); [| lra]. eexists. split; [reflexivity |].
      pose proof ln10_pos as P. unfold Rdiv at 2. rewrite Rmult_1_l, ln_Rinv by lra. assert (L4 : 0 < ln 4 < ln 10) by (split; [rewrite <- ln_1; apply ln_increasing; lra | apply ln_increasing; lra]).
      unfold Rdiv. rewrite Ropp_mult_distr_l_reverse, Rabs_Ropp. rewrite Rabs_right.
      * apply (Rmult_lt_reg_r (ln 10)); [exact P |]. rewrite Rmult_assoc, Rinv_l by lra. lra.
      * apply Rle_ge, Rmult_le_pos; [lra | left; now apply Rinv_0_lt_compat].
  - rewrite EDX. unfold mid. cbn [length Nat.sub]. rewrite tab1_nth by lia. cbn [nth].
    replace ((-1 / s + 0 * ((1 / 2 / s - -1 / s) / 2) + (-1 / s + 1 * ((1 / 2 / s - -1 / s) / 2))) / 2) with (- (5 / 8 / s)) by (field; lra). rewrite Rabs_Ropp, Rabs_right by (unfold Rdiv; lra).
    apply (Rmult_lt_reg_r s); [exact Q |]. unfold Rdiv. rewrite !Rmult_assoc, Rinv_l by lra. nra.
Qed.

(** ** the stored chi-square *)
Lemma fit_one_value cf sc dist params : fit_points sc dist <> [] ->
  let '(loga, w, q) := params in 1 < q -> 0 < w -> (forall l p0 n, cf l p0 n = Ok params) ->
  exists c f, fit_one cf sc dist = Ok (params, Fin c) /\ (forall x, tsallis_function (Fin x) loga w q = Fin (f x)) /\
    c = lsum (map (fun p => (exp (f (fst p)) - exp (match snd p with Fin r => r | _ => 0 end)) ^ 2 / exp (match snd p with Fin r => r | _ => 0 end)) (fit_points sc dist)).
Proof.
  intros NE. destruct params as [[loga w] q]. intros Q W CF. unfold fit_one. cbv zeta.
  set (g := fun p : R * fl => (fst p, match snd p with Fin r => r | _ => 0 end)).
  destruct (tsallis_even_peaked loga w q Q W) as [f [F _]].
  destruct (map g (fit_points sc dist)) as [|[x0 y0] rest] eqn:M; [destruct (fit_points sc dist); [contradiction | discriminate] |].
  rewrite CF. cbn [bind]. rewrite <- M.
  exists (lsum (map (fun p => (exp (f (fst p)) - exp (match snd p with Fin r => r | _ => 0 end)) ^ 2 / exp (match snd p with Fin r => r | _ => 0 end)) (fit_points sc dist))), f.
  split; [| split; [exact F | reflexivity]]. rewrite <- fsum_Fin. do 2 f_equal. f_equal. rewrite !map_map. apply map_ext. intros [x y]. cbn [g fst snd]. rewrite F. reflexivity.
Qed.
Theorem chisq_zero cf sc dist loga w q : fit_points sc dist <> [] -> 1 < q -> 0 < w -> (forall l p0 n, cf l p0 n = Ok (loga, w, q)) ->
  exists c, fit_one cf sc dist = Ok ((loga, w, q), Fin c) /\ 0 <= c /\
    (c = 0 <-> forall x y, In (x, y) (fit_points sc dist) -> tsallis_function (Fin x) loga w q = y).
Proof.
  intros NE Q W CF. destruct (fit_one_value cf sc dist (loga, w, q) NE Q W CF) as [c [f [E [F C]]]]. exists c. split; [exact E |].
  set (t := fun p : R * fl => (exp (f (fst p)) - exp (match snd p with Fin r => r | _ => 0 end)) ^ 2 / exp (match snd p with Fin r => r | _ => 0 end)) in *.
  assert (P : forall p, 0 <= t p) by (intros p; unfold t, Rdiv; apply Rmult_le_pos; [apply pow2_ge_0 | left; apply Rinv_0_lt_compat, exp_pos]).
  assert (FN : forall x y, In (x, y) (fit_points sc dist) -> exists v, y = Fin v).
  { intros x y I. destruct sc as [s|]; [apply fit_points_clipped in I; destruct I as [_ [v [-> _]]]; eauto | apply fit_points_all in I; destruct I as [_ I]; destruct y; try discriminate; eauto]. }
  rewrite C. split. { apply lsum_nonneg. intros y Hy. apply in_map_iff in Hy. destruct Hy as [p [<- _]]. apply P. }
  split.
  - intros Z x y I. destruct (FN x y I) as [v ->]. assert (T : t (x, Fin v) = 0).
    { apply (lsum_nonneg_eq0 (map t (fit_points sc dist))); [| exact Z | now apply in_map]. intros y Hy. apply in_map_iff in Hy. destruct Hy as [p [<- _]]. apply P. }
    unfold t in T. cbn [fst snd] in T. rewrite F. f_equal. apply exp_inv. assert (X : (exp (f x) - exp v) ^ 2 = 0).
    { apply (Rmult_eq_reg_r (/ exp v)); [unfold Rdiv in T; rewrite T; ring | apply Rinv_neq_0_compat, Rgt_not_eq, exp_pos]. }
    rewrite <- Rsqr_pow2 in X. apply Rsqr_0_uniq in X. lra.
  - intros H. transitivity (lsum (map (fun _ : R * fl => 0) (fit_points sc dist))); [| rewrite lsum_map_const; ring]. f_equal. apply map_ext_in. intros [x y] I. destruct (FN x y I) as [v ->]. specialize (H x (Fin v) I). rewrite F in H. inversion H. unfold t. cbn [fst snd]. unfold Rdiv. rewrite Rminus_diag_eq by reflexivity. ring.
Qed.

Lemma ln_mono a b : 0 < a -> a <= b -> ln a <= ln b.
Proof. intros A [L | ->]; [left; now apply ln_increasing | lra]. Qed.
Lemma f210 x : tsallis_function (Fin x) 0 1 2 = Fin (- (ln (1 + x * x) / ln 10)).
Proof. rewrite tsallis_value by lra. f_equal. pose proof ln10_pos. replace (1 + (2 - 1) * (x * x / 1)) with (1 + x * x) by field. field. lra. Qed.
Theorem chisq_refuted : exists cf pts c f, length pts = 4%nat /\ fit_points (Some 5) (map fst pts, map Fin (map snd pts)) = map (fun p => (fst p, Fin (snd p))) pts /\
  fit_one cf (Some 5) (map fst pts, map Fin (map snd pts)) = Ok ((0, 1, 2), Fin c) /\ (forall x, tsallis_function (Fin x) 0 1 2 = Fin (f x)) /\ c < reduced_chisq f pts.
Proof.
  set (f := fun x => - (ln (1 + x * x) / ln 10)). pose proof ln10_pos as P.
  set (pts := [(0, -1); (1, f 1); (2, f 2); (3, f 3)]).
  assert (B : forall x, 0 <= x <= 3 -> -5 < f x < 5).
  { intros x X. unfold f. assert (Y : 1 <= 1 + x * x <= 10) by nra. assert (L : 0 <= ln (1 + x * x) <= ln 10).
    { split; [apply Rle_trans with (ln 1); [rewrite ln_1; lra |] |]; apply ln_mono; lra. }
    assert (0 <= ln (1 + x * x) / ln 10 <= 1); [| lra]. split; [apply Rmult_le_pos; [lra | left; now apply Rinv_0_lt_compat] |]. apply (Rmult_le_reg_r (ln 10)); [lra |]. unfold Rdiv. rewrite Rmult_assoc, Rinv_l by lra. lra. }
  assert (FP : fit_points (Some 5) (map fst pts, map Fin (map snd pts)) = map (fun p => (fst p, Fin (snd p))) pts).
  { unfold fit_points, clip_to_sigma, pts. cbn [fst snd map combine filter]. pose proof (B 1 ltac:(lra)). pose proof (B 2 ltac:(lra)). pose proof (B 3 ltac:(lra)).
    cbn [fltb is_fin]. destruct (Rltb_spec (-1) 5); [| lra]. destruct (Rltb_spec (- (5)) (-1)); [| lra].
    destruct (Rltb_spec (f 1) 5); [| lra]. destruct (Rltb_spec (- (5)) (f 1)); [| lra]. destruct (Rltb_spec (f 2) 5); [| lra]. destruct (Rltb_spec (- (5)) (f 2)); [| lra]. destruct (Rltb_spec (f 3) 5); [| lra]. destruct (Rltb_spec (- (5)) (f 3)); [| lra]. reflexivity. }
  pose (cf := fun (_ : list (R * R)) (_ : R * R * R) (_ : nat) => @Ok (R * R * R) (0, 1, 2)).
  assert (NE : fit_points (Some 5) (map fst pts, map Fin (map snd pts)) <> []) by (rewrite FP; discriminate).
  destruct (fit_one_value cf (Some 5) _ (0, 1, 2) NE ltac:(lra) ltac:(lra) (fun _ _ _ => eq_refl)) as [c [f' [E [F C]]]].
  exists cf, pts, c, f. split; [reflexivity |]. split; [exact FP |]. split; [exact E |]. split; [intros; apply f210 |].
  assert (FE : forall x, f' x = f x) by (intros x; specialize (F x); rewrite f210 in F; unfold f; congruence).
  rewrite FP in C. rewrite map_map in C. unfold pts in C. cbn [map fst snd] in C. rewrite !FE in C. unfold lsum in C. cbn [fold_right] in C.
  unfold reduced_chisq, pts. cbn [map fst snd length]. unfold lsum. cbn [fold_right].
  assert (F0 : f 0 = 0) by (unfold f; replace (1 + 0 * 0) with 1 by ring; rewrite ln_1; field; lra). rewrite F0 in *.
  rewrite exp_0 in C. replace (Rpower 10 0) with 1 by (symmetry; apply Rpower_O; lra). replace (Rpower 10 (-1)) with (/ 10) by (replace (-1) with (Ropp 1) by lra; rewrite Rpower_Ropp, Rpower_1; lra).
  assert (Z : forall a b, 0 < b -> a = b -> (a - b) ^ 2 / b = 0) by (intros a b Hb ->; field; lra).
  rewrite !(Z (exp _) (exp _)) in C by (try apply exp_pos; reflexivity).
  rewrite !(Z (Rpower 10 _) (Rpower 10 _)) by (try apply exp_pos; reflexivity).
  replace (INR 4 - 3) with 1 by (cbn; lra). rewrite C. clear - P. assert (E1 : 0 < exp (-1) < 1) by (split; [apply exp_pos | rewrite <- exp_0; apply exp_increasing; lra]).
  assert (E3 : / 3 <= exp (-1)). { replace (-1) with (Ropp 1) by lra. rewrite exp_Ropp. apply Rinv_le_contravar; [apply exp_pos | apply exp_le_3]. }
  set (e := exp (-1)) in *. replace ((1 - / 10) ^ 2 / / 10) with (81 / 10) by field. apply (Rle_lt_trans _ (3 + 0)); [| lra]. rewrite !Rplus_0_r.
  apply (Rmult_le_reg_r e); [lra |]. unfold Rdiv. rewrite Rmult_assoc, Rinv_l by lra. nra.
Qed.

(** The first guess *)
Lemma fit_start sigma_clip dist : fit_points sigma_clip dist <> [] -> (forall p, In p (fit_points sigma_clip dist) -> is_fin (snd p) = true) ->
  exists l p0 n top, is_max top (fins (map snd (fit_points sigma_clip dist))) /\
    (let '(loga, w, q) := p0 in 0 < w /\ 1 < q /\ tsallis_function (Fin 0) loga w q = Fin top) /\
    forall curve_fit, match curve_fit l p0 n with
                      | Err x => fit_one curve_fit sigma_clip dist = Err x
                      | Ok p => exists c, fit_one curve_fit sigma_clip dist = Ok (p, c)
                      end.
Proof.
  intros NE F. unfold fit_one. set (pts := fit_points sigma_clip dist) in *. set (l := map (fun p => (fst p, match snd p with Fin r => r | _ => 0 end)) pts).
  assert (E : fins (map snd pts) = map snd l).
  { unfold l. clear -F. induction pts as [|[x y] r IH]; [reflexivity|]. cbn [map snd]. pose proof (F (x, y) (or_introl eq_refl)) as Y. cbn in Y. destruct y; try discriminate.
    match goal with |- fins (Fin ?a :: ?t) = _ => transitivity (a :: fins t); [reflexivity|] end. cbn [map snd]. f_equal. apply IH. intros p P. apply F. now right. }
  rewrite E. assert (NL : l <> []) by (unfold l; destruct pts; [now contradiction NE|discriminate]). clearbody l. destruct l as [|[x0 y0] r]; [now contradiction NL|].
  exists ((x0, y0) :: r), (- lmax y0 (map snd r), 1, 2), (100 * length (fst dist))%nat, (lmax y0 (map snd r)). split.
  - cbn [map snd]. split; [apply lmax_in|]. destruct (lmax_ge y0 (map snd r)) as [A B]. intros y [<-|H]; [exact A|now apply B].
  - split; [split; [lra|]; split; [lra|]; rewrite tsallis_peak by lra; f_equal; field|]. intros cf. destruct (cf _ _ _) as [[[a w] q]|x]; cbn [bind]; [eexists; reflexivity|reflexivity].
Qed.
