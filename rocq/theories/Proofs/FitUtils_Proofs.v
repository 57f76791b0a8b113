(** Proofs about Model/FitUtils.v and Model/FitState.v. *)
From Coq Require Import Reals List Arith Lia Lra Bool.
From Verif Require Import Lib.PyBase Lib.RSum Lib.Fl Spec.Blank Spec.Segmented Model.Units Model.LmSeg Model.FitUtils Model.FitState Proofs.Fl_Proofs Proofs.LmSeg_Proofs.
Import ListNotations.
Local Open Scope R_scope.

(** *** Clipping *)
Lemma clip_within arr low high i : (i < length arr)%nat ->
  (nth i (clip_func arr low high) false = true <-> within low high (nth i arr NaN)).
Proof.
  intros H. unfold clip_func. rewrite (nth_indep _ false (fltb low NaN && fleb NaN high)) by (now rewrite map_length).
  rewrite (map_nth (fun v => fltb low v && fleb v high)). rewrite Bool.andb_true_iff. generalize (nth i arr NaN). intros v.
  destruct low, v, high; cbn; repeat match goal with |- context [Rltb ?a ?b] => destruct (Rltb_spec a b) | |- context [Rleb ?a ?b] => destruct (Rleb_spec a b) end; intuition (try discriminate; try lra).
Qed.
Lemma clip_length arr low high : length (clip_func arr low high) = length arr.
Proof. apply map_length. Qed.
Lemma select_in {A} (mask : list bool) (l : list A) (d : A) v : length mask = length l -> (In v (select mask l) <-> exists i, (i < length l)%nat /\ nth i mask false = true /\ nth i l d = v).
Proof.
  revert l. induction mask as [|b m IH]; intros [|x l] L; try discriminate.
  - cbn. split; [tauto|]. intros (i&Hi&_). cbn in Hi. lia.
  - cbn in L. cbn [select]. specialize (IH l ltac:(lia)). split.
    + intros H. assert (C : (b = true /\ v = x) \/ In v (select m l)) by (destruct b; [destruct H; auto|auto]). destruct C as [[-> ->]|C].
      * exists 0%nat. cbn. repeat split; lia.
      * apply IH in C. destruct C as (i&Hi&A1&A2). exists (S i). cbn. repeat split; [lia|auto|auto].
    + intros ([|i]&Hi&A1&A2); cbn in *.
      * subst. now left.
      * assert (In v (select m l)) by (apply IH; exists i; repeat split; [lia|auto|auto]). destruct b; [now right|auto].
Qed.

Lemma limits_spec xlow xhigh : check_fit_limits LNone LNone = Ok ([None; None], [None; None]) /\
  (forall l, length l <> 2%nat -> check_limit (LArrayQ l) = Err ValueError /\ check_limit (LSeq l) = Err ValueError) /\
  (forall a b, check_limit (LArrayQ [a; b]) = Ok [Some a; Some b] /\ check_limit (LSeq [a; b]) = Ok [Some a; Some b]) /\
  (forall a, check_limit (LScalarQ a) = Ok [Some a; Some a]) /\
  (forall lo hi, check_fit_limits xlow xhigh = Ok (lo, hi) -> length lo = 2%nat /\ length hi = 2%nat).
Proof.
  split; [reflexivity|]. split.
  - intros l H. cbn. apply Nat.eqb_neq in H. rewrite H. auto.
  - split; [split; reflexivity|]. split; [reflexivity|].
    assert (G : forall x r, check_limit x = Ok r -> length r = 2%nat).
    { intros [|v|l|l|v] r; cbn; try discriminate; try (intros E; inversion E; reflexivity); destruct (Nat.eqb_spec (length l) 2); try discriminate; intros E; inversion E; rewrite map_length; auto. }
    intros lo hi H. unfold check_fit_limits in H. apply bind_ok in H. destruct H as (a&Ha&H). apply bind_ok in H. destruct H as (b&Hb&H). injection H as <- <-. split; eapply G; eauto.
Qed.
Lemma number_limit : exists v, check_limit (LNumber v) <> Ok [Some v; Some v] /\ check_limit (LNumber v) <> Err ValueError.
Proof. exists 0. split; discriminate. Qed.

(** *** Residual bootstrap *)
Lemma resample_values y res draw r : resample y res draw = Ok r -> length y = length res ->
  length r = length y /\ forall k, (k < length y)%nat -> exists i, (i < length res - 1)%nat /\ nth k r 0 = nth k y 0 + nth i res 0.
Proof.
  unfold resample. destruct (Nat.eqb_spec (length res - 1) 0) as [|N]; [discriminate|]. intros E L. injection E as <-. split.
  - rewrite map2_length, map_length, seq_length. lia.
  - intros k Hk. exists (draw k mod (length res - 1))%nat. split; [apply Nat.mod_upper_bound; auto|].
    rewrite (map2_nth Rplus _ _ k 0 0 0) by (rewrite ?map_length, ?seq_length; lia). f_equal.
    rewrite (nth_indep _ 0 (nth (draw 0%nat mod (length res - 1)) res 0)) by (rewrite map_length, seq_length; lia).
    rewrite (map_nth (fun k => nth (draw k mod (length res - 1)) res 0)). rewrite seq_nth by lia. reflexivity.
Qed.
(** The last residual is never drawn: it can be changed without any effect. *)
Lemma last_never_drawn y res a b draw : length y = S (length res) -> resample y (res ++ [a]) draw = resample y (res ++ [b]) draw.
Proof.
  intros L. unfold resample. rewrite !app_length. cbn [length]. rewrite Nat.add_sub. destruct (Nat.eqb_spec (length res) 0) as [|N]; [reflexivity|].
  apply (f_equal Ok). f_equal. apply map_ext. intros k. rewrite !app_nth1; [reflexivity|apply Nat.mod_upper_bound; auto|apply Nat.mod_upper_bound; auto].
Qed.
Lemma bootstrap_last refit y res a b draw nboot npar : length y = S (length res) ->
  residual_bootstrap refit y (res ++ [a]) draw nboot npar = residual_bootstrap refit y (res ++ [b]) draw nboot npar.
Proof.
  intros L. unfold residual_bootstrap. replace (resample_all y (res ++ [a]) draw (seq 0 nboot)) with (resample_all y (res ++ [b]) draw (seq 0 nboot)); [reflexivity|].
  induction (seq 0 nboot) as [|i l IH]; [reflexivity|]. cbn [resample_all]. now rewrite (last_never_drawn y res a b (draw i)), IH.
Qed.
(** All the others can be drawn, at any place. *)
Lemma others_drawn y res k i : (k < length y)%nat -> length y = length res -> (i < length res - 1)%nat ->
  exists draw r, resample y res draw = Ok r /\ nth k r 0 = nth k y 0 + nth i res 0.
Proof.
  intros Hk L Hi. assert (N : (length res - 1 <> 0)%nat) by lia. unfold resample. apply Nat.eqb_neq in N. rewrite N. exists (fun _ => i). eexists. split; [reflexivity|].
  rewrite (map2_nth Rplus _ _ k 0 0 0) by (rewrite ?map_length, ?seq_length; lia). f_equal.
  rewrite (nth_indep _ 0 (nth (i mod (length res - 1)) res 0)) by (rewrite map_length, seq_length; lia).
  rewrite (map_nth (fun _ : nat => nth (i mod (length res - 1)) res 0) _ 0%nat). now rewrite Nat.mod_small by lia.
Qed.
Lemma bootstrap_short refit y res draw nboot npar : (length res <= 1)%nat -> (0 < nboot)%nat -> residual_bootstrap refit y res draw nboot npar = Err ValueError.
Proof.
  intros L H. unfold residual_bootstrap. destruct nboot; [lia|]. cbn [seq resample_all]. unfold resample. replace (length res - 1)%nat with 0%nat by lia. reflexivity.
Qed.
(** The resampled data scatter around the data instead of the fit: with fitted values f,
    data f + e, resampling reproduces the fit plus residuals only if e = 0. *)
Lemma bootstrap_about fit res draw r : length fit = length res -> resample (map2 Rplus fit res) res draw = Ok r ->
  forall k, (k < length fit)%nat -> exists i, (i < length res - 1)%nat /\ nth k r 0 = nth k fit 0 + nth k res 0 + nth i res 0.
Proof.
  intros L E k Hk. assert (L2 : length (map2 Rplus fit res) = length fit) by (rewrite map2_length; lia).
  apply resample_values in E; [|lia]. destruct E as [_ E]. destruct (E k) as (i&Hi&H); [lia|]. exists i. split; [auto|]. rewrite H. now rewrite (map2_nth Rplus _ _ k 0 0 0) by lia.
Qed.
Lemma bootstrap_refuted : exists fit res, length fit = length res /\ (2 <= length res)%nat /\
  forall draw r, resample (map2 Rplus fit res) res draw = Ok r -> exists k, (k < length fit)%nat /\ ~ exists i, (i < length res)%nat /\ nth k r 0 = nth k fit 0 + nth i res 0.
Proof.
  exists [0; 0], [1; 2]. split; [reflexivity|]. split; [cbn; lia|]. intros draw r E. pose proof (bootstrap_about [0; 0] [1; 2] draw r eq_refl E) as E1. exists 1%nat. split; [cbn; lia|].
  destruct (E1 1%nat) as (i&Hi&H); [cbn; lia|]. cbn in Hi. assert (i = 0%nat) by lia. subst i. cbn [nth] in H. rewrite H. intros ([|[|i]]&Hi'&F); cbn in *; try lra; lia.
Qed.
Lemma bootstrap_nonneg refit y res draw nboot npar r : residual_bootstrap refit y res draw nboot npar = Ok r -> length r = npar /\ forall v, In v r -> 0 <= v.
Proof.
  unfold residual_bootstrap. intros H. apply bind_ok in H. destruct H as (ys&_&H). injection H as <-. rewrite map_length, seq_length. split; [reflexivity|]. intros v Hv. apply in_map_iff in Hv. destruct Hv as (p&<-&_). apply sqrt_pos.
Qed.

(** *** logprob *)
Lemma logprob_value theta b pts : 0 <= theta < PI / 2 -> (forall x y ex ey, In (x, y, (ex, ey)) pts -> 0 < ex /\ 0 < ey) ->
  logprob theta b pts = Some (- (1 / 2) * line_chi2 theta b pts - 1 / 2 * lsum (map (fun p => ln ((cos theta) ^ 2 * (snd (snd p) ^ 2 + (tan theta) ^ 2 * fst (snd p) ^ 2))) pts)).
Proof.
  intros T P. assert (C : 0 < cos theta) by (apply cos_gt_0; lra). unfold logprob.
  destruct (Rltb_spec (PI / 4) (Rabs (theta - PI / 4))) as [Q|Q].
  { exfalso. revert Q. unfold Rabs. destruct (Rcase_abs (theta - PI / 4)); lra. }
  apply f_equal. f_equal.
  - apply f_equal. unfold line_chi2. apply lsum_map_ext. intros [[x y] [ex ey]] H. destruct (P _ _ _ _ H) as [Hx Hy]. unfold tan. field.
    split; [lra|]. assert (0 < (ey * cos theta) ^ 2) by (apply pow_lt; now apply Rmult_lt_0_compat). assert (0 <= (sin theta * ex) ^ 2) by apply pow2_ge_0. lra.
  - apply f_equal. apply lsum_map_ext. intros [[x y] [ex ey]] H. cbn [fst snd]. apply f_equal. unfold tan. field. lra.
Qed.
Lemma logprob_outside theta b pts : theta < 0 \/ PI / 2 < theta -> logprob theta b pts = None.
Proof.
  intros H. unfold logprob. destruct (Rltb_spec (PI / 4) (Rabs (theta - PI / 4))) as [Q|Q]; [reflexivity|]. exfalso. apply Q. unfold Rabs. destruct (Rcase_abs (theta - PI / 4)); lra.
Qed.

(** *** Constructor of Lm_Seg *)
Lemma existsb_nan_fin x : existsb is_nan (map Fin x) = false.
Proof. induction x; cbn; auto. Qed.
Lemma fins_Fin' x : fins (map Fin x) = x. Proof. induction x as [|v x IH]; [reflexivity|]. cbn [map]. rewrite fins_cons_Fin. now rewrite IH. Qed.
Lemma blank_Fin' r : Forall blankable (map Fin r). Proof. induction r; constructor; cbn; auto. Qed.
Lemma init_range x y b w s : lm_seg_init (map Fin x) y (Fin b) w = Ok s -> exists u v, In u x /\ In v x /\ u <= b <= v.
Proof.
  unfold lm_seg_init. intros H. apply bind_ok in H. destruct H as (mx&Hmx&H). apply bind_ok in H. destruct H as (mn&Hmn&H).
  destruct x as [|a x]; [discriminate|]. unfold np_max, np_min in *. cbn [map] in Hmx, Hmn. change (Fin a :: map Fin x) with (map Fin (a :: x)) in *. rewrite existsb_nan_fin in Hmx, Hmn.
  destruct (nanmax_spec (map Fin (a :: x))) as (M&EM&PM&_); [apply blank_Fin'|rewrite fins_Fin'; discriminate|]. destruct (nanmin_spec (map Fin (a :: x))) as (m&Em&Pm&_); [apply blank_Fin'|rewrite fins_Fin'; discriminate|].
  rewrite EM in Hmx. rewrite Em in Hmn. injection Hmx as <-. injection Hmn as <-. rewrite fins_Fin' in PM, Pm.
  cbn [fltb] in H. destruct (Rltb_spec M b); [discriminate|]. destruct (Rltb_spec b m); [discriminate|]. exists m, M. repeat split; auto; lra.
Qed.
Lemma init_weights_blank x y b w s solver constant n tol h e0 fuel : lm_seg_init x y (Fin b) (Some w) = Ok s -> length y = length x ->
  (exists i, (i < length x)%nat /\ (is_fin (nth i x NaN) = false \/ is_fin (nth i y NaN) = false)) ->
  fit_model s solver constant n tol h e0 fuel = Some (Err ValueError).
Proof.
  unfold lm_seg_init. intros H L (i&Hi&B). apply bind_ok in H. destruct H as (mx&_&H). apply bind_ok in H. destruct H as (mn&_&H).
  destruct (_ || _); [discriminate|]. apply bind_ok in H. destruct H as (w'&Hw&H). destruct (Nat.eqb_spec (length x) (length w)) as [Lw|]; [|discriminate]. cbn [negb] in Hw.
  destruct (forallb is_fin w) eqn:Fw; [|discriminate]. injection Hw as <-. set (good := filter _ _) in H. destruct (Nat.leb (length good) 3); [discriminate|]. injection H as <-.
  assert (Lf : length (fins w) = length w). { clear -Fw. induction w as [|v w IH]; [reflexivity|]. cbn in Fw. apply andb_true_iff in Fw. destruct Fw as [A B]. destruct v; try discriminate. rewrite fins_cons_Fin. cbn [length]. now rewrite IH. }
  assert (Lg : (length good < length x)%nat).
  { subst good. clear -Hi B L. revert y i Hi B L. induction x as [|v x IH]; intros y i Hi B L; [cbn in Hi; lia|]. destruct y as [|u y]; [discriminate|]. cbn [combine filter fst snd].
    assert (W : forall x y : list fl, (length (filter (fun p => is_fin (fst p) && is_fin (snd p)) (combine x y)) <= length x)%nat).
    { clear. induction x as [|v x IH]; intros [|u y]; cbn; try lia. specialize (IH y). destruct (_ && _); cbn; lia. }
    destruct i as [|i].
    - cbn [nth] in B. replace (is_fin v && is_fin u) with false; [specialize (W x y); cbn; lia|]. destruct B as [-> | ->]; [reflexivity|now rewrite andb_false_r].
    - cbn in Hi, L, B. specialize (IH y i ltac:(lia) B ltac:(lia)). destruct (_ && _); cbn; lia. }
  unfold fit_model, lm_fit. cbn [seg_weights seg_y]. replace (Nat.eqb (length (fins w)) (length (fins (map snd good)))) with false; [reflexivity|]. symmetry. apply Nat.eqb_neq.
  assert (length (fins (map snd good)) <= length good)%nat; [|lia]. clear. induction good as [|[p q] l IH]; [cbn; lia|]. cbn [map snd]. unfold fins in *. cbn [flat_map]. rewrite app_length. cbn [length]. destruct q; cbn [length]; lia.
Qed.

(** *** State of the fit *)
Lemma step_consistent resets m boot lin st b : consistent (fit_step resets m boot lin st b).
Proof.
  unfold consistent, fit_step. destruct b as [[brk be sl er bo below|]|]; [|cbn; eexists; reflexivity|cbn; eexists; reflexivity].
  destruct (Nat.ltb below m); cbn; [eexists; reflexivity|]. do 3 eexists. split; reflexivity.
Qed.
Lemma history_consistent resets m l : forall st, consistent st -> consistent (fit_history resets m st l).
Proof. induction l as [|[[bo lin] b] l IH]; intros st H; cbn; auto. apply IH. apply step_consistent. Qed.

(** Without a break the error of an earlier one is still there. *)
Lemma stale_error : exists l, let st := fit_history false 3 unfitted l in t_brk st = Some None /\ exists e, read_brk_err st = Ok (Some e).
Proof. exists [(false, (Fin 0, Fin 0), Some (Broken 0 (Fin 1) (Fin 1, Fin 2) (Fin 0, Fin 0) [] 3)); (false, (Fin 0, Fin 0), None)]. cbn. split; [reflexivity|]. eauto. Qed.
Lemma stale_error_pspec : exists l, let st := fit_history true 3 unfitted l in t_brk st = Some None /\ exists e, read_brk_err st = Ok (Some e).
Proof. exists [(false, (Fin 0, Fin 0), Some (Broken 0 (Fin 1) (Fin 1, Fin 2) (Fin 0, Fin 0) [] 3)); (false, (Fin 0, Fin 0), Some Unbroken)]. cbn. split; [reflexivity|]. eauto. Qed.
Lemma missing_error resets m lin boot : read_brk_err (fit_step resets m boot lin unfitted (Some Unbroken)) = Err AttributeError.
Proof. reflexivity. Qed.
(** A fit without a requested break after the reset, or one with a break kept, has an
    error that goes with it. *)
Lemma pspec_error m boot lin st b : match b with None => True | Some (Broken _ _ _ _ _ below) => (m <= below)%nat | _ => False end ->
  exists e, read_brk_err (fit_step true m boot lin st b) = Ok e /\ (e = None <-> t_brk (fit_step true m boot lin st b) = Some None).
Proof.
  unfold fit_step. destruct b as [[brk be sl er bo below|]|]; [|tauto|].
  - intros H. rewrite (proj2 (Nat.ltb_ge below m) H). cbn. eexists. split; [reflexivity|]. split; discriminate.
  - intros _. exists None. cbn. tauto.
Qed.

(** Error of the second slope: with bootstrap it is that of the difference of slopes. *)
Lemma inner_4 {A} (a b c d e : A) : inner [a; b; c; d; e] = [b; c; d]. Proof. reflexivity. Qed.
Lemma boot_errors resets m lin st brk be sl er e0 e1 e2 e3 below : (m <= below)%nat ->
  t_slope_err (fit_step resets m true lin st (Some (Broken brk be sl er [e0; e1; e2; e3] below))) = Some [e1; e2].
Proof. intros H. unfold fit_step. now rewrite (proj2 (Nat.ltb_ge below m) H). Qed.
(** ... and that of the break is that of the offset term. *)
Lemma boot_brk_error resets m lin st brk be sl er e0 e1 e2 e3 below : (m <= below)%nat ->
  t_brk_err (fit_step resets m true lin st (Some (Broken brk be sl er [e0; e1; e2; Fin e3] below))) = Some (Some (Fin (ln 10 * exp (brk * ln 10) * e3))).
Proof. intros H. unfold fit_step. now rewrite (proj2 (Nat.ltb_ge below m) H). Qed.

(** *** VCS break search *)
Lemma vcs_try_found try l b : vcs_try try l = Some b -> In b l /\ try b = true.
Proof. induction l as [|c l IH]; cbn; [discriminate|]. destruct (try c) eqn:E; intros H; [injection H as <-; auto|]. apply IH in H. tauto. Qed.
Lemma vcs_try_none try l : vcs_try try l = None <-> forall b, In b l -> try b = false.
Proof.
  induction l as [|c l IH]; cbn; [tauto|]. destruct (try c) eqn:E.
  - split; [discriminate|]. intros H. rewrite (H c (or_introl eq_refl)) in E. discriminate.
  - rewrite IH. split; [intros H b [<-|Hb]; auto|auto].
Qed.
Lemma vcs_found try knots default b : vcs_breaks try knots default true = Ok b -> (In b knots \/ (knots = [] /\ b = default)) /\ (try b = true \/ knots = [b] \/ knots = []).
Proof.
  unfold vcs_breaks. intros H. apply bind_ok in H. destruct H as (c&Hc&H). injection H as ->.
  destruct knots as [|k ks].
  - cbn in Hc. split; [|auto]. right. destruct (try default); injection Hc as <-; auto.
  - destruct (vcs_try try (k :: ks)) as [d|] eqn:E.
    + injection Hc as ->. apply vcs_try_found in E. tauto.
    + destruct ks; [|discriminate]. injection Hc as ->. split; [left; now left|auto].
Qed.
Lemma vcs_none_fails try knots default lb : (2 <= length knots)%nat -> (forall b, In b knots -> try b = false) -> vcs_breaks try knots default lb = Err ValueError.
Proof.
  intros L H. unfold vcs_breaks. destruct knots as [|a [|b ks]]; cbn in L; try lia. rewrite (proj2 (vcs_try_none try (a :: b :: ks)) H). reflexivity.
Qed.
Lemma vcs_log_fails try knots default : (forall b, In b knots -> b < 0) -> knots <> [] -> vcs_breaks try knots default false = Err ValueError.
Proof.
  intros H N. unfold vcs_breaks. destruct knots as [|k ks]; [contradiction|]. destruct (vcs_try try (k :: ks)) as [b|] eqn:E.
  - apply vcs_try_found in E. destruct E as [E _]. apply H in E. cbn [bind]. destruct (Rltb_spec 0 b); [lra|reflexivity].
  - destruct ks; [|reflexivity]. cbn [bind]. specialize (H k (or_introl eq_refl)). destruct (Rltb_spec 0 k); [lra|reflexivity].
Qed.

(** *** Errors of the broken fit *)
(** The bootstrap's second error is no error of the second slope.  A resample gives the
    parameters [a; s; d; o]: intercept, first slope, change of slope, offset. *)
Lemma rstd_pm : rstd [1; -1] = 1.
Proof.
  unfold rstd. cbn [length lsum fold_right map]. replace (_ / INR 2) with 1; [apply sqrt_1|]. cbn. field.
Qed.
Lemma rstd_00 : rstd [0; 0] = 0.
Proof. unfold rstd. cbn [length lsum fold_right map]. replace (_ / INR 2) with 0; [apply sqrt_0|]. cbn. field. Qed.
Lemma boot_slope_refuted : exists fits : list (list R),
  let err p := Fin (rstd (map (fun f => nth p f 0) fits)) in
  forall resets m lin st brk be sl er below, (m <= below)%nat ->
  exists e, t_slope_err (fit_step resets m true lin st (Some (Broken brk be sl er [err 0%nat; err 1%nat; err 2%nat; err 3%nat] below))) = Some [err 1%nat; e] /\
    e <> Fin (rstd (map (fun f => nth 1 f 0 + nth 2 f 0) fits)).
Proof.
  exists [[0; 1; -1; 0]; [0; -1; 1; 0]]. intros err resets m lin st brk be sl er below H. exists (err 2%nat). split; [now apply boot_errors|].
  subst err. cbn [map nth]. intros E. injection E. replace (1 + -1) with 0 by ring. replace (-1 + 1) with 0 by ring. rewrite rstd_00.
  unfold rstd. cbn [length lsum fold_right map]. replace (_ / INR 2) with 1; [rewrite sqrt_1; lra|]. cbn. field.
Qed.
(** ... and its last error is not that of the break: it does not see how far the break
    moved. *)
Lemma boot_brk_refuted : exists fits : list (list R), let err p := Fin (rstd (map (fun f => nth p f 0) fits)) in
  forall resets m lin st brk be sl er below, (m <= below)%nat ->
  t_brk_err (fit_step resets m true lin st (Some (Broken brk be sl er [err 0%nat; err 1%nat; err 2%nat; err 3%nat] below))) = Some (Some (Fin (ln 10 * exp (brk * ln 10) * 0))) /\
  rstd (map (fun f => brk + nth 3 f 0 / nth 2 f 0) fits) <> 0.
Proof.
  exists [[0; 0; 1; 2]; [0; 0; 2; 2]]. intros err resets m lin st brk be sl er below H. split.
  - subst err. cbv beta. rewrite boot_brk_error by auto. apply f_equal, f_equal, f_equal. f_equal. cbn [map nth]. unfold rstd. cbn [length lsum fold_right map].
    replace (_ / INR 2) with 0; [apply sqrt_0|]. cbn. field.
  - cbn [map nth]. unfold rstd. cbn [length lsum fold_right map]. replace (_ / INR 2) with (1 / 4) by (cbn; field). intros E. apply sqrt_eq_0 in E; lra.
Qed.
(** The analytic error leaves out the covariance of the two terms. *)
Lemma slope_err_refuted : exists g v1 v2 c12, 0 <= v1 /\ 0 <= v2 /\ c12 ^ 2 <= v1 * v2 /\
  nth_error (param_errs g) 1 = Some (Fin (sqrt v1)) /\ nth_error (param_errs g) 2 = Some (Fin (sqrt v2)) /\
  exists s e1 e2, get_slopes g = Ok (s, [e1; Fin e2]) /\ e2 <> sqrt (v1 + v2 + 2 * c12).
Proof.
  exists (mk_seg_fit 0 (Fin 0) [Fin 0; Fin 0; Fin 1; Fin 0] [Fin 0; Fin (sqrt 1); Fin (sqrt 1); Fin 0] false), 1, 1, (-1 / 2).
  split; [lra|]. split; [lra|]. split; [lra|]. split; [reflexivity|]. split; [reflexivity|].
  unfold get_slopes, params, param_errs. cbn [g_fail g_params g_errs g_brk g_brk_err app length Nat.sub index nth_error bind].
  unfold fsqr. cbn [fmul fadd fsqrt]. rewrite sqrt_1. destruct (Rltb_spec (1 * 1 + 1 * 1) 0); [lra|]. do 3 eexists. split; [reflexivity|].
  replace (1 * 1 + 1 * 1) with 2 by ring. replace (1 + 1 + 2 * (-1 / 2)) with 1 by field. rewrite sqrt_1. intros E. assert (sqrt 2 * sqrt 2 = 2) by (apply sqrt_sqrt; lra). rewrite E in H. lra.
Qed.

(** *** Unit of the break *)
Lemma wavelet_unit s b : to_pixel s (wavelet_brk b) = Err UnitConversionError.
Proof. reflexivity. Qed.
Lemma deltavar_unit s b : to_pixel s (deltavar_brk b) = Ok (mk_q [b] pix).
Proof. reflexivity. Qed.

(** *** Examples *)
Definition ex_solver (cols : list (list R)) : fit_result :=
  mk_fit (repeat (Fin 1) (length cols)) (repeat (Fin 1) (length cols)) [Fin 1] (repeat (repeat (Fin 1) (length cols)) (length cols)).
Lemma ex_well_formed : well_formed ex_solver.
Proof.
  intros cols. unfold ex_solver. cbn. rewrite !repeat_length. repeat split. intros r H. apply repeat_spec in H. subst. apply repeat_length.
Qed.
Lemma ex_spread : spread [1; 2; 3; 4] /\ splits 2 [1; 2; 3; 4] /\ ~ lowest 2 [1; 2; 3; 4].
Proof.
  split; [exists 1, 2; cbn; repeat split; auto; lra|]. split; [split; [exists 1|exists 3]; cbn; split; auto; lra|]. intros H. specialize (H 1 (or_introl eq_refl)). lra.
Qed.
(** A search that keeps the break: with one column less residual, steps of zero. *)
Definition ex_solver2 (cols : list (list R)) : fit_result :=
  match cols with
  | [_; _; _; _] => mk_fit [Fin 0; Fin 1; Fin 1; Fin 0] [Fin 1; Fin 1; Fin 1; Fin 1] [Fin 0] (repeat (repeat (Fin 1) 4) 4)
  | _ => mk_fit (repeat (Fin 1) (length cols)) (repeat (Fin 1) (length cols)) [Fin 1] (repeat (repeat (Fin 1) (length cols)) (length cols))
  end.
Definition ex_seg := mk_seg [1; 2; 3; 4] [1; 2; 4; 6] 2 None.
Lemma ex_well_formed2 : well_formed ex_solver2.
Proof.
  intros cols. destruct cols as [|a [|b [|c [|d [|e cols]]]]]; cbn; try (repeat split; intros r H; repeat (destruct H as [<-|H]; [reflexivity|]); destruct H).
  rewrite !repeat_length. repeat split. intros r H. repeat (destruct H as [<-|H]; [cbn; now rewrite repeat_length|]). apply repeat_spec in H. subst. cbn. now rewrite repeat_length.
Qed.
Lemma loop_turn s solver constant n tol fuel c c' h : continues tol c = true -> search_step s solver constant n c = Ok (c', false, h) ->
  search_loop s solver constant n tol (S fuel) c = search_loop s solver constant n tol fuel c'.
Proof. intros A B. cbn [search_loop]. now rewrite A, B. Qed.
Lemma loop_done s solver constant n tol fuel c : continues tol c = false -> search_loop s solver constant n tol fuel c = Some (Ok c).
Proof. intros A. destruct fuel; cbn [search_loop]; now rewrite A. Qed.
Lemma ex_step ep dv it ft : search_step ex_seg ex_solver2 true 100 (mk_search 2 (Fin 2) ep dv false it ft) =
  Ok (mk_search 2 (Fin 2) (fdiv (fsub (Fin 0) dv) (fadd dv (Fin (1 / 1000)))) (Fin 0) false (S it) (Some (mk_fit [Fin 0; Fin 1; Fin 1; Fin 0] [Fin 1; Fin 1; Fin 1; Fin 1] [Fin 0] (repeat (repeat (Fin 1) 4) 4))), Nat.ltb 100 (S it), 0%nat).
Proof.
  assert (A2 : add_constant (columns [1; 2; 3; 4] 2) = [1; 1; 1; 1] :: columns [1; 2; 3; 4] 2).
  { unfold add_constant, columns. cbn [existsb]. rewrite (spread_not_const [1; 2; 3; 4]) by apply ex_spread.
    rewrite (zero_not_const (col_U _ _)), (zero_not_const (deriv_max _ _)); [reflexivity|apply (deriv_zero _ _ 1); cbn; auto; lra|apply (col_U_zero _ _ 1); cbn; auto; lra]. }
  unfold search_step, lm_fit. cbn [ex_seg seg_weights seg_x c_brk]. rewrite A2. cbn [ex_solver2 columns bind f_params index nth_error c_step].
  replace (fadd (Fin 2) (fdiv (fmul (Fin 2) (Fin 0)) (Fin 1))) with (Fin 2) by (cbn; destruct (Reqb_spec 1 0); [lra|]; cbn; apply f_equal; field).
  rewrite splits_usable by apply ex_spread. cbn [c_fail c_it f_resid map]. replace (fsum [fsqr (Fin 0)]) with (Fin 0) by (unfold fsqr; cbn; apply f_equal; ring). reflexivity.
Qed.
Lemma ex_fit : exists g, fit_model ex_seg ex_solver2 true 100 (1 / 1000) 2 10 101 = Some (Ok g) /\ g_fail g = false /\ g_brk g = 2 /\ get_slopes g = Ok ([Fin 1; Fin (1 + 1)], [Fin 1; Fin (sqrt (1 * 1 + 1 * 1))]).
Proof.
  assert (A1 : add_constant [[1; 2; 3; 4]] = [[1; 1; 1; 1]; [1; 2; 3; 4]]).
  { unfold add_constant. cbn [existsb]. rewrite spread_not_const by apply ex_spread. reflexivity. }
  assert (A2 : add_constant (columns [1; 2; 3; 4] 2) = [1; 1; 1; 1] :: columns [1; 2; 3; 4] 2).
  { unfold add_constant, columns. cbn [existsb]. rewrite (spread_not_const [1; 2; 3; 4]) by apply ex_spread.
    rewrite (zero_not_const (col_U _ _)), (zero_not_const (deriv_max _ _)); [reflexivity|apply (deriv_zero _ _ 1); cbn; auto; lra|apply (col_U_zero _ _ 1); cbn; auto; lra]. }
  assert (I : fsum (map fsqr [Fin 1]) = Fin 1) by (unfold fsqr; cbn; apply f_equal; ring).
  assert (I0 : fsum (map fsqr [Fin 0]) = Fin 0) by (unfold fsqr; cbn; apply f_equal; ring).
  unfold fit_model. unfold lm_fit at 1. change (seg_weights ex_seg) with (@None (list R)). change (seg_x ex_seg) with [1; 2; 3; 4]. rewrite A1. cbv iota.
  change (f_resid (ex_solver2 [[1; 1; 1; 1]; [1; 2; 3; 4]])) with [Fin 1]. destruct (Rltb_spec 10 (1 / 1000)); [lra|]. rewrite I. change (seg_brk ex_seg) with 2.
  rewrite (loop_turn ex_seg ex_solver2 true 100 (1 / 1000) 100 _ _ 0%nat) with (2 := ex_step (Fin 10) (Fin 1) 0%nat None).
  2: { unfold continues. cbn [c_eps fabs fltb]. rewrite (Rabs_pos_eq 10) by lra. destruct (Rltb_spec (1 / 1000) 10); [reflexivity|lra]. }
  erewrite (loop_turn ex_seg ex_solver2 true 100 (1 / 1000) 99 _ _ 0%nat); [|  |apply (ex_step _ (Fin 0) 1%nat)].
  2: { unfold continues. cbn [c_eps]. unfold fsub. cbn [fneg fadd fdiv]. destruct (Reqb_spec (1 + 1 / 1000) 0); [lra|]. cbn [fabs fltb].
       replace ((0 + -(1)) / (1 + 1 / 1000)) with (- (1000 / 1001)) by field. rewrite Rabs_Ropp, Rabs_pos_eq by lra. destruct (Rltb_spec (1 / 1000) (1000 / 1001)); [reflexivity|lra]. }
  rewrite loop_done.
  2: { unfold continues. cbn [c_eps]. unfold fsub. cbn [fneg fadd fdiv]. destruct (Reqb_spec (0 + 1 / 1000) 0); [lra|]. cbn [fabs fltb].
       replace ((0 + - 0) / (0 + 1 / 1000)) with 0 by field. rewrite Rabs_R0. destruct (Rltb_spec (1 / 1000) 0); [lra|reflexivity]. }
  unfold finish. cbn [c_fail c_fit c_brk]. change (f_resid (ex_solver2 [[1; 1; 1; 1]; [1; 2; 3; 4]])) with [Fin 1]. cbn [f_resid]. rewrite I, I0. cbn [fleb]. destruct (Rleb_spec 1 0); [lra|]. cbn [bind].
  unfold lm_fit. change (seg_weights ex_seg) with (@None (list R)). change (seg_x ex_seg) with [1; 2; 3; 4]. rewrite A2. cbn [ex_solver2 columns bind f_params f_cov f_bse app].
  unfold brk_errs. cbn [index nth_error bind repeat]. eexists. split; [reflexivity|]. cbn [g_fail g_brk]. split; [reflexivity|]. split; [reflexivity|].
  unfold get_slopes, params, param_errs. cbn [g_fail g_params g_errs g_brk g_brk_err app length Nat.sub index nth_error bind]. unfold fsqr. cbn [fmul fadd fsqrt]. destruct (Rltb_spec (1 * 1 + 1 * 1) 0); [lra|]. reflexivity.
Qed.

(** *** Error of the break *)
Lemma brk_err_value a b beta gamma brk v22 v32 v33 : beta <> 0 -> psd2 v22 v32 v33 ->
  brk_errs [Fin a; Fin b; Fin beta; Fin gamma; Fin brk] (cov4 v22 v32 v33) = Ok (Fin (sqrt (v33 + v22 * (gamma / beta * (gamma / beta)) + 2 * v32 * (gamma / beta)))).
Proof. intros B P. unfold cov4. apply brk_errs_value; auto. now apply brk_err_real. Qed.
Lemma brk_err_rescale : exists a b beta gamma brk v22 v32 v33 c e e', psd2 v22 v32 v33 /\ 0 < c /\
  brk_errs [Fin a; Fin b; Fin beta; Fin gamma; Fin brk] (cov4 v22 v32 v33) = Ok (Fin e) /\
  brk_errs [Fin (c * a); Fin (c * b); Fin (c * beta); Fin (c * gamma); Fin brk] (cov4 (c ^ 2 * v22) (c ^ 2 * v32) (c ^ 2 * v33)) = Ok (Fin e') /\ e' <> e.
Proof.
  assert (P : forall k, 0 <= k -> psd2 k 0 k). { intros k Hk x y. pose proof (Rmult_le_pos _ _ (Rle_0_sqr x) Hk). pose proof (Rmult_le_pos _ _ (Rle_0_sqr y) Hk). unfold Rsqr in *. lra. }
  exists 0, 0, 1, 0, 0, 1, 0, 1, 2. do 2 eexists. split; [apply P; lra|]. split; [lra|].
  split; [apply brk_err_value; [lra|apply P; lra]|]. split.
  - apply brk_err_value; [lra|]. replace (2 ^ 2 * 0) with 0 by ring. apply P. lra.
  - replace (1 + 1 * (0 / 1 * (0 / 1)) + 2 * 0 * (0 / 1)) with 1 by field. replace (2 ^ 2 * 1 + 2 ^ 2 * 1 * (2 * 0 / (2 * 1) * (2 * 0 / (2 * 1))) + 2 * (2 ^ 2 * 0) * (2 * 0 / (2 * 1))) with (2 * 2) by field.
    rewrite sqrt_square by lra. rewrite sqrt_1. lra.
Qed.
Lemma brk_err_uncorrelated a b beta gamma brk v22 v33 : beta <> 0 -> 0 <= v22 -> 0 <= v33 ->
  brk_errs [Fin a; Fin b; Fin beta; Fin gamma; Fin brk] (cov4 v22 0 v33) = Ok (Fin (Rabs beta * ratio_error beta gamma v22 v33 0)).
Proof.
  intros B H2 H3. rewrite brk_err_value; auto.
  - apply (f_equal Ok). apply f_equal. unfold ratio_error. assert (0 < Rabs beta) by (now apply Rabs_pos_lt). field_simplify; [|lra]. apply f_equal. field. exact B.
  - intros x y. pose proof (Rmult_le_pos _ _ (Rle_0_sqr x) H2). pose proof (Rmult_le_pos _ _ (Rle_0_sqr y) H3). unfold Rsqr in *. lra.
Qed.
Lemma ex_inside : [1; 2] <> [] /\ forall k, In k [1; 2] -> k <= 2.
Proof. split; [discriminate|]. intros k [<-|[<-|[]]]; lra. Qed.
Lemma ex_weights : exists s, lm_seg_init (map Fin [1; 2; 3; 4; 5]) [Fin 1; Fin 2; NaN; Fin 3; Fin 4] (Fin 2) (Some (map Fin [1; 1; 1; 1; 1])) = Ok s.
Proof.
  unfold lm_seg_init, np_max, np_min. cbn [map]. change [Fin 1; Fin 2; Fin 3; Fin 4; Fin 5] with (map Fin [1; 2; 3; 4; 5]). rewrite existsb_nan_fin.
  destruct (nanmax_spec (map Fin [1; 2; 3; 4; 5])) as (M&->&_&PM); [apply blank_Fin'|discriminate|]. destruct (nanmin_spec (map Fin [1; 2; 3; 4; 5])) as (m&->&_&Pm); [apply blank_Fin'|discriminate|].
  rewrite fins_Fin' in PM, Pm. specialize (PM 2). specialize (Pm 2). cbn [In] in PM, Pm. cbn [bind fltb map].
  destruct (Rltb_spec M 2); [exfalso; assert (2 <= M) by (apply PM; auto); lra|]. destruct (Rltb_spec 2 m); [exfalso; assert (m <= 2) by (apply Pm; auto); lra|]. cbn. eauto.
Qed.
