(** Proofs about Model/LmSeg.v: the segmented fit of points on a straight line. *)
From Coq Require Import Reals List Arith Lia Lra Bool.
From Verif Require Import Lib.PyBase Lib.RSum Lib.Fl Model.FitState Model.LmSeg Model.BreakFit Spec.Blank Spec.Segmented Spec.BreakFit Proofs.Fl_Proofs Proofs.LmSeg_Proofs Proofs.Ols_Proofs Proofs.BreakFit_Proofs.
Import ListNotations.
Local Open Scope R_scope.

Lemma straight_broken p0 m b v : broken_line p0 m m b v = p0 + m * v.
Proof. unfold broken_line. destruct (Rltb v b); ring. Qed.
Lemma zero_over_zero st : fdiv (fmul (Fin st) (Fin 0)) (Fin 0) = NaN.
Proof. cbn [fmul fdiv]. rewrite Rmult_0_r. destruct (Reqb_spec 0 0); [|contradiction]. unfold sinf. destruct (Rltb_spec 0 0); [lra|reflexivity]. Qed.
Lemma nan_unusable x : usable x NaN = false.
Proof. unfold usable. assert (U : existsb (fun v => fltb NaN (Fin v)) x = false) by (induction x; auto). now rewrite U. Qed.
Lemma nan_halve x : forall todo k st, exists s h, halve x (Fin 0) (Fin 0) (Fin st) NaN todo k = (None, s, h).
Proof.
  induction todo as [|todo IH]; intros k st; [cbn [halve]; eauto|]. cbn [halve]. change (fsub NaN (fdiv (fmul (Fin st) (Fin 0)) (Fin 0))) with NaN. rewrite fdiv_fin by lra.
  change (fadd NaN (fdiv (fmul (Fin (st / 2)) (Fin 0)) (Fin 0))) with NaN. rewrite nan_unusable. apply IH.
Qed.

(** The break is dropped: the line itself is fitted, and the break is the last point. *)
Theorem lm_straight ols x w p0 m b0 : regression ols -> two_sided b0 x ->
  match w with None => True | Some l => length l = length x /\ forall v, In v l -> 0 < v end ->
  exists g, lm_seg_fit ols (map Fin x) (map Fin (map (fun v => p0 + m * v) x)) (Fin b0) (option_map (map Fin) w) = Ok g /\
    g_brk g = rmax_of x /\ g_fail g = true /\ g_params g = [Fin p0; Fin m] /\ length (g_errs g) = 2%nat /\
    g_errs g = f_bse (ols (map (fun v => p0 + m * v) x) w (add_constant [x])).
Proof.
  intros REG T HW. unfold lm_seg_fit.
  rewrite (init_fin x (map (fun v => p0 + m * v) x) b0 w T); [|apply map_length|destruct w; [apply HW|exact I]]. cbn [bind seg_y seg_weights].
  set (s := mk_seg x (map (fun v => p0 + m * v) x) b0 w).
  assert (GW : good_weights (seg_y s) (seg_weights s)). { destruct w as [l|]; cbn; [|exact I]. now rewrite map_length. }
  assert (DATA : seg_y s = map (broken_line p0 m m b0) (seg_x s)). { cbn. apply map_ext. intros v. now rewrite straight_broken. }
  change (fit_model s (ols (map (fun v => p0 + m * v) x) w)) with (fit_model s (sol ols s)).
  assert (SV : forall cols, lm_fit s (sol ols s) cols = Ok (sol ols s cols)) by (intros cols; apply solves; exact GW).
  destruct (fit_at ols s p0 m m b0 REG GW DATA T b0) as [EP ER]; [intros v Hv; tauto|]. replace (m - m) with 0 in EP by ring. replace (0 * (b0 - b0)) with 0 in EP by ring.
  unfold fit_model. rewrite SV. destruct (Rltb_spec 10 (1 / 1000)); [lra|].
  set (init := sol ols s (add_constant [seg_x s])). set (d := fsum (map fsqr (f_resid init))). change (seg_brk s) with b0.
  cbn [search_loop]. unfold continues at 1. cbn [c_eps fabs fltb]. rewrite Rabs_pos_eq by lra. destruct (Rltb_spec (1 / 1000) 10); [|lra].
  unfold search_step. cbn [c_brk c_step c_dev c_fail c_it]. rewrite SV. cbn [bind]. rewrite EP. unfold index. cbn [map nth_error bind].
  rewrite zero_over_zero. change (fadd (Fin b0) NaN) with NaN. rewrite nan_unusable. destruct (nan_halve (seg_x s) 5 0 2) as (st & h & ->). cbn [Nat.ltb Nat.leb].
  unfold finish. cbn [c_fail bind]. rewrite SV. cbn [bind]. eexists. split; [reflexivity|]. cbn [g_brk g_fail g_params g_errs]. split; [reflexivity|]. split; [reflexivity|].
  pose proof (splits_spread _ _ (two_sided_splits _ _ T)) as SP. change (seg_x s) with x. rewrite (line_cols x SP). set (cols := [repeat 1 (length x); x]).
  assert (Ly : length (seg_y s) = length x) by (cbn; apply map_length).
  assert (LC : forall c, In c cols -> length c = length (seg_y s)). { intros c Hc. rewrite Ly. unfold cols in Hc. repeat (destruct Hc as [<-|Hc]; [rewrite ?repeat_length; reflexivity|]). destruct Hc. }
  assert (EX : forall i, (i < length (seg_y s))%nat -> nth i (seg_y s) 0 = predicted cols [p0; m] i).
  { intros i Hi. rewrite Ly in Hi. unfold cols. rewrite predicted_2 by exact Hi. cbn [seg_y s]. now rewrite (nth_map_R (fun v => p0 + m * v)) by exact Hi. }
  destruct (exact_fit _ _ cols (sol ols s cols) [p0; m] GW (proj2 (REG _ _ GW) cols LC) eq_refl EX) as [p [Lp [E1 [E2 E3]]]].
  assert (P : p = [p0; m]).
  { destruct p as [|a0 [|a1 [|]]]; try discriminate. destruct T as [(u&v&Hu&Hv&D&_&_) _].
    assert (K : forall q, In q x -> a0 - p0 + (a1 - m) * q = 0).
    { intros q Hq. destruct (in_index q x Hq) as [i [Hi <-]]. assert (Hi' : (i < length (seg_y s))%nat) by (rewrite Ly; exact Hi). pose proof (E3 i Hi') as Z. rewrite (EX i Hi') in Z. unfold cols in Z. rewrite !predicted_2 in Z by exact Hi. lra. }
    destruct (two_points _ _ u v D (K u Hu) (K v Hv)). f_equal; [lra|]. f_equal. lra. }
  subst p. split; [exact E1|]. destruct (proj1 (REG _ _ GW) cols) as (W1 & W2 & _). unfold sol in *. rewrite E1 in W1. cbn [map length] in W1. rewrite W2. split; [exact (eq_sym W1)|reflexivity].
Qed.
