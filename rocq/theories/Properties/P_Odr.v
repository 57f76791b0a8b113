(** Theorems about the size-line width fit with errors on both axes (C289, C290) *)
From Coq Require Import String Reals List Bool Arith Lia Lra.
From Coq Require Import List.
From Verif Require Import Lib.PyBase Lib.Fl Lib.RSum Model.Units Model.BaseStat Model.EllipPlaw Model.PcaFit Model.Odr Model.FitUtils Spec.Odr Proofs.FitUtils_Proofs Proofs.WidthMethods_Proofs Proofs.WidthMethods2_Proofs Proofs.Odr_Proofs Proofs.Odr2_Proofs Proofs.Odr3_Proofs Proofs.Odr4_Proofs.
From Verif Require Model.WidthMethods Model.WidthImages Spec.WidthMethods.
Import ListNotations.
Local Open Scope R_scope.

(** ** C289 *)
(** Components whose widths follow a law get that law, whatever their positive errors *)
Theorem C289_exact_law : forall s rows linregress odr_run bayes st c st' A alpha, finds_exact odr_run -> c_method c = "odr"%string -> 0 < A ->
  (forall r, In r rows -> all_finite r = true -> positive r /\ on_law A alpha r) -> NoDup (map w_spat (filter all_finite rows)) ->
  fit_plaw s rows (fit_odr linregress odr_run) bayes st c = (st', None) -> exists f, p_fit st' = Some f /\ f_index f = alpha /\ f_intercept f = A.
Proof. exact law_found. Qed.
Print Assumptions C289_exact_law.
Example C289_exact_law_case : finds_exact through /\
  (let rows := [component 1 (1 / 2) 3 (1 / 2); mk_row NaN NaN (Fin 1) (Fin 1); component 4 1 6 (1 / 3)] in
   (forall r, In r rows -> all_finite r = true -> positive r /\ on_law 3 (1 / 2) r) /\ NoDup (map w_spat (filter all_finite rows)) /\
   forall s linregress bayes, snd (fit_plaw s rows (fit_odr linregress through) bayes unfit (mk_call "odr" None None)) = None).
Proof.
  split; [exact through_finds|]. cbv zeta. split; [|split].
  - intros r [<-|[<-|[<-|[]]]] F; [|discriminate|].
    + split; [exists 1, (1 / 2), 3, (1 / 2); repeat split; lra|]. exists 1, (1 / 2), 3, (1 / 2). split; [reflexivity|]. unfold Rpower. rewrite ln_1, Rmult_0_r, exp_0. lra.
    + split; [exists 4, 1, 6, (1 / 3); repeat split; lra|]. exists 4, 1, 6, (1 / 3). split; [reflexivity|]. replace (1 / 2) with (/ 2) by lra. rewrite Rpower_sqrt by lra. replace 4 with (2 * 2) by lra. rewrite sqrt_square by lra. lra.
  - cbn. constructor; [|constructor; [intros []|constructor]]. intros [H|[]]. injection H as H. lra.
  - intros s linregress bayes. reflexivity.
Qed.
(** Sizes in another unit, line widths in another unit *)
Theorem C289_size_unit : forall k rows A alpha, 0 < k -> Forall positive rows -> (best_law rows A alpha <-> best_law (map (size_unit k) rows) (A * Rpower k (- alpha)) alpha).
Proof. exact size_units. Qed.
Print Assumptions C289_size_unit.
Theorem C289_width_unit : forall k rows A alpha, 0 < k -> Forall positive rows -> (best_law rows A alpha <-> best_law (map (width_unit k) rows) (A * k) alpha).
Proof. exact width_units. Qed.
Print Assumptions C289_width_unit.
(** Only the ratios of the errors matter *)
Theorem C289_error_unit : forall k rows A alpha, 0 < k -> Forall positive rows -> (best_law rows A alpha <-> best_law (map (error_unit k) rows) A alpha).
Proof. exact error_units. Qed.
Print Assumptions C289_error_unit.
(** Neither axis is the independent one: with the axes exchanged the law is solved for the size *)
Theorem C289_exchanged : forall rows A alpha, Forall positive rows -> alpha <> 0 -> best_law rows A alpha -> best_law (map exchanged rows) (Rpower A (- (1 / alpha))) (1 / alpha).
Proof. exact axes_exchanged. Qed.
Print Assumptions C289_exchanged.
Example C289_units_case : Forall positive [component 1 (1 / 2) 3 (1 / 2); component 4 1 6 (1 / 3)] /\ best_law [component 1 (1 / 2) 3 (1 / 2); component 4 1 6 (1 / 3)] 3 (1 / 2).
Proof.
  assert (H : forall r, In r [component 1 (1 / 2) 3 (1 / 2); component 4 1 6 (1 / 3)] -> positive r /\ on_law 3 (1 / 2) r).
  { intros r I. apply (proj1 (proj2 C289_exact_law_case)); destruct I as [<-|[<-|[]]]; [left|right; right; left| |]; reflexivity. }
  split; [apply Forall_forall; intros r I; exact (proj1 (H r I))|]. split; [lra|]. destruct (law_rows 3 (1 / 2) _ ltac:(lra) H) as [qs [P [-> [Q _]]]]. exact (proj2 (exact_best qs (1 / 2) (log10 3) P Q (1 / 2) (log10 3)) Q).
Qed.
(** Spectral widths measured with method='interpolate' have errors 0: the weights of all fitted
    components are infinite or blank, and no line has a finite misfit *)
Theorem C289_interpolate_refuted : forall fit ys ws rows lo hi pts a b delta, WidthMethods.widths_1D fit "interpolate"%string ys = Ok ws -> map (fun r => (w_spec r, w_spec_err r)) rows = ws ->
  fit_rows lo hi rows = Ok pts -> is_fin (misfit (map odr_datum (map log_point pts)) a b delta) = false.
Proof. exact interpolated_misfit. Qed.
Print Assumptions C289_interpolate_refuted.
Example C289_interpolate_case : let w := Spec.WidthMethods.crossing six 0 in WidthMethods.widths_1D (fun _ _ => None) "interpolate"%string [six; six] = Ok [(Fin w, Fin 0); (Fin w, Fin 0)] /\
  fit_rows None None [mk_row (Fin 2) (Fin 1) (Fin w) (Fin 0); mk_row (Fin 3) (Fin 1) (Fin w) (Fin 0)] = Ok [mk_row (Fin 2) (Fin 1) (Fin w) (Fin 0); mk_row (Fin 3) (Fin 1) (Fin w) (Fin 0)].
Proof.
  cbv zeta. split; [|reflexivity]. cbn [WidthMethods.widths_1D]. rewrite (proj1 (agree_partial (fun _ _ => None) six 3 0 (proj1 six_curve) eq_refl ltac:(lia) ltac:(lia) (proj2 six_curve))). reflexivity.
Qed.

(** In the same way for sizes measured with method='interpolate' or 'xinterpolate' *)
Theorem C289_interpolated_sizes_refuted : forall fit2 spline contours eig leastsq alpha draws m noise bc fw cd images ws rows lo hi pts a b delta, m = "interpolate"%string \/ m = "xinterpolate"%string ->
  WidthImages.width_2D fit2 spline contours eig leastsq alpha draws m noise bc fw cd images = Ok ws -> map (fun r => (w_spat r, w_spat_err r)) rows = ws ->
  fit_rows lo hi rows = Ok pts -> is_fin (misfit (map odr_datum (map log_point pts)) a b delta) = false.
Proof. exact interpolated_sizes. Qed.
Print Assumptions C289_interpolated_sizes_refuted.
Example C289_interpolated_sizes_case : forall fit2 contours eig leastsq alpha draws, exists w,
  WidthImages.width_2D fit2 flat_spline contours eig leastsq alpha draws "interpolate"%string (fun _ _ => 0) false None None [ten_by_ten; ten_by_ten] = Ok [(Fin w, Fin 0); (Fin w, Fin 0)] /\
  fit_rows None None [mk_row (Fin w) (Fin 0) (Fin 2) (Fin 1); mk_row (Fin w) (Fin 0) (Fin 3) (Fin 1)] = Ok [mk_row (Fin w) (Fin 0) (Fin 2) (Fin 1); mk_row (Fin w) (Fin 0) (Fin 3) (Fin 1)].
Proof. intros fit2 contours eig leastsq alpha draws. destruct (flat_widths fit2 contours eig leastsq alpha draws) as [w E]. exists w. split; [exact E|reflexivity]. Qed.

(** ** C290 *)
(** The probability of a line in the MCMC fit: its misfit in the regression, and a term for the
    errors across it *)
Theorem C290_same_misfit : forall theta b pts, 0 <= theta < PI / 2 -> errors_positive pts -> exists v, least (map odr_datum (map real_point pts)) (tan theta) b v /\
  logprob theta b pts = Some (- (1 / 2) * v - 1 / 2 * lsum (map (fun p => ln ((sin theta) ^ 2 * fst (snd p) ^ 2 + (cos theta) ^ 2 * snd (snd p) ^ 2)) pts)).
Proof. exact same_misfit. Qed.
Print Assumptions C290_same_misfit.
(** With one error for all points and both axes, the line closer to the points is the more
    probable one *)
Theorem C290_common_error_partial : forall e pts theta b theta' b' v v', 0 < e -> common_error e pts -> 0 <= theta < PI / 2 -> 0 <= theta' < PI / 2 ->
  least (map odr_datum (map real_point pts)) (tan theta) b v -> least (map odr_datum (map real_point pts)) (tan theta') b' v' ->
  exists p p', logprob theta b pts = Some p /\ logprob theta' b' pts = Some p' /\ (p' <= p <-> v <= v').
Proof. exact common_order. Qed.
Print Assumptions C290_common_error_partial.
Example C290_common_error_case : common_error 1 [(0, 0, (1, 1)); (1, 2, (1, 1))] /\ exists v, least (map odr_datum (map real_point [(0, 0, (1, 1)); (1, 2, (1, 1))])) (tan 0) 0 v.
Proof.
  split; [intros x y ex ey [H|[H|[]]]; injection H as <- <- <- <-; split; reflexivity|]. destruct (C290_same_misfit 0 0 [(0, 0, (1, 1)); (1, 2, (1, 1))]) as [v [L _]]; [pose proof PI_RGT_0; lra| |exists v; exact L].
  intros x y ex ey [H|[H|[]]]; injection H as <- <- <- <-; lra.
Qed.
(** In general it is not: with errors twice as large in y, a line that misses both points is more
    probable than the one through them *)
Theorem C290_exact_refuted : exists pts theta theta' b b' p p', errors_positive pts /\ 0 <= theta < PI / 2 /\ 0 <= theta' < PI / 2 /\
  (forall q, In q pts -> snd (fst q) = tan theta * fst (fst q) + b) /\ (forall q, In q pts -> snd (fst q) <> tan theta' * fst (fst q) + b') /\
  logprob theta b pts = Some p /\ logprob theta' b' pts = Some p' /\ p < p'.
Proof.
  destruct steeper_preferred as [E [p [p' [H [H' L]]]]]. exists diagonal, (atan 1), (atan 2), 0, (- (1 / 2)), p, p'. rewrite !tan_atan. pose proof (atan_bound 1). pose proof (atan_bound 2).
  assert (0 < atan 1) by (rewrite <- atan_0; apply atan_increasing; lra). assert (0 < atan 2) by (rewrite <- atan_0; apply atan_increasing; lra).
  split; [exact diagonal_errors|]. split; [lra|]. split; [lra|]. split; [exact E|]. split; [intros q [<-|[<-|[]]]; cbn; lra|]. split; [exact H|]. split; [exact H'|exact L].
Qed.
Print Assumptions C290_exact_refuted.
(** A falling relation has no probability at all, while the regression finds it *)
Theorem C290_falling_refuted : forall A alpha, 0 < A -> alpha < 0 -> (forall theta b pts, tan theta = alpha -> - PI / 2 < theta < PI / 2 -> logprob theta b pts = None) /\
  exists rows, Forall positive rows /\ best_law rows A alpha /\ (1 < length rows)%nat.
Proof.
  intros A alpha PA N. split.
  - intros theta b pts T B. apply logprob_outside. left. apply Rnot_le_lt. intro G. assert (0 <= tan theta); [|lra]. destruct G as [G|<-]; [left; apply tan_gt_0; lra|rewrite tan_0; lra].
  - set (rows := [component 1 1 A 1; component 10 1 (A * Rpower 10 alpha) 1]). assert (P1 : 0 < A * Rpower 10 alpha) by (apply Rmult_lt_0_compat; [exact PA|apply exp_pos]).
    assert (H : forall r, In r rows -> positive r /\ on_law A alpha r).
    { intros r [<-|[<-|[]]].
      - split; [exists 1, 1, A, 1; repeat split; lra|]. exists 1, 1, A, 1. split; [reflexivity|]. unfold Rpower. rewrite ln_1, Rmult_0_r, exp_0. lra.
      - split; [exists 10, 1, (A * Rpower 10 alpha), 1; repeat split; lra|]. exists 10, 1, (A * Rpower 10 alpha), 1. split; reflexivity. }
    exists rows. split; [apply Forall_forall; intros r I; exact (proj1 (H r I))|]. split; [|cbn; lia]. split; [exact PA|].
    destruct (law_rows A alpha rows PA H) as [qs [P [-> [Q _]]]]. exact (proj2 (exact_best qs alpha (log10 A) P Q alpha (log10 A)) Q).
Qed.
Print Assumptions C290_falling_refuted.
