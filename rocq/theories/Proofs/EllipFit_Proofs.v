(** Proofs about the fit of the elliptical power law. *)
From Coq Require Import Reals List Bool ZArith Arith Lra Lia Permutation Sorted.
From Verif Require Import Lib.PyBase Lib.RSum Lib.Fl Spec.EllipFit Model.EllipPlaw Proofs.EllipPlaw_Proofs.
Import ListNotations.
Local Open Scope R_scope.

(** The surface with given parameters. *)
Definition surface (p : params) (x y : R) : R := real_of (evaluate x y (p_amp p) (p_ell p) (p_theta p) (p_gamma p)).

Lemma evaluate_fin x y A e theta gamma : exists r, evaluate x y A e theta gamma = Fin r.
Proof.
  unfold evaluate. cbv zeta. match goal with |- exists r, (if is_fin ?m then ?m else _) = _ => destruct m end;
  cbn [is_fin]; eexists; reflexivity.
Qed.

Lemma resids_misfit p xs ys values : resids p xs ys values = Fin (misfit (surface p) xs ys values).
Proof.
  unfold resids, eval_at. revert ys values. induction xs as [|x xs IH]; intros [|y ys] [|v values]; cbn [map2 fsum fold_right misfit]; try reflexivity.
  specialize (IH ys values). unfold fsum in IH. rewrite IH. unfold surface at 2.
  destruct (evaluate_fin x y (p_amp p) (p_ell p) (p_theta p) (p_gamma p)) as [r E]. rewrite E. reflexivity.
Qed.

Definition flip_p0 (p0 : params) : params := mkParams (p_amp p0) (p_ell p0) (rmod (p_theta p0 + PI / 2) PI) (p_gamma p0).
Definition weights_of (rw : bool) (xs ys : list R) : option (list R) :=
  if rw then Some (map2 (fun x y => 1 / sqrt (x ^ 2 + y ^ 2)) xs ys) else None.

Lemma fit_unfixed solve perms vals xs ys p0 bootstrap alpha rw r :
  fit_elliptical_powerlaw solve perms (map Fin vals) xs ys p0 true bootstrap alpha rw false = Ok r ->
  let first := solve p0 false vals (weights_of rw xs ys) in
  let second := solve (flip_p0 p0) false vals (weights_of rw xs ys) in
  (misfit (surface (fst second)) xs ys vals < misfit (surface (fst first)) xs ys vals /\ r_params r = fst second /\ (bootstrap = false -> r_stderrs r = [NaN; NaN; NaN; NaN])) \/
  (misfit (surface (fst first)) xs ys vals <= misfit (surface (fst second)) xs ys vals /\ r_params r = fst first /\
    (bootstrap = false -> r_stderrs r = match snd second with None => [NaN; NaN; NaN; NaN] | Some c => diag_errs c end)).
Proof.
  intros H first second. unfold fit_elliptical_powerlaw in H.
  assert (F : forallb is_fin (map Fin vals) = true) by (apply forallb_forall; intros v Hv; apply in_map_iff in Hv; destruct Hv as [r0 [<- _]]; reflexivity).
  rewrite F in H. cbn [negb] in H. rewrite fins_map_Fin in H. cbv zeta in H.
  fold (weights_of rw xs ys) in H. fold (flip_p0 p0) in H. fold first second in H.
  destruct first as [p1 c1]. destruct second as [p2 c2]. cbn [fst snd]. cbn beta iota in H.
  rewrite !resids_misfit in H. cbn [fltb] in H.
  destruct (Rltb_spec (misfit (surface p2) xs ys vals) (misfit (surface p1) xs ys vals)) as [L|L].
  - left. split; [exact L|]. destruct bootstrap; inversion H; subst r; cbn [r_params r_stderrs]; split; auto. discriminate.
  - right. split; [lra|]. destruct bootstrap; inversion H; subst r; cbn [r_params r_stderrs]; split; auto. discriminate.
Qed.

Lemma fit_lowest solve perms vals xs ys p0 bootstrap alpha rw r :
  fit_elliptical_powerlaw solve perms (map Fin vals) xs ys p0 true bootstrap alpha rw false = Ok r ->
  (r_params r = fst (solve p0 false vals (weights_of rw xs ys)) \/ r_params r = fst (solve (flip_p0 p0) false vals (weights_of rw xs ys))) /\
  misfit (surface (r_params r)) xs ys vals <= misfit (surface (fst (solve p0 false vals (weights_of rw xs ys)))) xs ys vals /\
  misfit (surface (r_params r)) xs ys vals <= misfit (surface (fst (solve (flip_p0 p0) false vals (weights_of rw xs ys)))) xs ys vals.
Proof.
  intros H. apply fit_unfixed in H. cbv zeta in H.
  destruct H as [[L [-> _]]|[L [-> _]]]; repeat split; auto; lra.
Qed.

Lemma fit_ok solve perms vals xs ys p0 bootstrap alpha rw fx : exists r,
  fit_elliptical_powerlaw solve perms (map Fin vals) xs ys p0 true bootstrap alpha rw fx = Ok r.
Proof.
  unfold fit_elliptical_powerlaw.
  assert (F : forallb is_fin (map Fin vals) = true) by (apply forallb_forall; intros v Hv; apply in_map_iff in Hv; destruct Hv as [r0 [<- _]]; reflexivity).
  rewrite F. cbn [negb]. rewrite fins_map_Fin. cbv zeta.
  destruct (solve _ fx vals _) as [p1 c1].
  destruct (negb fx).
  - destruct (solve _ false vals _) as [p2 c2]. destruct (fltb _ _); eexists; reflexivity.
  - eexists; reflexivity.
Qed.

Lemma fit_refuses solve perms fvals xs ys p0 levmarq bootstrap alpha rw fx :
  (~ (forall v, In v fvals -> is_fin v = true)) \/ levmarq = false ->
  fit_elliptical_powerlaw solve perms fvals xs ys p0 levmarq bootstrap alpha rw fx = Err ValueError.
Proof.
  intros H. unfold fit_elliptical_powerlaw. destruct (forallb is_fin fvals) eqn:E; cbn [negb]; [|reflexivity].
  destruct H as [H|H].
  - exfalso. apply H. now apply forallb_forall.
  - rewrite H. reflexivity.
Qed.

Lemma diag_errs_spec cov : errors_of cov (diag_errs cov).
Proof.
  unfold errors_of, diag_errs. split; [now rewrite map_length, seq_length|]. intros i Hi.
  rewrite (nth_indep _ _ ((fun i => Fin (sqrt (Rabs (nth i (nth i cov []) 0)))) 0%nat)) by (now rewrite map_length, seq_length).
  rewrite (map_nth (fun i => Fin (sqrt (Rabs (nth i (nth i cov []) 0)))) _ 0%nat). now rewrite seq_nth.
Qed.

(** Fixed ellipticity: one fit, its covariance. *)
Lemma fit_fixed solve perms vals xs ys p0 bootstrap alpha rw r :
  fit_elliptical_powerlaw solve perms (map Fin vals) xs ys p0 true bootstrap alpha rw true = Ok r ->
  let only := solve (mkParams (p_amp p0) PInf (p_theta p0) (p_gamma p0)) true vals (weights_of rw xs ys) in
  r_params r = fst only /\
  (bootstrap = false -> forall cov, snd only = Some cov -> r_stderrs r = diag_errs cov).
Proof.
  intros H only. unfold fit_elliptical_powerlaw in H.
  assert (F : forallb is_fin (map Fin vals) = true) by (apply forallb_forall; intros v Hv; apply in_map_iff in Hv; destruct Hv as [r0 [<- _]]; reflexivity).
  rewrite F in H. cbn [negb] in H. rewrite fins_map_Fin in H. cbv zeta in H.
  fold (weights_of rw xs ys) in H. fold only in H. destruct only as [p1 c1]. cbn [fst snd]. cbn beta iota in H.
  destruct bootstrap; inversion H; subst r; cbn [r_params r_stderrs]; split; auto; try discriminate.
  intros _ cov ->. reflexivity.
Qed.

Lemma fit_fixed_errors solve perms vals xs ys p0 alpha rw r cov :
  fit_elliptical_powerlaw solve perms (map Fin vals) xs ys p0 true false alpha rw true = Ok r ->
  snd (solve (mkParams (p_amp p0) PInf (p_theta p0) (p_gamma p0)) true vals (weights_of rw xs ys)) = Some cov ->
  errors_of cov (r_stderrs r).
Proof. intros H Hc. apply fit_fixed in H. cbv zeta in H. destruct H as [_ H]. rewrite (H eq_refl cov Hc). apply diag_errs_spec. Qed.

(** ... and the covariance of two free parameters cannot be stored. *)
Lemma fit_fixed_index_error solve perms vals xs ys p0 alpha rw r cov :
  fit_elliptical_powerlaw solve perms (map Fin vals) xs ys p0 true false alpha rw true = Ok r ->
  snd (solve (mkParams (p_amp p0) PInf (p_theta p0) (p_gamma p0)) true vals (weights_of rw xs ys)) = Some cov ->
  length cov = 2%nat -> store_2D r = Err IndexError.
Proof.
  intros H Hc L. pose proof (fit_fixed_errors _ _ _ _ _ _ _ _ _ _ H Hc) as [E _].
  unfold store_2D. rewrite (proj2 (nth_error_None (r_stderrs r) 3)) by lia. reflexivity.
Qed.

Lemma rmod_range a b : 0 < b -> 0 <= rmod a b < b.
Proof.
  intros Hb. unfold rmod. destruct (base_Int_part (a / b)) as [H1 H2].
  assert (E : a = b * (a / b)) by (field; lra).
  set (z := IZR (Int_part (a / b))) in *. set (t := a / b) in *.
  pose proof (Rmult_le_compat_l b z t ltac:(lra) H1).
  assert (b * (t - z) < b * 1) by (apply Rmult_lt_compat_l; lra). rewrite E. split; lra.
Qed.

Lemma rmod_cong a b : 0 < b -> exists k : Z, rmod a b = a + IZR k * b.
Proof. intros Hb. exists (- Int_part (a / b))%Z. unfold rmod. rewrite opp_IZR. ring. Qed.

Lemma store_theta r s : store_2D r = Ok s ->
  0 <= theta2D s < PI /\ (exists k : Z, theta2D s = p_theta (r_params r) + IZR k * PI) /\ slope2D s = p_gamma (r_params r).
Proof.
  unfold store_2D. destruct (nth_error (r_stderrs r) 3), (nth_error (r_stderrs r) 2), (nth_error (r_stderrs r) 1); try discriminate.
  intros E. inversion E. cbn [theta2D slope2D]. pose proof PI_RGT_0. repeat split; try (apply rmod_range; assumption).
  apply rmod_cong; assumption.
Qed.

Lemma store_ellip r s t : store_2D r = Ok s -> p_ell (r_params r) = Fin t ->
  exists q, ellip2D s = Fin q /\ 0 < q < 1 /\ interval_transform q 0 1 = t.
Proof.
  unfold store_2D. destruct (nth_error (r_stderrs r) 3), (nth_error (r_stderrs r) 2), (nth_error (r_stderrs r) 1); try discriminate.
  intros E Ht. inversion E. cbn [ellip2D]. rewrite Ht. exists (q_of t). split; [apply ellip_of_Fin|]. split; [apply q_range|].
  replace (q_of t) with (inverse_interval_transform t 0 1).
  - apply inverse_transform. lra.
  - unfold inverse_interval_transform, q_of. field. apply Rgt_not_eq. apply Rlt_gt. apply exp_pos1.
Qed.

Lemma store_ellip_err r s t e : store_2D r = Ok s -> p_ell (r_params r) = Fin t -> nth_error (r_stderrs r) 1 = Some (Fin e) ->
  ellip2D_err s = Fin (inverse_interval_transform_stderr e t 0 1).
Proof.
  unfold store_2D. destruct (nth_error (r_stderrs r) 3), (nth_error (r_stderrs r) 2), (nth_error (r_stderrs r) 1); try discriminate.
  intros E Ht He. inversion He; subst f1. inversion E. cbn [ellip2D_err]. rewrite Ht. unfold inv_stderr_fl.
  cbn [fneg fexp fmul fadd]. unfold fsqr. cbn [fmul fdiv].
  destruct (Reqb_spec ((1 + exp (- t)) * (1 + exp (- t))) 0) as [Z|Z].
  - pose proof (exp_pos1 (- t)). pose proof (Rmult_lt_0_compat _ _ H H). lra.
  - cbn [fabs fmul]. unfold inverse_interval_transform_stderr. f_equal. f_equal. f_equal. field.
    pose proof (exp_pos1 (- t)). lra.
Qed.

(** A fixed ellipticity with bootstrap: the ellipticity is 1, its error NaN. *)
Lemma store_fixed solve perms vals xs ys p0 alpha rw r :
  (forall p v w, p_ell p = PInf -> p_ell (fst (solve p true v w)) = PInf) -> perms <> [] ->
  fit_elliptical_powerlaw solve perms (map Fin vals) xs ys p0 true true alpha rw true = Ok r ->
  exists s, store_2D r = Ok s /\ ellip2D s = Fin 1 /\ ellip2D_err s = NaN.
Proof.
  intros Hs Hp H. pose proof H as H0. apply fit_fixed in H0. cbv zeta in H0. destruct H0 as [Hr _].
  assert (Hell : p_ell (r_params r) = PInf) by (rewrite Hr; apply Hs; reflexivity).
  unfold fit_elliptical_powerlaw in H.
  assert (F : forallb is_fin (map Fin vals) = true) by (apply forallb_forall; intros v Hv; apply in_map_iff in Hv; destruct Hv as [r0 [<- _]]; reflexivity).
  rewrite F in H. cbn [negb] in H. rewrite fins_map_Fin in H. cbv zeta in H.
  fold (weights_of rw xs ys) in H.
  destruct (solve (mkParams (p_amp p0) PInf (p_theta p0) (p_gamma p0)) true vals (weights_of rw xs ys)) as [p1 c1] eqn:E1.
  cbn beta iota in H. cbn [fst] in Hr.
  destruct perms as [|pm perms]; [contradiction|].
  inversion H; subst r; clear H. cbn [r_params] in *.
  unfold store_2D. cbn [r_stderrs nth_error r_params map forallb].
  rewrite (Hs p1 _ _ Hell). cbn [is_fin andb].
  eexists. split; [reflexivity|]. cbn [ellip2D ellip2D_err]. rewrite Hell. split; [apply ellip_of_PInf|].
  unfold inv_stderr_fl. cbn [fneg fexp fmul fadd]. unfold fsqr. cbn [fmul fdiv].
  destruct (Reqb ((1 + 0) * (1 + 0)) 0); [destruct (sinf (1 * 0))|]; reflexivity.
Qed.

(** ** Witnesses *)

(** A solver that gets better from the flipped start, with a covariance each time. *)
Definition ex_cov (v : R) : list (list R) := [[v; 0; 0; 0]; [0; v; 0; 0]; [0; 0; v; 0]; [0; 0; 0; v]].
Definition solve_flip : solver := fun p0 _ _ _ =>
  if Reqb (p_theta p0) 0 then (mkParams 5 (Fin 0) 0 (-2), Some (ex_cov 1)) else (mkParams 0 (Fin 0) 1 0, Some (ex_cov 4)).
Definition solve_first : solver := fun p0 _ _ _ =>
  if Reqb (p_theta p0) 0 then (mkParams 0 (Fin 0) 0 0, Some (ex_cov 1)) else (mkParams 5 (Fin 0) 1 0, Some (ex_cov 4)).

Lemma surface_flat A t th x y : x <> 0 \/ y <> 0 -> surface (mkParams A (Fin t) th 0) x y = A.
Proof.
  intros H. unfold surface. cbn [p_amp p_ell p_theta p_gamma]. rewrite evaluate_away by exact H. cbn [real_of]. ring.
Qed.

Lemma flip_theta : p_theta (flip_p0 (mkParams 0 (Fin 0) 0 0)) <> 0.
Proof.
  cbn [flip_p0 p_theta]. unfold rmod. pose proof PI_RGT_0.
  replace (Int_part ((0 + PI / 2) / PI)) with 0%Z; [lra|].
  unfold Int_part. rewrite <- (tech_up ((0 + PI / 2) / PI) 1); [reflexivity| |];
  replace ((0 + PI / 2) / PI) with (1 / 2) by (field; lra); lra.
Qed.

Lemma solve_flip_at_0 vals w : solve_flip (mkParams 0 (Fin 0) 0 0) false vals w = (mkParams 5 (Fin 0) 0 (-2), Some (ex_cov 1)).
Proof. unfold solve_flip. cbn [p_theta]. destruct (Reqb_spec 0 0); [reflexivity|contradiction]. Qed.
Lemma solve_flip_at_f vals w : solve_flip (flip_p0 (mkParams 0 (Fin 0) 0 0)) false vals w = (mkParams 0 (Fin 0) 1 0, Some (ex_cov 4)).
Proof. unfold solve_flip. destruct (Reqb_spec (p_theta (flip_p0 (mkParams 0 (Fin 0) 0 0))) 0) as [E|E]; [destruct (flip_theta E)|reflexivity]. Qed.
Lemma solve_first_at_0 vals w : solve_first (mkParams 0 (Fin 0) 0 0) false vals w = (mkParams 0 (Fin 0) 0 0, Some (ex_cov 1)).
Proof. unfold solve_first. cbn [p_theta]. destruct (Reqb_spec 0 0); [reflexivity|contradiction]. Qed.
Lemma solve_first_at_f vals w : solve_first (flip_p0 (mkParams 0 (Fin 0) 0 0)) false vals w = (mkParams 5 (Fin 0) 1 0, Some (ex_cov 4)).
Proof. unfold solve_first. destruct (Reqb_spec (p_theta (flip_p0 (mkParams 0 (Fin 0) 0 0))) 0) as [E|E]; [destruct (flip_theta E)|reflexivity]. Qed.

(** The flipped fit is returned, its covariance was computed, and the errors are NaN. *)
Lemma errors_lost : exists r, fit_elliptical_powerlaw solve_flip [] [Fin 0] [1] [0] (mkParams 0 (Fin 0) 0 0) true false (6827 / 10000) false false = Ok r /\
  solve_flip (flip_p0 (mkParams 0 (Fin 0) 0 0)) false [0] None = (r_params r, Some (ex_cov 4)) /\
  ~ errors_of (ex_cov 4) (r_stderrs r).
Proof.
  destruct (fit_ok solve_flip [] [0] [1] [0] (mkParams 0 (Fin 0) 0 0) false (6827 / 10000) false false) as [r Hr].
  exists r. split; [exact Hr|]. pose proof (fit_unfixed _ _ _ _ _ _ _ _ _ _ Hr) as H. cbv zeta in H. cbn [weights_of] in H.
  rewrite solve_flip_at_0, solve_flip_at_f in H. cbn [fst snd] in H.
  assert (M2 : misfit (surface (mkParams 0 (Fin 0) 1 0)) [1] [0] [0] = 0).
  { cbn [misfit]. rewrite surface_flat by (left; lra). replace (0 - 0) with 0 by ring. rewrite Rabs_R0. ring. }
  assert (M1 : misfit (surface (mkParams 5 (Fin 0) 0 (-2))) [1] [0] [0] > 0).
  { cbn [misfit]. rewrite Rplus_0_r. apply Rabs_pos_lt. intros Z.
    assert (surface (mkParams 5 (Fin 0) 0 (-2)) 1 0 = 0) as Z' by lra. clear Z. unfold surface in Z'. cbn [p_amp p_ell p_theta p_gamma] in Z'.
    rewrite evaluate_away in Z' by (left; lra). cbn [real_of] in Z'. unfold form, q_of in Z'.
    rewrite cos_0, sin_0, Ropp_0, exp_0 in Z'.
    assert (L : log10 ((1 / (1 + 1) * (1 * 1 - 0 * 0)) ^ 2 + (1 * 0 + 0 * 1) ^ 2) <= 0).
    { unfold log10. replace ((1 / (1 + 1) * (1 * 1 - 0 * 0)) ^ 2 + (1 * 0 + 0 * 1) ^ 2) with (1 / 4) by field.
      assert (ln (1 / 4) < 0) by (rewrite <- ln_1; apply ln_increasing; lra).
      assert (0 < ln 10) by (rewrite <- ln_1; apply ln_increasing; lra).
      unfold Rdiv. pose proof (Rinv_0_lt_compat _ H1). nra. }
    lra. }
  rewrite solve_flip_at_f. destruct H as [[_ [Hp He]]|[L _]]; [|lra].
  rewrite Hp, (He eq_refl). split; [reflexivity|]. intros [_ E]. specialize (E 0%nat ltac:(cbn; lia)). discriminate E.
Qed.

(** The first fit is returned with the errors of the other one. *)
Lemma errors_swapped : exists r, fit_elliptical_powerlaw solve_first [] [Fin 0] [1] [0] (mkParams 0 (Fin 0) 0 0) true false (6827 / 10000) false false = Ok r /\
  solve_first (mkParams 0 (Fin 0) 0 0) false [0] None = (r_params r, Some (ex_cov 1)) /\
  ~ errors_of (ex_cov 1) (r_stderrs r) /\ errors_of (ex_cov 4) (r_stderrs r).
Proof.
  destruct (fit_ok solve_first [] [0] [1] [0] (mkParams 0 (Fin 0) 0 0) false (6827 / 10000) false false) as [r Hr].
  exists r. split; [exact Hr|]. pose proof (fit_unfixed _ _ _ _ _ _ _ _ _ _ Hr) as H. cbv zeta in H. cbn [weights_of] in H.
  rewrite solve_first_at_0, solve_first_at_f in H. cbn [fst snd] in H.
  assert (M2 : misfit (surface (mkParams 5 (Fin 0) 1 0)) [1] [0] [0] = 5).
  { cbn [misfit]. rewrite surface_flat by (left; lra). rewrite Rabs_minus_sym, Rminus_0_r, Rabs_pos_eq by lra. ring. }
  assert (M1 : misfit (surface (mkParams 0 (Fin 0) 0 0)) [1] [0] [0] = 0).
  { cbn [misfit]. rewrite surface_flat by (left; lra). replace (0 - 0) with 0 by ring. rewrite Rabs_R0. ring. }
  rewrite solve_first_at_0. destruct H as [[L _]|[_ [Hp He]]]; [lra|].
  rewrite Hp, (He eq_refl). split; [reflexivity|]. split; [|apply diag_errs_spec].
  intros [_ E]. specialize (E 0%nat ltac:(cbn; lia)). cbn [ex_cov diag_errs map seq length nth] in E. injection E as E.
  rewrite Rabs_pos_eq in E by lra. rewrite Rabs_pos_eq in E by lra. rewrite sqrt_1 in E.
  replace 4 with (2 * 2) in E by ring. rewrite sqrt_square in E by lra. lra.
Qed.

Lemma bootstrap_around_data : ~ (forall values model perm, length model = length values -> Permutation perm (seq 0 (length values)) ->
  residual_bootstrap values model (resample values model perm) perm).
Proof.
  intros H. specialize (H [1; -1] [0; 0] [1%nat; 0%nat] eq_refl (perm_swap 0%nat 1%nat [])).
  destruct H as [_ H]. specialize (H 0%nat ltac:(cbn; lia)). cbn in H. lra.
Qed.

Lemma permute_nth l perm i : (i < length perm)%nat -> nth i (permute l perm) 0 = nth (nth i perm 0%nat) l 0.
Proof.
  intros Hi. unfold permute. rewrite (nth_indep _ _ ((fun i => nth i l 0) 0%nat)) by (now rewrite map_length).
  now rewrite (map_nth (fun i => nth i l 0) _ 0%nat).
Qed.

(** What the code resamples: the data plus the permuted residuals. *)
Lemma resample_nth values model perm i : length model = length values -> Permutation perm (seq 0 (length values)) -> (i < length values)%nat ->
  nth i (resample values model perm) 0 = nth i values 0 + (nth (nth i perm 0%nat) values 0 - nth (nth i perm 0%nat) model 0).
Proof.
  intros Hm Hp Hi. assert (Lp : length perm = length values) by (rewrite (Permutation_length Hp), seq_length; reflexivity).
  assert (Hj : (nth i perm 0 < length values)%nat).
  { assert (In (nth i perm 0%nat) (seq 0 (length values))) by (eapply Permutation_in; [exact Hp|]; apply nth_In; lia).
    apply in_seq in H. lia. }
  unfold resample. rewrite (map2_nth _ _ _ _ 0 0) by (rewrite ?Hm; unfold permute; rewrite ?map_length; lia).
  rewrite permute_nth by lia. rewrite (map2_nth _ _ _ _ 0 0) by lia. reflexivity.
Qed.

(** ** Percentiles *)

Lemma insert_perm x l : Permutation (insert_r x l) (x :: l).
Proof.
  induction l as [|y l IH]; cbn [insert_r]; [reflexivity|]. destruct (Rleb x y); [reflexivity|].
  rewrite IH. apply perm_swap.
Qed.
Lemma sort_perm l : Permutation (sort_r l) l.
Proof. induction l as [|x l IH]; cbn [sort_r fold_right]; [reflexivity|]. rewrite insert_perm. now constructor. Qed.
Lemma insert_sorted x l : StronglySorted Rle l -> StronglySorted Rle (insert_r x l).
Proof.
  induction l as [|y l IH]; cbn [insert_r]; intros H.
  - repeat constructor.
  - inversion H as [|? ? Hl Hy]; subst. destruct (Rleb_spec x y) as [L|L].
    + constructor; [exact H|]. constructor; [exact L|]. rewrite Forall_forall in *. intros z Hz. specialize (Hy z Hz). lra.
    + constructor; [now apply IH|]. rewrite Forall_forall in *. intros z Hz.
      apply (Permutation_in _ (insert_perm x l)) in Hz. destruct Hz as [<-|Hz]; [lra|auto].
Qed.
Lemma sort_sorted l : StronglySorted Rle (sort_r l).
Proof. induction l as [|x l IH]; cbn [sort_r fold_right]; [constructor|]. now apply insert_sorted. Qed.

Lemma sorted_nth l i j : StronglySorted Rle l -> (i <= j)%nat -> (j < length l)%nat -> nth i l 0 <= nth j l 0.
Proof.
  intros H. revert i j. induction H as [|x l Hl IH Hx]; intros i j Hij Hj; [cbn in Hj; lia|].
  destruct i as [|i], j as [|j]; cbn [nth]; try lra; try lia.
  - rewrite Forall_forall in Hx. apply Hx. apply nth_In. cbn in Hj. lia.
  - apply IH; cbn in Hj; lia.
Qed.

Lemma Int_part_lt r (n : nat) : 0 <= r <= INR n -> (Z.to_nat (Int_part r) <= n)%nat /\ 0 <= r - INR (Z.to_nat (Int_part r)) < 1.
Proof.
  intros [H0 H1]. destruct (base_Int_part r) as [A B].
  assert (P : (0 <= Int_part r)%Z). { assert (-1 < Int_part r)%Z; [|lia]. apply lt_IZR. change (IZR (-1)) with (-1). lra. }
  assert (Q : INR (Z.to_nat (Int_part r)) = IZR (Int_part r)) by (rewrite INR_IZR_INZ, Z2Nat.id by exact P; reflexivity).
  rewrite Q. split; [|lra]. apply INR_le. rewrite Q. lra.
Qed.

Lemma percentile_mono l q1 q2 : StronglySorted Rle l -> l <> [] -> 0 <= q1 -> q1 <= q2 -> q2 <= 100 ->
  percentile l q1 <= percentile l q2.
Proof.
  intros Hs Hl H0 H12 H2. unfold percentile. cbv zeta.
  assert (Hn : (0 < length l)%nat) by (destruct l; [contradiction|cbn; lia]).
  set (n := length l) in *.
  assert (HN : INR n - 1 = INR (n - 1)) by (rewrite minus_INR by lia; reflexivity).
  rewrite HN. set (p1 := q1 / 100 * INR (n - 1)). set (p2 := q2 / 100 * INR (n - 1)).
  pose proof (pos_INR (n - 1)) as P.
  assert (B1 : 0 <= p1 <= INR (n - 1)). { unfold p1. split; [apply Rmult_le_pos; lra|]. rewrite <- (Rmult_1_l (INR (n - 1))) at 2. apply Rmult_le_compat_r; lra. }
  assert (B2 : 0 <= p2 <= INR (n - 1)). { unfold p2. split; [apply Rmult_le_pos; lra|]. rewrite <- (Rmult_1_l (INR (n - 1))) at 2. apply Rmult_le_compat_r; lra. }
  assert (B12 : p1 <= p2) by (apply Rmult_le_compat_r; lra).
  destruct (Int_part_lt _ _ B1) as [I1 G1]. destruct (Int_part_lt _ _ B2) as [I2 G2].
  set (i1 := Z.to_nat (Int_part p1)) in *. set (i2 := Z.to_nat (Int_part p2)) in *.
  assert (I12 : (i1 <= i2)%nat).
  { apply Nat.lt_succ_r. apply INR_lt. rewrite S_INR. lra. }
  assert (M1 : nth i1 l 0 <= nth (Nat.min (S i1) (n - 1)) l 0) by (apply sorted_nth; [exact Hs|lia|fold n; lia]).
  assert (M2 : nth i2 l 0 <= nth (Nat.min (S i2) (n - 1)) l 0) by (apply sorted_nth; [exact Hs|lia|fold n; lia]).
  destruct (Nat.eq_dec i1 i2) as [E|E].
  - rewrite <- E in *. apply Rplus_le_compat_l. apply Rmult_le_compat_r; lra.
  - assert (M12 : nth (Nat.min (S i1) (n - 1)) l 0 <= nth i2 l 0) by (apply sorted_nth; [exact Hs|lia|fold n; lia]).
    set (a1 := nth i1 l 0) in *. set (b1 := nth (Nat.min (S i1) (n - 1)) l 0) in *.
    set (a2 := nth i2 l 0) in *. set (b2 := nth (Nat.min (S i2) (n - 1)) l 0) in *.
    assert ((p1 - INR i1) * (b1 - a1) <= 1 * (b1 - a1)) by (apply Rmult_le_compat_r; lra).
    assert (0 <= (p2 - INR i2) * (b2 - a2)) by (apply Rmult_le_pos; lra). lra.
Qed.

Lemma boot_errors_nonneg solve perms vals xs ys p0 alpha rw fx r e : 0 <= alpha <= 1 -> perms <> [] ->
  fit_elliptical_powerlaw solve perms (map Fin vals) xs ys p0 true true alpha rw fx = Ok r ->
  length (r_stderrs r) = 4%nat /\ (In (Fin e) (r_stderrs r) -> 0 <= e).
Proof.
  intros Ha Hp H. unfold fit_elliptical_powerlaw in H.
  assert (F : forallb is_fin (map Fin vals) = true) by (apply forallb_forall; intros v Hv; apply in_map_iff in Hv; destruct Hv as [r0 [<- _]]; reflexivity).
  rewrite F in H. cbn [negb] in H. rewrite fins_map_Fin in H. cbv zeta in H.
  assert (Q : forall s : list R, s <> [] -> 0 <= 1 / 2 * (percentile (sort_r s) (100 * (1 / 2 + alpha / 2)) - percentile (sort_r s) (100 * (1 / 2 - alpha / 2)))).
  { intros s Hs. assert (percentile (sort_r s) (100 * (1 / 2 - alpha / 2)) <= percentile (sort_r s) (100 * (1 / 2 + alpha / 2))); [|lra].
    apply percentile_mono; try lra; [apply sort_sorted|]. intros E. pose proof (Permutation_length (sort_perm s)) as L. rewrite E in L. destruct s; [contradiction|discriminate]. }
  assert (Z : forall (g : params -> R) (b : list nat -> params), map g (map b perms) <> []).
  { intros g b. destruct perms; [contradiction|discriminate]. }
  assert (K : forall (b : list nat -> params) fm ft (g : params -> R),
    Ok (mkFit fm [Fin (1 / 2 * (percentile (sort_r (map p_amp (map b perms))) (100 * (1 / 2 + alpha / 2)) - percentile (sort_r (map p_amp (map b perms))) (100 * (1 / 2 - alpha / 2))));
          if forallb (fun p => is_fin (p_ell p)) (map b perms) then Fin (1 / 2 * (percentile (sort_r (map g (map b perms))) (100 * (1 / 2 + alpha / 2)) - percentile (sort_r (map g (map b perms))) (100 * (1 / 2 - alpha / 2)))) else NaN;
          Fin (1 / 2 * (percentile (sort_r (map p_theta (map b perms))) (100 * (1 / 2 + alpha / 2)) - percentile (sort_r (map p_theta (map b perms))) (100 * (1 / 2 - alpha / 2))));
          Fin (1 / 2 * (percentile (sort_r (map p_gamma (map b perms))) (100 * (1 / 2 + alpha / 2)) - percentile (sort_r (map p_gamma (map b perms))) (100 * (1 / 2 - alpha / 2))))] ft) = Ok r ->
    length (r_stderrs r) = 4%nat /\ (In (Fin e) (r_stderrs r) -> 0 <= e)).
  { intros b fm ft g E. assert (E' := f_equal (fun x => match x with Ok y => r_stderrs y | Err _ => [] end) E). cbn [r_stderrs] in E'. clear E.
    rewrite <- E'. split; [reflexivity|]. intros I.
    destruct I as [I|[I|[I|[I|[]]]]].
    - inversion I. apply Q, Z.
    - revert I. destruct (forallb (fun p => is_fin (p_ell p)) (map b perms)); intros I; [inversion I; apply Q, Z|discriminate].
    - inversion I. apply Q, Z.
    - inversion I. apply Q, Z. }
  destruct (solve _ fx vals _) as [p1 c1]. destruct (negb fx).
  - destruct (solve _ false vals _) as [p2 c2]. destruct (fltb _ _); exact (K _ _ _ _ H).
  - exact (K _ _ _ _ H).
Qed.
