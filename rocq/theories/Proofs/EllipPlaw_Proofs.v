(** Proofs about the elliptical power law and its fit. *)
From Coq Require Import Reals List Bool ZArith Arith Lra Lia Permutation.
From Coquelicot Require Import Coquelicot.
From Coq Require Import List.
From Verif Require Import Lib.PyBase Lib.RSum Lib.Fl Spec.EllipFit Model.EllipPlaw.
Import ListNotations.
Local Open Scope R_scope.

Lemma exp_pos1 t : 0 < 1 + exp t.
Proof. pose proof (exp_pos t). lra. Qed.

Lemma q_range t : 0 < q_of t < 1.
Proof.
  unfold q_of. pose proof (exp_pos (- t)). split.
  - apply Rdiv_lt_0_compat; lra.
  - apply (Rmult_lt_reg_r (1 + exp (- t))); [lra|]. unfold Rdiv. rewrite Rmult_assoc, Rinv_l by lra. lra.
Qed.

Lemma ellip_of_Fin t : ellip_of (Fin t) = Fin (q_of t).
Proof.
  unfold ellip_of. cbn [fneg fexp fadd fdiv]. destruct (Reqb_spec (1 + exp (- t)) 0) as [E|E]; [pose proof (exp_pos (- t)); lra|reflexivity].
Qed.
Lemma ellip_of_PInf : ellip_of PInf = Fin 1.
Proof. unfold ellip_of. cbn [fneg fexp fadd fdiv]. destruct (Reqb_spec (1 + 0) 0); [lra|]. f_equal. field. Qed.

Lemma form_expand q theta x y :
  x * x * (q * cos theta * (q * cos theta) + sin theta * sin theta) + x * y * (2 * (1 + - (q * q)) * sin theta * cos theta) +
  y * y * (q * sin theta * (q * sin theta) + cos theta * cos theta) = form q theta x y.
Proof. unfold form. ring. Qed.

Lemma evaluate_q x y A e q theta gamma : ellip_of e = Fin q ->
  evaluate x y A e theta gamma = (if Rltb 0 (form q theta x y) then Fin (A + 1 / 2 * gamma * log10 (form q theta x y)) else Fin 0).
Proof.
  intros E. unfold evaluate. cbv zeta. rewrite E. unfold fsqr, fsub.
  cbn [fmul fadd fneg]. rewrite form_expand. unfold flog10.
  assert (N : 0 <= form q theta x y) by (unfold form; apply Rplus_le_le_0_compat; apply pow2_ge_0).
  destruct (Rltb_spec 0 (form q theta x y)) as [L|L].
  - reflexivity.
  - destruct (Rltb_spec (form q theta x y) 0); [lra|]. cbn [fmul]. unfold sinf.
    destruct (Rltb 0 (1 / 2 * gamma)); [reflexivity|]. destruct (Rltb (1 / 2 * gamma) 0); reflexivity.
Qed.

Lemma form_pos q theta x y : 0 < q -> x <> 0 \/ y <> 0 -> 0 < form q theta x y.
Proof.
  intros Hq Hxy.
  assert (N : 0 <= form q theta x y) by (unfold form; apply Rplus_le_le_0_compat; apply pow2_ge_0).
  destruct N as [N|N]; [exact N|exfalso].
  unfold form in N.
  pose proof (pow2_ge_0 (q * (x * cos theta - y * sin theta))) as A.
  pose proof (pow2_ge_0 (x * sin theta + y * cos theta)) as B.
  assert (Z1 : (q * (x * cos theta - y * sin theta)) ^ 2 = 0) by lra.
  assert (Z2 : (x * sin theta + y * cos theta) ^ 2 = 0) by lra.
  apply Rsqr_eq_0 in Z1 || (rewrite <- Rsqr_pow2 in Z1; apply Rsqr_0_uniq in Z1).
  rewrite <- Rsqr_pow2 in Z2. apply Rsqr_0_uniq in Z2.
  apply Rmult_integral in Z1. destruct Z1 as [Z1|Z1]; [lra|].
  pose proof (sin2_cos2 theta) as T. unfold Rsqr in T.
  assert (X : x = 0).
  { replace x with ((x * cos theta - y * sin theta) * cos theta + (x * sin theta + y * cos theta) * sin theta).
    - rewrite Z1, Z2. ring.
    - transitivity (x * (sin theta * sin theta + cos theta * cos theta)); [ring|]. rewrite T. ring. }
  assert (Y : y = 0).
  { replace y with ((x * sin theta + y * cos theta) * cos theta - (x * cos theta - y * sin theta) * sin theta).
    - rewrite Z1, Z2. ring.
    - transitivity (y * (sin theta * sin theta + cos theta * cos theta)); [ring|]. rewrite T. ring. }
  destruct Hxy; contradiction.
Qed.

Lemma form_circle theta x y : form 1 theta x y = x ^ 2 + y ^ 2.
Proof.
  unfold form. pose proof (sin2_cos2 theta) as T. unfold Rsqr in T.
  transitivity ((x ^ 2 + y ^ 2) * (sin theta * sin theta + cos theta * cos theta)); [ring|]. rewrite T. ring.
Qed.

Lemma evaluate_period x y A e theta gamma : evaluate x y A e (theta + PI) gamma = evaluate x y A e theta gamma.
Proof.
  unfold evaluate. rewrite neg_cos, neg_sin. cbv zeta.
  assert (S1 : forall z s, fsqr (fmul z (Fin (- s))) = fsqr (fmul z (Fin s))).
  { intros z s. unfold fsqr. destruct z as [r| | |]; cbn [fmul].
    - f_equal. ring.
    - unfold sinf. destruct (Rltb_spec 0 (- s)), (Rltb_spec 0 s), (Rltb_spec (- s) 0), (Rltb_spec s 0); cbn; reflexivity || lra.
    - unfold sinf. destruct (Rltb_spec 0 (- s)), (Rltb_spec 0 s), (Rltb_spec (- s) 0), (Rltb_spec s 0); cbn; reflexivity || lra.
    - reflexivity. }
  assert (S2 : forall s, fsqr (Fin (- s)) = fsqr (Fin s)) by (intros s; unfold fsqr; cbn [fmul]; f_equal; ring).
  assert (S3 : forall z s c, fmul (fmul z (Fin (- s))) (Fin (- c)) = fmul (fmul z (Fin s)) (Fin c)).
  { intros z s c. destruct z as [r| | |]; cbn [fmul].
    - f_equal. ring.
    - unfold sinf. destruct (Rltb_spec 0 (- s)), (Rltb_spec 0 s), (Rltb_spec (- s) 0), (Rltb_spec s 0); try lra; cbn [fmul fneg];
        unfold sinf; destruct (Rltb_spec 0 (- c)), (Rltb_spec 0 c), (Rltb_spec (- c) 0), (Rltb_spec c 0); cbn; reflexivity || lra.
    - unfold sinf. destruct (Rltb_spec 0 (- s)), (Rltb_spec 0 s), (Rltb_spec (- s) 0), (Rltb_spec s 0); try lra; cbn [fmul fneg];
        unfold sinf; destruct (Rltb_spec 0 (- c)), (Rltb_spec 0 c), (Rltb_spec (- c) 0), (Rltb_spec c 0); cbn; reflexivity || lra.
    - reflexivity. }
  rewrite !S1, !S2, S3. reflexivity.
Qed.

Lemma evaluate_parity x y A e theta gamma : evaluate (- x) (- y) A e theta gamma = evaluate x y A e theta gamma.
Proof.
  unfold evaluate. cbv zeta. unfold fsqr at 4 6 9 11.
  assert (S2 : forall s, fsqr (Fin (- s)) = fsqr (Fin s)) by (intros s; unfold fsqr; cbn [fmul]; f_equal; ring).
  assert (S3 : fmul (Fin (- x)) (Fin (- y)) = fmul (Fin x) (Fin y)) by (cbn [fmul]; f_equal; ring).
  repeat match goal with |- context [fmul (Fin (- ?s)) (Fin (- ?s))] => replace (fmul (Fin (- s)) (Fin (- s))) with (fmul (Fin s) (Fin s)) by (cbn [fmul]; f_equal; ring) end.
  rewrite ?S2, S3. reflexivity.
Qed.

Lemma evaluate_isotropic x y A theta gamma : x <> 0 \/ y <> 0 ->
  evaluate x y A PInf theta gamma = Fin (A + gamma * log10 (sqrt (x ^ 2 + y ^ 2))).
Proof.
  intros H. rewrite (evaluate_q _ _ _ _ 1) by apply ellip_of_PInf. rewrite form_circle.
  pose proof (form_pos 1 theta x y Rlt_0_1 H) as P. rewrite form_circle in P.
  destruct (Rltb_spec 0 (x ^ 2 + y ^ 2)); [|lra]. f_equal.
  replace (log10 (sqrt (x ^ 2 + y ^ 2))) with (1 / 2 * log10 (x ^ 2 + y ^ 2)); [ring|].
  unfold log10. assert (E : ln (x ^ 2 + y ^ 2) = 2 * ln (sqrt (x ^ 2 + y ^ 2))).
  { rewrite <- (sqrt_sqrt (x ^ 2 + y ^ 2)) at 1 by lra. rewrite ln_mult by (apply sqrt_lt_R0; exact P). ring. }
  rewrite E. field. apply Rgt_not_eq. apply Rlt_gt. rewrite <- ln_1. apply ln_increasing; lra.
Qed.

Lemma evaluate_away x y A t theta gamma : x <> 0 \/ y <> 0 ->
  evaluate x y A (Fin t) theta gamma = Fin (A + 1 / 2 * gamma * log10 (form (q_of t) theta x y)).
Proof.
  intros H. rewrite (evaluate_q _ _ _ _ _ _ _ (ellip_of_Fin t)).
  pose proof (form_pos (q_of t) theta x y (proj1 (q_range t)) H).
  destruct (Rltb_spec 0 (form (q_of t) theta x y)); [reflexivity|lra].
Qed.

Lemma evaluate_origin A e theta gamma : evaluate 0 0 A e theta gamma = Fin 0.
Proof.
  destruct e as [t| | |].
  - rewrite (evaluate_q _ _ _ _ _ _ _ (ellip_of_Fin t)). unfold form.
    match goal with |- context [Rltb 0 ?v] => replace v with 0 by ring end. destruct (Rltb_spec 0 0); [lra|reflexivity].
  - rewrite (evaluate_q _ _ _ _ _ _ _ ellip_of_PInf). unfold form.
    match goal with |- context [Rltb 0 ?v] => replace v with 0 by ring end. destruct (Rltb_spec 0 0); [lra|reflexivity].
  - assert (E : ellip_of NInf = Fin 0) by reflexivity.
    rewrite (evaluate_q _ _ _ _ _ _ _ E). unfold form.
    match goal with |- context [Rltb 0 ?v] => replace v with 0 by ring end. destruct (Rltb_spec 0 0); [lra|reflexivity].
  - reflexivity.
Qed.

(** ** The interval transforms *)

Lemma transform_inverse a b x : a < x < b -> inverse_interval_transform (interval_transform x a b) a b = x.
Proof.
  intros H. unfold inverse_interval_transform, interval_transform.
  replace (- (ln (x - a) - ln (b - x))) with (ln (b - x) + - ln (x - a)) by ring.
  rewrite exp_plus, exp_Ropp, !exp_ln by lra. field. lra.
Qed.

Lemma inverse_range a b t : a < b -> a < inverse_interval_transform t a b < b.
Proof.
  intros H. unfold inverse_interval_transform. pose proof (exp_pos (- t)) as P.
  assert (Q : 0 < (b - a) / (1 + exp (- t)) < b - a).
  { split; [apply Rdiv_lt_0_compat; lra|]. apply (Rmult_lt_reg_r (1 + exp (- t))); [lra|].
    unfold Rdiv. rewrite Rmult_assoc, Rinv_l by lra. rewrite Rmult_1_r, Rmult_plus_distr_l.
    pose proof (Rmult_lt_0_compat (b - a) (exp (- t)) ltac:(lra) P). lra. }
  lra.
Qed.

Lemma inverse_transform a b t : a < b -> interval_transform (inverse_interval_transform t a b) a b = t.
Proof.
  intros H. unfold inverse_interval_transform, interval_transform. pose proof (exp_pos (- t)) as P.
  replace ((b - a) / (1 + exp (- t)) + a - a) with ((b - a) / (1 + exp (- t))) by ring.
  replace (b - ((b - a) / (1 + exp (- t)) + a)) with ((b - a) / (1 + exp (- t)) * exp (- t)) by (field; lra).
  assert (Q : 0 < (b - a) / (1 + exp (- t))) by (apply Rdiv_lt_0_compat; lra).
  rewrite ln_mult by assumption. rewrite ln_exp. ring.
Qed.

Lemma transform_increasing a b x y : a < x -> x < y -> y < b -> interval_transform x a b < interval_transform y a b.
Proof.
  intros. unfold interval_transform.
  assert (ln (x - a) < ln (y - a)) by (apply ln_increasing; lra).
  assert (ln (b - y) < ln (b - x)) by (apply ln_increasing; lra). lra.
Qed.

Lemma inverse_increasing a b s t : a < b -> s < t -> inverse_interval_transform s a b < inverse_interval_transform t a b.
Proof.
  intros H Hs. unfold inverse_interval_transform. apply Rplus_lt_compat_r.
  assert (exp (- t) < exp (- s)) by (apply exp_increasing; lra). pose proof (exp_pos (- t)).
  unfold Rdiv. apply Rmult_lt_compat_l; [lra|]. apply Rinv_lt_contravar; [|lra].
  apply Rmult_lt_0_compat; lra.
Qed.

Lemma transform_derive a b x : a < x < b -> is_derive (fun x => interval_transform x a b) x (1 / (x - a) + 1 / (b - x)).
Proof. intros H. unfold interval_transform. auto_derive; [repeat split; lra|]. field. lra. Qed.

Lemma transform_stderr a b x dx d : a < x < b -> is_derive (fun x => interval_transform x a b) x d ->
  interval_transform_stderr dx x a b = Rabs d * dx.
Proof.
  intros H D. unfold interval_transform_stderr.
  rewrite <- (is_derive_unique _ _ _ D), (is_derive_unique _ _ _ (transform_derive a b x H)). reflexivity.
Qed.

Lemma inverse_derive a b t : is_derive (fun t => inverse_interval_transform t a b) t ((b - a) * exp (- t) / (1 + exp (- t)) ^ 2).
Proof.
  unfold inverse_interval_transform. pose proof (exp_pos (- t)).
  auto_derive; [lra|]. field. lra.
Qed.

Lemma inverse_stderr a b t dt d : is_derive (fun t => inverse_interval_transform t a b) t d ->
  inverse_interval_transform_stderr dt t a b = Rabs d * dt.
Proof.
  intros D. unfold inverse_interval_transform_stderr.
  rewrite <- (is_derive_unique _ _ _ D), (is_derive_unique _ _ _ (inverse_derive a b t)). reflexivity.
Qed.
