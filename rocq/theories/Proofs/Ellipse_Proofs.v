(** Proofs about Model/Ellipse.v: from a conic to the parameters of an ellipse. *)
From Coq Require Import Reals List Lia Lra Arith Bool.
From Verif Require Import Lib.PyBase Lib.RSum Lib.Fl Lib.Mat3 Lib.Trig2 Spec.Conic Model.EllipPlaw Model.Pca Model.PcaFit Model.Ellipse.
Import ListNotations.
Local Open Scope R_scope.

Definition params_of (k : conic) : ellipse := conic_params (k_A k) (k_B k) (k_C k) (k_D k) (k_F k) (k_G k).

(** Halves of the coefficients, as in the code *)
Definition hb k := k_B k / 2.
Definition hterm k := sqrt ((k_A k - k_C k) ^ 2 + 4 * hb k ^ 2).
(** Minus the value at the centre *)
Definition level k := - conic_value k (l_x (params_of k), l_y (params_of k)).
Definition lam1 k := (k_A k + k_C k - hterm k) / 2.
Definition lam2 k := (k_A k + k_C k + hterm k) / 2.

Lemma elliptic_disc k : elliptic k -> 0 < k_A k * k_C k - hb k ^ 2.
Proof. unfold elliptic, hb. intros H. replace (k_A k * k_C k - (k_B k / 2) ^ 2) with ((4 * k_A k * k_C k - k_B k ^ 2) / 4) by field. lra. Qed.

Lemma centred k x y : elliptic k ->
  conic_value k (l_x (params_of k) + x, l_y (params_of k) + y) = k_A k * x ^ 2 + 2 * hb k * x * y + k_C k * y ^ 2 - level k.
Proof.
  intros H. apply elliptic_disc in H. unfold level, conic_value, params_of, conic_params, hb in *. cbn [l_x l_y fst snd].
  field. intros E. lra.
Qed.

Lemma hterm_sqr k : hterm k * hterm k = (k_A k - k_C k) ^ 2 + 4 * hb k ^ 2.
Proof. apply sqrt_sqrt. apply Rplus_le_le_0_compat; [apply pow2_ge_0|]. apply Rmult_le_pos; [lra|apply pow2_ge_0]. Qed.

Lemma hterm_pos k : 0 <= hterm k.
Proof. apply sqrt_pos. Qed.

Lemma lam_prod k : lam1 k * lam2 k = k_A k * k_C k - hb k ^ 2.
Proof. unfold lam1, lam2. pose proof (hterm_sqr k). replace ((k_A k + k_C k - hterm k) / 2 * ((k_A k + k_C k + hterm k) / 2)) with (((k_A k + k_C k) ^ 2 - hterm k * hterm k) / 4) by field. rewrite H. field. Qed.

Lemma widths k : elliptic k ->
  l_a (params_of k) = nan_to_num (fsqrt (Fin (level k / lam1 k))) /\ l_b (params_of k) = nan_to_num (fsqrt (Fin (level k / lam2 k))).
Proof.
  intros H. pose proof (elliptic_disc k H) as D. pose proof (lam_prod k) as P.
  assert (N1 : lam1 k <> 0) by (intros E; rewrite E in P; lra). assert (N2 : lam2 k <> 0) by (intros E; rewrite E in P; lra).
  unfold params_of, conic_params. cbv zeta. cbn [l_a l_b].
  fold (hb k). fold (hterm k).
  assert (LV : level k = (k_A k * (k_F k / 2) ^ 2 + k_C k * (k_D k / 2) ^ 2 + k_G k * hb k ^ 2 - 2 * hb k * (k_D k / 2) * (k_F k / 2) - k_A k * k_C k * k_G k) / (k_A k * k_C k - hb k ^ 2)).
  { unfold level, conic_value, params_of, conic_params. cbn [l_x l_y fst snd]. fold (hb k).
    replace (k_B k) with (2 * hb k) by (unfold hb; field). field. split; intros E; lra. }
  set (num := k_A k * (k_F k / 2) ^ 2 + k_C k * (k_D k / 2) ^ 2 + k_G k * hb k ^ 2 - 2 * hb k * (k_D k / 2) * (k_F k / 2) - k_A k * k_C k * k_G k) in *.
  assert (E1 : 2 * num / ((hb k ^ 2 - k_A k * k_C k) * (hterm k - (k_A k + k_C k))) = level k / lam1 k).
  { rewrite LV. unfold lam1 in *. field. repeat split; try (intros E; lra). }
  assert (E2 : 2 * num / ((hb k ^ 2 - k_A k * k_C k) * (- hterm k - (k_A k + k_C k))) = level k / lam2 k).
  { rewrite LV. unfold lam2 in *. field. repeat split; try (intros E; lra). }
  rewrite E1, E2. split; reflexivity.
Qed.

(** The form has the sign of its eigenvalues *)
Definition form k x y := k_A k * x ^ 2 + 2 * hb k * x * y + k_C k * y ^ 2.

Lemma form_sign k x y : elliptic k -> (x <> 0 \/ y <> 0) -> 0 < k_A k * form k x y.
Proof.
  intros H Hn. pose proof (elliptic_disc k H) as D.
  replace (k_A k * form k x y) with ((k_A k * x + hb k * y) ^ 2 + (k_A k * k_C k - hb k ^ 2) * y ^ 2) by (unfold form; ring).
  destruct (Req_dec y 0) as [->|Hy].
  - assert (x <> 0) by tauto. assert (k_A k <> 0) by (intros E; rewrite E in D; pose proof (pow2_ge_0 (hb k)); lra).
    replace ((k_A k * x + hb k * 0) ^ 2 + (k_A k * k_C k - hb k ^ 2) * 0 ^ 2) with (Rsqr (k_A k * x)) by (unfold Rsqr; ring).
    apply Rsqr_pos_lt. now apply Rmult_integral_contrapositive.
  - apply Rplus_le_lt_0_compat; [apply pow2_ge_0|]. apply Rmult_lt_0_compat; [exact D|]. replace (y ^ 2) with (Rsqr y) by (unfold Rsqr; ring). now apply Rsqr_pos_lt.
Qed.

Lemma A_nonzero k : elliptic k -> k_A k <> 0.
Proof. intros H E. pose proof (form_sign k 1 0 H (or_introl R1_neq_R0)) as F. rewrite E in F. lra. Qed.

Lemma lam_sign k : elliptic k -> 0 < k_A k * lam1 k /\ 0 < k_A k * lam2 k.
Proof.
  intros H. pose proof (lam_prod k) as P. pose proof (elliptic_disc k H) as D. rewrite <- P in D. pose proof (A_nonzero k H) as NA.
  assert (AC : 0 < k_A k * k_C k) by (pose proof (elliptic_disc k H); pose proof (pow2_ge_0 (hb k)); lra).
  assert (SA : 0 < k_A k * k_A k) by (now apply Rsqr_pos_lt).
  assert (SM : k_A k * lam1 k + k_A k * lam2 k = k_A k * k_A k + k_A k * k_C k) by (unfold lam1, lam2; field).
  assert (PR : 0 < (k_A k * lam1 k) * (k_A k * lam2 k)) by (replace (k_A k * lam1 k * (k_A k * lam2 k)) with ((k_A k * k_A k) * (lam1 k * lam2 k)) by ring; now apply Rmult_lt_0_compat).
  set (u := k_A k * lam1 k) in *. set (v := k_A k * lam2 k) in *.
  destruct (Rlt_le_dec 0 u) as [U|U].
  - split; [exact U|]. destruct (Rlt_le_dec 0 v); [assumption|]. exfalso. assert (0 <= u * - v) by (apply Rmult_le_pos; lra). lra.
  - exfalso. assert (0 < v) by lra. assert (0 <= - u * v) by (apply Rmult_le_pos; lra). lra.
Qed.

Lemma level_sign k : is_ellipse k -> 0 < k_A k * level k.
Proof.
  intros [H [p [q [Hp [Hq N]]]]].
  assert (K : forall r, on_conic k r -> r <> (l_x (params_of k), l_y (params_of k)) -> 0 < k_A k * level k).
  { intros [x y] Hr Hn. unfold on_conic in Hr. pose proof (centred k (x - l_x (params_of k)) (y - l_y (params_of k)) H) as C.
    replace (l_x (params_of k) + (x - l_x (params_of k))) with x in C by ring. replace (l_y (params_of k) + (y - l_y (params_of k))) with y in C by ring.
    rewrite Hr in C. fold (form k (x - l_x (params_of k)) (y - l_y (params_of k))) in C.
    assert (E : level k = form k (x - l_x (params_of k)) (y - l_y (params_of k))) by lra. rewrite E. apply form_sign; [exact H|].
    destruct (Req_dec (x - l_x (params_of k)) 0) as [X|X]; [|now left]. destruct (Req_dec (y - l_y (params_of k)) 0) as [Y|Y]; [|now right].
    exfalso. apply Hn. f_equal; lra. }
  destruct (Req_dec (fst p) (l_x (params_of k))) as [E1|E1].
  - destruct (Req_dec (snd p) (l_y (params_of k))) as [E2|E2].
    + apply (K q Hq). intros E. apply N. rewrite E. destruct p; cbn in *; congruence.
    + apply (K p Hp). intros E. apply E2. now rewrite E.
  - apply (K p Hp). intros E. apply E1. now rewrite E.
Qed.

Lemma quotient_sign a u v : 0 < a * u -> 0 < a * v -> 0 < u / v.
Proof.
  intros H1 H2. assert (a <> 0) by (intros E; rewrite E in H1; lra). assert (v <> 0) by (intros E; rewrite E in H2; lra).
  replace (u / v) with ((a * u) / (a * v)) by (field; auto). now apply Rdiv_lt_0_compat.
Qed.

Lemma axes k : is_ellipse k ->
  0 < l_a (params_of k) /\ 0 < l_b (params_of k) /\ l_a (params_of k) ^ 2 * lam1 k = level k /\ l_b (params_of k) ^ 2 * lam2 k = level k.
Proof.
  intros H. pose proof (level_sign k H) as L. destruct H as [H _]. destruct (lam_sign k H) as [S1 S2]. destruct (widths k H) as [W1 W2].
  pose proof (quotient_sign _ _ _ L S1) as Q1. pose proof (quotient_sign _ _ _ L S2) as Q2.
  rewrite fsqrt_fin in W1 by lra. rewrite fsqrt_fin in W2 by lra. cbn [nan_to_num] in W1, W2. rewrite W1, W2.
  assert (N1 : lam1 k <> 0) by (intros E; rewrite E in S1; lra). assert (N2 : lam2 k <> 0) by (intros E; rewrite E in S2; lra).
  split; [now apply sqrt_lt_R0|]. split; [now apply sqrt_lt_R0|].
  rewrite !pow2_sqrt by lra. split; field; auto.
Qed.

(** The angle: cosine and sine of its double *)
Lemma cos_half_atan r : cos (atan r) = / sqrt (1 + r ^ 2) /\ sin (atan r) = r / sqrt (1 + r ^ 2).
Proof.
  assert (C : 0 < cos (atan r)). { destruct (atan_bound r). apply cos_gt_0; lra. }
  assert (T : sin (atan r) = r * cos (atan r)). { pose proof (tan_atan r) as T. unfold tan in T. rewrite <- T at 2. field. lra. }
  assert (Q : cos (atan r) * cos (atan r) * (1 + r ^ 2) = 1).
  { pose proof (sin2_cos2 (atan r)) as S. unfold Rsqr in S. rewrite T in S. lra. }
  assert (P : 0 < 1 + r ^ 2) by (pose proof (pow2_ge_0 r); lra).
  assert (SP : 0 < sqrt (1 + r ^ 2)) by now apply sqrt_lt_R0.
  assert (E : cos (atan r) * sqrt (1 + r ^ 2) = 1).
  { apply Rsqr_inj; [apply Rmult_le_pos; lra|lra|]. unfold Rsqr.
    transitivity (cos (atan r) * cos (atan r) * (sqrt (1 + r ^ 2) * sqrt (1 + r ^ 2))); [ring|]. rewrite sqrt_sqrt by lra. rewrite Q. ring. }
  assert (E1 : cos (atan r) = / sqrt (1 + r ^ 2)).
  { apply (Rmult_eq_reg_r (sqrt (1 + r ^ 2))); [|lra]. rewrite E. field. lra. }
  split; [exact E1|]. rewrite T, E1. reflexivity.
Qed.

Lemma angle k : elliptic k -> ~ tilted45 k -> hterm k * cos (2 * l_theta (params_of k)) = k_C k - k_A k /\ hterm k * sin (2 * l_theta (params_of k)) = - (2 * hb k).
Proof.
  intros H NT. unfold params_of, conic_params. cbv zeta. cbn [l_theta]. fold (hb k).
  set (a := k_A k). set (c := k_C k). set (b := hb k).
  destruct (Req_dec a c) as [E|N].
  - assert (B0 : b = 0). { destruct (Req_dec b 0) as [Z|Z]; [exact Z|]. exfalso. apply NT. split; [exact E|]. unfold b, hb in Z. intros Z'. rewrite Z' in Z. lra. }
    assert (T0 : hterm k = 0).
    { unfold hterm. fold a c b. rewrite E, B0. replace ((c - c) ^ 2 + 4 * 0 ^ 2) with 0 by ring. apply sqrt_0. }
    rewrite T0, B0, E. split; lra.
  - unfold fdiv. destruct (Reqb_spec (a - c) 0) as [Z|_]; [lra|]. cbn [farctan fmul].
    set (r := 2 * b / (a - c)). destruct (cos_half_atan r) as [CA SA].
    assert (TT : hterm k = Rabs (a - c) * sqrt (1 + r ^ 2)).
    { unfold hterm. fold a c b. rewrite <- sqrt_Rsqr_abs. rewrite <- sqrt_mult; [|apply Rle_0_sqr|pose proof (pow2_ge_0 r); lra].
      f_equal. unfold Rsqr, r. field. lra. }
    assert (SP : 0 < sqrt (1 + r ^ 2)) by (apply sqrt_lt_R0; pose proof (pow2_ge_0 r); lra).
    destruct (Rltb_spec c a) as [L|L].
    + cbn [fadd nan_to_num]. replace (2 * (1 / 2 * atan r + 1 / 2 * PI)) with (atan r + PI) by field.
      rewrite neg_cos, neg_sin, CA, SA, TT, (Rabs_right (a - c)) by lra. split; [field; lra|]. unfold r at 2. field. split; lra.
    + cbn [nan_to_num]. replace (2 * (1 / 2 * atan r)) with (atan r) by field.
      rewrite CA, SA, TT, (Rabs_left (a - c)) by lra. split; [field; lra|]. unfold r at 2. field. split; lra.
Qed.

Lemma diagonal k : elliptic k -> ~ tilted45 k -> let th := l_theta (params_of k) in
  form k (cos th) (sin th) = lam1 k /\ form k (- sin th) (cos th) = lam2 k /\
  (k_C k - k_A k) * (sin th * cos th) + hb k * (cos th ^ 2 - sin th ^ 2) = 0.
Proof.
  intros H NT th. destruct (angle k H NT) as [C S]. fold th in C, S.
  rewrite cos_2a in C. rewrite sin_2a in S.
  pose proof (sin2_cos2 th) as P. unfold Rsqr in P. set (s := sin th) in *. set (c := cos th) in *.
  pose proof (hterm_sqr k) as Q. pose proof (hterm_pos k) as T0. set (t := hterm k) in *.
  assert (X : t = 0 \/ 0 < t) by lra. destruct X as [X|X].
  - (* circle *)
    assert (CA : k_C k = k_A k) by (rewrite X in C; lra). assert (B0 : hb k = 0) by (rewrite X in S; lra).
    unfold form, lam1, lam2. fold t. rewrite X, CA, B0. split; [|split]; [| |ring].
    + transitivity (k_A k * (s * s + c * c)); [ring|]. rewrite P. field.
    + transitivity (k_A k * (s * s + c * c)); [ring|]. rewrite P. field.
  - assert (CC : c * c - s * s = (k_C k - k_A k) / t) by (rewrite <- C; field; lra).
    assert (SC : 2 * s * c = - (2 * hb k) / t) by (rewrite <- S; field; lra).
    assert (c2 : c * c = (1 + (k_C k - k_A k) / t) / 2) by lra. assert (s2 : s * s = (1 - (k_C k - k_A k) / t) / 2) by lra.
    unfold form, lam1, lam2. fold t. split; [|split].
    + transitivity (k_A k * (c * c) + hb k * (2 * s * c) + k_C k * (s * s)); [ring|]. rewrite c2, s2, SC.
      apply (Rmult_eq_reg_r (2 * t)); [|lra].
      transitivity ((k_A k + k_C k) * t - ((k_A k - k_C k) ^ 2 + 4 * hb k ^ 2)); [field; lra|]. rewrite <- Q. field.
    + transitivity (k_A k * (s * s) - hb k * (2 * s * c) + k_C k * (c * c)); [ring|]. rewrite c2, s2, SC.
      apply (Rmult_eq_reg_r (2 * t)); [|lra].
      transitivity ((k_A k + k_C k) * t + ((k_A k - k_C k) ^ 2 + 4 * hb k ^ 2)); [field; lra|]. rewrite <- Q. field.
    + transitivity ((k_C k - k_A k) * (2 * s * c) / 2 + hb k * (c * c - s * s)); [field|]. rewrite SC, CC. field. lra.
Qed.

(** Every predicted point is on the ellipse *)
Lemma predicted_on k t : is_ellipse k -> ~ tilted45 k -> on_conic k (predict (params_of k) t).
Proof.
  intros HE NT. pose proof (axes k HE) as (_&_&A1&A2). destruct HE as [H _]. destruct (diagonal k H NT) as (D1&D2&D3).
  unfold on_conic, predict. set (l := params_of k) in *.
  replace (l_x l + l_a l * cos (l_theta l) * cos t - l_b l * sin (l_theta l) * sin t) with (l_x l + (l_a l * cos (l_theta l) * cos t - l_b l * sin (l_theta l) * sin t)) by ring.
  replace (l_y l + l_a l * sin (l_theta l) * cos t + l_b l * cos (l_theta l) * sin t) with (l_y l + (l_a l * sin (l_theta l) * cos t + l_b l * cos (l_theta l) * sin t)) by ring.
  unfold l. rewrite centred by exact H. fold l. set (w := l_a l) in *. set (h := l_b l) in *. set (C := cos (l_theta l)) in *. set (S := sin (l_theta l)) in *.
  transitivity (w ^ 2 * form k C S * (cos t * cos t) + h ^ 2 * form k (- S) C * (sin t * sin t)
     + 2 * w * h * ((k_C k - k_A k) * (S * C) + hb k * (C ^ 2 - S ^ 2)) * (cos t * sin t) - level k); [unfold form; ring|].
  rewrite D1, D2, D3, A1, A2. pose proof (sin2_cos2 t) as P. unfold Rsqr in P.
  transitivity (level k * (sin t * sin t + cos t * cos t) - level k); [ring|]. rewrite P. ring.
Qed.

(** ... and every point of the ellipse is predicted for some angle *)
Lemma circle_angle u v : u ^ 2 + v ^ 2 = 1 -> exists t, cos t = u /\ sin t = v.
Proof.
  intros H. assert (N : u <> 0 \/ v <> 0). { destruct (Req_dec u 0) as [->|]; [|now left]. right. intros ->. lra. }
  destruct (atan2_polar v u N) as [C S]. exists (atan2 v u).
  assert (E : sqrt (u * u + v * v) = 1) by (replace (u * u + v * v) with 1 by lra; apply sqrt_1).
  rewrite E in C, S. lra.
Qed.

Lemma all_predicted k p : is_ellipse k -> ~ tilted45 k -> on_conic k p -> exists t, predict (params_of k) t = p.
Proof.
  intros HE NT Hp. pose proof (axes k HE) as (W&Hh&A1&A2). destruct HE as [H _]. destruct (diagonal k H NT) as (D1&D2&D3).
  set (l := params_of k) in *. set (w := l_a l) in *. set (h := l_b l) in *. set (C := cos (l_theta l)) in *. set (S := sin (l_theta l)) in *.
  pose proof (sin2_cos2 (l_theta l)) as P. unfold Rsqr in P. fold C S in P.
  destruct p as [x y]. set (X := x - l_x l). set (Y := y - l_y l).
  unfold on_conic in Hp. pose proof (centred k X Y H) as E. fold l in E. replace (l_x l + X) with x in E by (unfold X; ring). replace (l_y l + Y) with y in E by (unfold Y; ring).
  rewrite Hp in E.
  set (u := (X * C + Y * S)). set (v := (- X * S + Y * C)).
  assert (FX : form k X Y = lam1 k * u ^ 2 + lam2 k * v ^ 2).
  { assert (XX : X = u * C - v * S) by (unfold u, v; transitivity (X * (S * S + C * C)); [rewrite P; ring|ring]).
    assert (YY : Y = u * S + v * C) by (unfold u, v; transitivity (Y * (S * S + C * C)); [rewrite P; ring|ring]).
    rewrite XX, YY.
    transitivity (form k C S * u ^ 2 + form k (- S) C * v ^ 2 + 2 * u * v * ((k_C k - k_A k) * (S * C) + hb k * (C ^ 2 - S ^ 2))); [unfold form; ring|].
    rewrite D1, D2, D3. ring. }
  assert (L0 : level k <> 0).
  { intros Z. destruct (lam_sign k H) as [S1 _]. rewrite Z in A1. apply Rmult_integral in A1. destruct A1 as [A1|A1].
    - assert (0 < w ^ 2) by (apply pow_lt; exact W). lra.
    - rewrite A1 in S1. lra. }
  assert (U : (u / w) ^ 2 + (v / h) ^ 2 = 1).
  { fold (form k X Y) in E. assert (FL : form k X Y = level k) by lra. rewrite FX in FL.
    apply (Rmult_eq_reg_l (level k)); [|exact L0]. rewrite Rmult_plus_distr_l, Rmult_1_r.
    transitivity (lam1 k * u ^ 2 + lam2 k * v ^ 2); [|exact FL]. f_equal.
    - rewrite <- A1. field. lra.
    - rewrite <- A2. field. lra. }
  destruct (circle_angle _ _ U) as [t [Ct St]]. exists t. unfold predict. fold w h C S. rewrite Ct, St. f_equal.
  - replace (l_x l + w * C * (u / w) - h * S * (v / h)) with (l_x l + (u * C - v * S)) by (field; lra). unfold u, v.
    transitivity (l_x l + X * (S * S + C * C)); [ring|]. rewrite P. unfold X. ring.
  - replace (l_y l + w * S * (u / w) + h * C * (v / h)) with (l_y l + (u * S + v * C)) by (field; lra). unfold u, v.
    transitivity (l_y l + Y * (S * S + C * C)); [ring|]. rewrite P. unfold Y. ring.
Qed.

Lemma centre k : elliptic k -> centre_of k (l_x (params_of k), l_y (params_of k)).
Proof.
  intros H x y. cbn [fst snd]. rewrite (centred k x y H). change (l_x (params_of k) - x) with (l_x (params_of k) + - x). change (l_y (params_of k) - y) with (l_y (params_of k) + - y).
  rewrite (centred k (- x) (- y) H). ring.
Qed.

(** Tilted by 45 degrees: the first predicted point is off the ellipse *)
Lemma sqrt2_half : cos (PI / 4) * cos (PI / 4) = 1 / 2 /\ cos (PI / 4) = sin (PI / 4).
Proof.
  assert (E : cos (PI / 4) = sin (PI / 4)) by (rewrite cos_PI4, sin_PI4; reflexivity).
  pose proof (sin2_cos2 (PI / 4)) as P. unfold Rsqr in P. rewrite <- E in P. split; [lra|exact E].
Qed.

Lemma tilted_off k : is_ellipse k -> tilted45 k -> ~ on_conic k (predict (params_of k) 0).
Proof.
  intros HE [EA NB]. pose proof (axes k HE) as (W&_&A1&_). pose proof (level_sign k HE) as LS. destruct HE as [H _]. destruct (lam_sign k H) as [S1 S2].
  assert (hbn : hb k <> 0) by (unfold hb; intros Z; apply NB; lra).
  assert (TT : hterm k = 2 * Rabs (hb k)).
  { unfold hterm. rewrite EA. replace ((k_C k - k_C k) ^ 2 + 4 * hb k ^ 2) with (Rsqr (2 * hb k)) by (unfold Rsqr; ring).
    rewrite sqrt_Rsqr_abs, Rabs_mult, Rabs_right by lra. reflexivity. }
  assert (TH : l_theta (params_of k) = (if Rltb 0 (hb k) then PI / 4 else - (PI / 4))).
  { unfold params_of, conic_params. cbv zeta. cbn [l_theta]. fold (hb k). rewrite EA. destruct (Rltb_spec (k_C k) (k_C k)); [lra|].
    unfold fdiv. destruct (Reqb_spec (k_C k - k_C k) 0) as [_|Z]; [|exfalso; apply Z; ring]. unfold sinf.
    destruct (Rltb_spec 0 (2 * hb k)); destruct (Rltb_spec 0 (hb k)); try lra.
    - cbn. field.
    - destruct (Rltb_spec (2 * hb k) 0); [|lra]. cbn. field. }
  destruct sqrt2_half as [Q1 Q2].
  unfold on_conic, predict. set (l := params_of k) in *. rewrite cos_0, sin_0.
  replace (l_x l + l_a l * cos (l_theta l) * 1 - l_b l * sin (l_theta l) * 0) with (l_x l + l_a l * cos (l_theta l)) by ring.
  replace (l_y l + l_a l * sin (l_theta l) * 1 + l_b l * cos (l_theta l) * 0) with (l_y l + l_a l * sin (l_theta l)) by ring.
  unfold l. rewrite centred by exact H. fold l. intros E.
  assert (F : (k_A k + Rabs (hb k)) * l_a l ^ 2 = level k).
  { rewrite <- (Rplus_0_r (level k)), <- E. rewrite TH. rewrite EA. destruct (Rltb_spec 0 (hb k)) as [P|P].
    - rewrite (Rabs_right (hb k)) by lra. rewrite <- Q2. replace ((l_a l * cos (PI / 4)) ^ 2) with (l_a l ^ 2 * (cos (PI / 4) * cos (PI / 4))) by ring.
      replace (2 * hb k * (l_a l * cos (PI / 4)) * (l_a l * cos (PI / 4))) with (2 * hb k * l_a l ^ 2 * (cos (PI / 4) * cos (PI / 4))) by ring. rewrite Q1. field.
    - rewrite (Rabs_left (hb k)) by lra. rewrite cos_neg, sin_neg, <- Q2. replace ((l_a l * cos (PI / 4)) ^ 2) with (l_a l ^ 2 * (cos (PI / 4) * cos (PI / 4))) by ring.
      replace ((l_a l * - cos (PI / 4)) ^ 2) with (l_a l ^ 2 * (cos (PI / 4) * cos (PI / 4))) by ring.
      replace (2 * hb k * (l_a l * cos (PI / 4)) * (l_a l * - cos (PI / 4))) with (- 2 * hb k * l_a l ^ 2 * (cos (PI / 4) * cos (PI / 4))) by ring. rewrite Q1. field. }
  assert (L2 : lam2 k = k_A k + Rabs (hb k)) by (unfold lam2; rewrite TT, EA; field).
  assert (L1 : lam1 k = k_A k - Rabs (hb k)) by (unfold lam1; rewrite TT, EA; field).
  rewrite <- L2 in F. fold l in A1. rewrite <- A1 in F. assert (0 < l_a l ^ 2) by (apply pow_lt; exact W).
  assert (lam2 k = lam1 k). { apply (Rmult_eq_reg_r (l_a l ^ 2)); [|lra]. lra. }
  pose proof (Rabs_pos_lt _ hbn). lra.
Qed.

(** Multiples of the coefficients *)
Lemma elliptic_times s k : s <> 0 -> elliptic k -> elliptic (times s k).
Proof.
  intros N H. unfold elliptic, times in *. cbn [k_A k_B k_C]. replace (4 * (s * k_A k) * (s * k_C k) - (s * k_B k) ^ 2) with ((s * s) * (4 * k_A k * k_C k - k_B k ^ 2)) by ring.
  apply Rmult_lt_0_compat; [now apply Rsqr_pos_lt|exact H].
Qed.
Lemma value_times s k p : conic_value (times s k) p = s * conic_value k p.
Proof. unfold conic_value, times. cbn [k_A k_B k_C k_D k_F k_G]. ring. Qed.
Lemma on_times s k p : s <> 0 -> (on_conic (times s k) p <-> on_conic k p).
Proof.
  intros N. unfold on_conic. rewrite value_times. split; intros H; [|rewrite H; ring]. apply Rmult_integral in H. destruct H; [congruence|assumption].
Qed.
Lemma ellipse_times s k : s <> 0 -> is_ellipse k -> is_ellipse (times s k).
Proof.
  intros N [H [p [q [Hp [Hq Hn]]]]]. split; [now apply elliptic_times|]. exists p, q. rewrite !on_times by exact N. auto.
Qed.
Lemma tilted_times s k : s <> 0 -> tilted45 (times s k) <-> tilted45 k.
Proof.
  intros N. unfold tilted45, times. cbn [k_A k_B k_C]. split; intros [A B]; split.
  - now apply (Rmult_eq_reg_l s).
  - intros Z. apply B. rewrite Z. ring.
  - now rewrite A.
  - intros Z. apply Rmult_integral in Z. tauto.
Qed.
