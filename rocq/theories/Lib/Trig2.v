(** arctan2, and angles modulo a full turn. *)
From Coq Require Import Reals Lra Lia ZArith Bool.
From Verif Require Import Lib.Fl.
Local Open Scope R_scope.

(** np.arctan2(y, x) (no signed zeros: arctan2(0, x<0) = pi, arctan2(0,0) = 0) *)
Definition atan2 (y x : R) : R :=
  if Rltb 0 x then atan (y / x)
  else if Rltb x 0 then (if Rleb 0 y then atan (y / x) + PI else atan (y / x) - PI)
  else if Rltb 0 y then PI / 2
  else if Rltb y 0 then - (PI / 2)
  else 0.

(** astropy's Angle.wrap_at(pi): representative in [-pi, pi) *)
Definition wrap_pi (t : R) : R := t - 2 * PI * IZR (Int_part ((t + PI) / (2 * PI))).

(** The angles differ by a multiple of a full turn. *)
Definition same_direction (s t : R) : Prop := exists k : Z, s = t + 2 * PI * IZR k.

Lemma PI_pos : 0 < PI.
Proof. exact PI_RGT_0. Qed.

Lemma wrap_pi_spec t : - PI <= wrap_pi t < PI /\ exists k : Z, wrap_pi t = t - 2 * PI * IZR k.
Proof.
  unfold wrap_pi. set (k := Int_part ((t + PI) / (2 * PI))).
  split; [|now exists k].
  pose proof PI_pos as HP. destruct (base_Int_part ((t + PI) / (2 * PI))) as [B1 B2]. fold k in B1, B2.
  assert (E : t + PI = (t + PI) / (2 * PI) * (2 * PI)) by (field; lra).
  set (q := (t + PI) / (2 * PI)) in *. split; nra.
Qed.

Lemma atan2_range y x : - PI < atan2 y x <= PI.
Proof.
  pose proof PI_pos as HP. unfold atan2.
  destruct (Rltb_spec 0 x) as [Hx|Hx].
  - pose proof (atan_bound (y / x)). lra.
  - destruct (Rltb_spec x 0) as [Hx'|Hx'].
    + destruct (Rleb_spec 0 y) as [Hy|Hy]; pose proof (atan_bound (y / x)) as B.
      * assert (atan (y / x) <= 0).
        { destruct (Req_dec y 0) as [->|Hy0].
          - unfold Rdiv. rewrite Rmult_0_l, atan_0. lra.
          - left. rewrite <- atan_0. apply atan_increasing.
            assert (0 < y / - x) by (apply Rdiv_lt_0_compat; lra).
            replace (y / x) with (- (y / - x)) by (field; lra). lra. }
        lra.
      * assert (0 < atan (y / x)).
        { rewrite <- atan_0. apply atan_increasing.
          replace (y / x) with ((- y) / (- x)) by (field; lra). apply Rdiv_lt_0_compat; lra. }
        lra.
    + destruct (Rltb_spec 0 y); [lra|]. destruct (Rltb_spec y 0); lra.
Qed.

(** The opposite point has the opposite direction. *)
Lemma atan2_opp y x : x <> 0 \/ y <> 0 ->
  atan2 (- y) (- x) = atan2 y x + PI \/ atan2 (- y) (- x) = atan2 y x - PI.
Proof.
  intros H. pose proof PI_pos as HP. unfold atan2.
  assert (E : forall x, x <> 0 -> - y / - x = y / x) by (intros; field; auto).
  destruct (Rltb_spec 0 x) as [Hx|Hx]; destruct (Rltb_spec 0 (- x)) as [Hx1|Hx1]; try lra.
  - destruct (Rltb_spec (- x) 0) as [Hx2|Hx2]; [|lra]. rewrite E by lra.
    destruct (Rleb_spec 0 (- y)); [left|right]; reflexivity.
  - rewrite E by lra. destruct (Rltb_spec x 0) as [Hx2|Hx2]; [|lra].
    destruct (Rleb_spec 0 y); [right|left]; lra.
  - destruct (Rltb_spec x 0); [lra|]. destruct (Rltb_spec (- x) 0); [lra|].
    assert (x = 0) by lra. destruct (Rltb_spec 0 y); destruct (Rltb_spec 0 (- y)); try lra.
    + destruct (Rltb_spec (- y) 0); lra.
    + destruct (Rltb_spec y 0); [lra|]. destruct H; lra.
Qed.

(** Polar form. *)
Lemma atan2_polar y x : x <> 0 \/ y <> 0 ->
  x = sqrt (x * x + y * y) * cos (atan2 y x) /\ y = sqrt (x * x + y * y) * sin (atan2 y x).
Proof.
  intros H.
  assert (Hpos : forall a b, 0 < a ->
    a = sqrt (a * a + b * b) * cos (atan (b / a)) /\ b = sqrt (a * a + b * b) * sin (atan (b / a))).
  { intros a b Ha. rewrite cos_atan, sin_atan. unfold Rsqr.
    assert (E : 1 + b / a * (b / a) = (a * a + b * b) * (/ a * / a)) by (field; lra).
    assert (Hs : 0 < a * a + b * b) by nra.
    assert (Hi : 0 < / a) by (apply Rinv_0_lt_compat; auto).
    rewrite E, sqrt_mult, sqrt_square by nra.
    assert (0 < sqrt (a * a + b * b)) by (apply sqrt_lt_R0; auto).
    split; field; lra. }
  unfold atan2. destruct (Rltb_spec 0 x) as [Hx|Hx]; [now apply Hpos|].
  destruct (Rltb_spec x 0) as [Hx'|Hx'].
  - destruct (Hpos (- x) (- y)) as [P1 P2]; [lra|].
    replace (- x * - x + - y * - y) with (x * x + y * y) in P1, P2 by ring.
    replace (- y / - x) with (y / x) in P1, P2 by (field; lra).
    destruct (Rleb_spec 0 y).
    + rewrite neg_cos, neg_sin. lra.
    + replace (atan (y / x) - PI) with (- (- atan (y / x) + PI)) by ring.
      rewrite cos_neg, sin_neg, neg_cos, neg_sin, cos_neg, sin_neg. lra.
  - assert (x = 0) by lra. subst x.
    destruct (Rltb_spec 0 y) as [Hy|Hy].
    + rewrite cos_PI2, sin_PI2. replace (0 * 0 + y * y) with (y * y) by ring. rewrite sqrt_square by lra. lra.
    + destruct (Rltb_spec y 0) as [Hy'|Hy']; [|lra].
      rewrite cos_neg, sin_neg, cos_PI2, sin_PI2.
      replace (0 * 0 + y * y) with ((- y) * (- y)) by ring. rewrite sqrt_square by lra. lra.
Qed.
