(** Proofs about Model/PcaFit.v: gamma, sonic length, errors of the widths (C199-C205). *)
From Coq Require Import String Reals List ZArith Lia Lra Arith Bool.
From Coquelicot Require Import Complex.
From Coq Require Import List.
From Verif Require Import Lib.PyBase Lib.RSum Lib.Fl Lib.Arr Lib.DFT Lib.DFT2 Spec.Components Spec.SizeWidth
  Model.StatsUtils Model.Psds Model.Pca Model.EllipPlaw Model.PcaFit Proofs.Psds_Proofs Proofs.Pca2_Proofs Proofs.PcaFit_Proofs Proofs.FlAlg_Proofs Proofs.PcaFit2_Proofs.
Import ListNotations.
Local Open Scope R_scope.

(** ** Sonic length *)
Lemma sonic_on_line c_s g f : 0 < c_s -> 0 < f_intercept f -> used_index g f <> 0 ->
  line_width (f_intercept f) (used_index g f) (sonic_value c_s g f) = c_s.
Proof.
  intros Hc Hi Hn. unfold line_width, sonic_value. rewrite Rpower_mult. replace (1 / used_index g f * used_index g f) with 1 by (field; auto).
  rewrite Rpower_1 by (apply Rdiv_lt_0_compat; auto). field. lra.
Qed.

Lemma sound_pos kB mp T mu : 0 < kB -> 0 < mp -> 0 < T -> 0 < mu -> 0 < sound_speed kB mp T mu.
Proof.
  intros. unfold sound_speed. apply sqrt_lt_R0. apply Rdiv_lt_0_compat; apply Rmult_lt_0_compat; auto.
Qed.

Lemma sound_increasing kB mp T T' mu : 0 < kB -> 0 < mp -> 0 < T -> 0 < mu -> T < T' -> sound_speed kB mp T mu < sound_speed kB mp T' mu.
Proof.
  intros. unfold sound_speed. assert (0 < mu * mp) by (apply Rmult_lt_0_compat; auto). apply sqrt_lt_1.
  - left. apply Rdiv_lt_0_compat; auto. apply Rmult_lt_0_compat; auto.
  - left. apply Rdiv_lt_0_compat; auto. apply Rmult_lt_0_compat; lra.
  - unfold Rdiv. apply Rmult_lt_compat_r; [now apply Rinv_0_lt_compat|]. now apply Rmult_lt_compat_l.
Qed.

Lemma Rpower_base a b e : 0 < a -> a < b -> 0 < e -> Rpower a e < Rpower b e.
Proof. intros. unfold Rpower. apply exp_increasing. apply Rmult_lt_compat_l; auto. now apply ln_increasing. Qed.

Lemma sonic_increasing c c' g f : 0 < c -> c < c' -> 0 < f_intercept f -> 0 < used_index g f -> sonic_value c g f < sonic_value c' g f.
Proof.
  intros. unfold sonic_value. apply Rpower_base.
  - now apply Rdiv_lt_0_compat.
  - unfold Rdiv. apply Rmult_lt_compat_r; auto. now apply Rinv_0_lt_compat.
  - apply Rdiv_lt_0_compat; lra.
Qed.

Lemma sonic_channels c_s w slope icept es ei g : 0 < c_s -> 0 < w ->
  sonic_value (sound_channels c_s w) g (odr_fitted slope (icept - log10 w) es ei) = sonic_value c_s g (odr_fitted slope icept es ei).
Proof.
  intros Hc Hw. unfold sonic_value, sound_channels. cbn [f_intercept odr_fitted f_index]. f_equal.
  - rewrite Rabs_pos_eq by lra. unfold log10. unfold Rminus. rewrite Rpower_plus, Rpower_Ropp.
    assert (E : Rpower 10 (ln w / ln 10) = w).
    { unfold Rpower. replace (ln w / ln 10 * ln 10) with (ln w); [now apply exp_ln|]. field. pose proof ln10. lra. }
    rewrite E. assert (0 < Rpower 10 icept) by apply exp_pos. field. lra.
Qed.

Lemma odr_bracket c_s g f : 0 < c_s -> 0 < f_intercept f -> 0 < used_index g f ->
  let r := sonic_range_odr c_s g f in fst r <= sonic_value c_s g f <= snd r.
Proof.
  intros Hc Hi Hg. unfold sonic_range_odr. cbv zeta. cbn [fst snd].
  set (sq := sqrt _). assert (0 <= sq) by apply sqrt_pos.
  assert (0 <= sonic_value c_s g f / used_index g f).
  { left. apply Rdiv_lt_0_compat; auto. apply exp_pos. }
  assert (0 <= sonic_value c_s g f / used_index g f * sq) by (apply Rmult_le_pos; auto). lra.
Qed.

Lemma rpow10 : Rpower 10 (0 - 1) = / 10 /\ Rpower 10 0 = 1 /\ Rpower 10 1 = 10 /\ log10 (1 / 10) = -1.
Proof.
  repeat split.
  - replace (0 - 1) with (- (1)) by ring. rewrite Rpower_Ropp, Rpower_1 by lra. reflexivity.
  - apply Rpower_O. lra.
  - apply Rpower_1. lra.
  - unfold log10. replace (1 / 10) with (/ 10) by field. rewrite ln_Rinv by lra. field. pose proof ln10. lra.
Qed.

Lemma odr_negative : exists c_s f, 0 < c_s /\ 0 < f_intercept f /\ f_index f < 0 /\ snd (sonic_range_odr c_s false f) < sonic_value c_s false f.
Proof.
  exists 1, (odr_fitted (-1) 0 0 1). split; [lra|]. destruct rpow10 as (A&B&C&D).
  split; [apply exp_pos|]. split; [cbn; lra|].
  unfold sonic_range_odr. cbv zeta. cbn [fst snd].
  change (f_intercept (odr_fitted (-1) 0 0 1)) with (Rpower 10 0). change (fst (f_intercept_range (odr_fitted (-1) 0 0 1))) with (Rpower 10 (0 - 1)).
  change (used_index false (odr_fitted (-1) 0 0 1)) with (-1). rewrite A, B.
  set (lam := sonic_value _ _ _). assert (0 < lam) by apply exp_pos.
  assert (0 < sqrt ((log10 (1 / 1) * (Rabs (-1 - fst (used_range false (odr_fitted (-1) 0 0 1))) / -1)) ^ 2 + (434 / 1000 * Rabs (1 - / 10) / 1 / 1) ^ 2)).
  { apply sqrt_lt_R0. rewrite (Rabs_pos_eq (1 - / 10)) by lra. apply Rplus_le_lt_0_compat; [apply pow2_ge_0|]. apply pow_lt. lra. }
  set (q := sqrt _) in *. assert (0 < lam * q) by (apply Rmult_lt_0_compat; auto). lra.
Qed.

Lemma odr_channels : exists c_s w slope icept es ei, 0 < c_s /\ 0 < w /\ 0 < slope /\
  sonic_range_odr (sound_channels c_s w) false (odr_fitted slope (icept - log10 w) es ei) <> sonic_range_odr c_s false (odr_fitted slope icept es ei).
Proof.
  exists 1, (1 / 10), 1, 0, 0, 1. split; [lra|]. split; [lra|]. split; [lra|]. intros E. apply (f_equal snd) in E. revert E.
  destruct rpow10 as (A&B&C&D). unfold sonic_range_odr. cbv zeta. cbn [fst snd used_index used_range f_index f_index_range f_intercept f_intercept_range odr_fitted].
  rewrite sonic_channels by lra. rewrite D. replace (0 - -1) with 1 by ring. replace (1 - 1) with 0 by ring. rewrite A, B, C.
  replace (1 - 0 - 0) with 1 by ring.
  unfold sound_channels. rewrite (Rabs_pos_eq (1 / 10)) by lra.
  set (lam := sonic_value _ _ _).
  assert (L : lam = 1).
  { unfold lam, sonic_value. cbn [f_intercept odr_fitted used_index f_index]. rewrite B. unfold Rpower. replace (1 / 1) with 1 by field. rewrite ln_1. rewrite Rmult_0_r. apply exp_0. }
  rewrite L. intros E.
  replace (1 - (1 - 0)) with 0 in E by ring.
  rewrite (Rabs_right 0) in E by lra.
  rewrite (Rabs_right (10 - 1)) in E by lra.
  rewrite (Rabs_right (1 - / 10)) in E by lra.
  replace (0 / 1) with 0 in E by lra.
  rewrite !Rmult_0_r in E.
  assert (K : forall x, 0 <= x -> sqrt (0 ^ 2 + x ^ 2) = x).
  { intros x Hx. replace (0 ^ 2 + x ^ 2) with (x * x) by ring. now apply sqrt_square. }
  rewrite !K in E by lra. lra.
Qed.
