(** Proofs about the methods of WidthEstimate1D *)
From Coq Require Import String Reals List Bool Arith Lra Lia.
From Verif Require Import Lib.PyBase Lib.RSum Lib.Fl Model.StatsUtils Model.Pca Model.WidthMethods Spec.WidthMethods Proofs.Pca3_Proofs.
Import ListNotations.

Local Open Scope R_scope.

(** ** Minima *)
Lemma filter_only (f : nat -> bool) m : forall len a, (a <= m < a + len)%nat -> f m = true -> (forall i, (a <= i < a + len)%nat -> i <> m -> f i = false) -> filter f (seq a len) = [m].
Proof.
  induction len as [|len IH]; intros a Hm Fm F; [lia|]. cbn. destruct (Nat.eq_dec a m) as [->|N].
  - rewrite Fm. f_equal. clear IH. assert (G : forall l b, (m < b)%nat -> (b + l <= m + S len)%nat -> filter f (seq b l) = []).
    { induction l as [|l IHl]; intros b Hb Hl; [reflexivity|]. cbn. rewrite F by lia. apply IHl; lia. }
    apply G; lia.
  - rewrite F by lia. apply IH; [lia|exact Fm|]. intros i Hi. apply F. lia.
Qed.
Lemma filter_none (f : nat -> bool) : forall l, (forall i, In i l -> f i = false) -> filter f l = [].
Proof. induction l as [|a l IH]; intro F; [reflexivity|]. cbn. rewrite F by (left; reflexivity). apply IH. intros i Hi. apply F. right. exact Hi. Qed.
Lemma rltb_f a b : ~ a < b -> Rltb a b = false.
Proof. intro H. destruct (Rltb_spec a b); [contradiction|reflexivity]. Qed.
Lemma rltb_t a b : a < b -> Rltb a b = true.
Proof. intro H. destruct (Rltb_spec a b); [reflexivity|contradiction]. Qed.

Lemma falling_le y m : falling y m -> forall j i, (i <= j <= m)%nat -> nth j y 0 <= nth i y 0.
Proof.
  intros F. induction j as [|j IH]; intros i H; [replace i with 0%nat by lia; lra|].
  destruct (Nat.eq_dec i (S j)) as [->|N]; [lra|]. assert (nth j y 0 <= nth i y 0) by (apply IH; lia). assert (nth (S j) y 0 < nth j y 0) by (apply F; lia). lra.
Qed.
Lemma falling_lt y m : falling y m -> forall j i, (i < j <= m)%nat -> nth j y 0 < nth i y 0.
Proof.
  intros F j i H. destruct j as [|j]; [lia|]. assert (nth j y 0 <= nth i y 0) by (apply (falling_le y m F); lia). assert (nth (S j) y 0 < nth j y 0) by (apply F; lia). lra.
Qed.

Lemma minima_even y m : (1 < m)%nat -> length y = (2 * m)%nat -> symmetric y -> falling y m -> minima y = [m].
Proof.
  intros Hm L Sy F. unfold minima. rewrite L. apply filter_only; [lia| |].
  - rewrite !rltb_t; [reflexivity| |].
    + rewrite (Sy (m + 1)%nat) by lia. rewrite L. replace (2 * m - (m + 1))%nat with (m - 1)%nat by lia. apply (falling_lt y m F). lia.
    + apply (falling_lt y m F). lia.
  - intros i Hi N. destruct (Nat.lt_ge_cases i m) as [Lt|Ge].
    + rewrite (rltb_f (nth i y 0) (nth (i + 1) y 0)); [apply andb_false_r|]. assert (nth (i + 1) y 0 < nth i y 0) by (apply (falling_lt y m F); lia). lra.
    + rewrite (rltb_f (nth i y 0) (nth (i - 1) y 0)); [reflexivity|]. rewrite (Sy i), (Sy (i - 1)%nat) by lia. rewrite L.
      assert (nth (2 * m - (i - 1)) y 0 < nth (2 * m - i) y 0) by (apply (falling_lt y m F); lia). lra.
Qed.
Lemma minima_odd y k : length y = (2 * k + 1)%nat -> symmetric y -> falling y k -> minima y = [].
Proof.
  intros L Sy F. unfold minima. apply filter_none. intros i Hi. apply in_seq in Hi. rewrite L in Hi.
  destruct (Nat.lt_ge_cases i k) as [Lt|Ge].
  - rewrite (rltb_f (nth i y 0) (nth (i + 1) y 0)); [apply andb_false_r|]. assert (nth (i + 1) y 0 < nth i y 0) by (apply (falling_lt y k F); lia). lra.
  - destruct (Nat.eq_dec i k) as [->|N].
    + rewrite (rltb_f (nth k y 0) (nth (k + 1) y 0)); [apply andb_false_r|]. rewrite (Sy (k + 1)%nat) by lia. rewrite L. replace (2 * k + 1 - (k + 1))%nat with k by lia. lra.
    + rewrite (rltb_f (nth i y 0) (nth (i - 1) y 0)); [reflexivity|]. rewrite (Sy i) by lia. destruct (Nat.eq_dec i (k + 1)) as [->|N'].
      * rewrite L. replace (2 * k + 1 - (k + 1))%nat with k by lia. replace (k + 1 - 1)%nat with k by lia. lra.
      * rewrite (Sy (i - 1)%nat) by lia. rewrite L. assert (nth (2 * k + 1 - (i - 1)) y 0 < nth (2 * k + 1 - i) y 0) by (apply (falling_lt y k F); lia). lra.
Qed.

(** ** Interpolation *)
Lemma ins_end p : forall l, (forall h, In h l -> fst h < fst p) -> ins p l = (l ++ [p])%list.
Proof.
  induction l as [|h l IH]; intro H; [reflexivity|]. cbn [ins]. destruct (Rleb_spec (fst p) (fst h)) as [C|C].
  - specialize (H h (or_introl eq_refl)). lra.
  - cbn. f_equal. apply IH. intros x Hx. apply H. right. exact Hx.
Qed.
Lemma sorted_desc (f : nat -> R * R) : forall len a, (forall i j, (a <= i)%nat -> (i < j < a + len)%nat -> fst (f j) < fst (f i)) ->
  sorted_knots (map f (seq a len)) = rev (map f (seq a len)).
Proof.
  induction len as [|len IH]; intros a H; [reflexivity|]. cbn [seq map rev]. unfold sorted_knots in *. cbn [fold_right]. rewrite IH by (intros i j Hi Hj; apply H; lia).
  apply ins_end. intros h Hh. apply in_rev, in_map_iff in Hh. destruct Hh as (j & <- & Hj). apply in_seq in Hj. apply H; lia.
Qed.
Lemma rev_map_seq {B} (f : nat -> B) d : forall m j, (j <= m)%nat -> nth j (rev (map f (seq 0 (m + 1)))) d = f (m - j)%nat.
Proof.
  intros m j H. rewrite rev_nth by (rewrite map_length, seq_length; lia). rewrite map_length, seq_length.
  rewrite (nth_indep _ d (f 0%nat)) by (rewrite map_length, seq_length; lia). rewrite map_nth, seq_nth by lia. f_equal. lia.
Qed.
Lemma count_rev {B} (g : B -> bool) l : length (filter g (rev l)) = length (filter g l).
Proof. induction l as [|a l IH]; [reflexivity|]. cbn. rewrite filter_app, app_length, IH. cbn. destruct (g a); cbn; lia. Qed.
Lemma count_tail (g : nat -> bool) k : forall len a, (a <= S k <= a + len)%nat -> (forall i, (a <= i <= k)%nat -> g i = false) -> (forall i, (k < i < a + len)%nat -> g i = true) ->
  length (filter g (seq a len)) = (a + len - S k)%nat.
Proof.
  induction len as [|len IH]; intros a H G1 G2; [cbn; lia|]. cbn [seq filter]. destruct (Nat.le_gt_cases a k) as [Le|Gt].
  - rewrite G1 by lia. rewrite IH; [lia| | |]; [lia|intros i Hi; apply G1; lia|intros i Hi; apply G2; lia].
  - rewrite G2 by lia. assert (a = S k) by lia. subst a.
    assert (A : forall l b, (k < b)%nat -> (b + l <= S k + S len)%nat -> length (filter g (seq b l)) = l).
    { induction l as [|l IHl]; intros b Hb Hl; [reflexivity|]. cbn. rewrite G2 by lia. cbn. rewrite IHl; lia. }
    cbn [length]. rewrite A; lia.
Qed.

Lemma interp_at y n m k : falling y m -> (k < m)%nat -> crosses y k ->
  interp1d (map (fun i => (nth i y 0, lag n i)) (seq 0 (m + 1))) (exp (-1)) =
  Ok (Fin ((lag n k - lag n (S k)) / (nth k y 0 - nth (S k) y 0) * (exp (-1) - nth (S k) y 0) + lag n (S k))).
Proof.
  intros F Hk [C1 C2]. unfold interp1d. set (f := fun i => (nth i y 0, lag n i)).
  rewrite sorted_desc by (intros i j Hi Hj; cbn; apply (falling_lt y m F); lia).
  assert (Len : length (rev (map f (seq 0 (m + 1)))) = (m + 1)%nat) by (rewrite rev_length, map_length, seq_length; reflexivity).
  cbv beta zeta. rewrite Len. replace (m + 1 - 1)%nat with m by lia. rewrite !(rev_map_seq f) by lia.
  rewrite Nat.sub_0_r, Nat.sub_diag. unfold f at 1 2. cbn [fst].
  assert (B1 : nth m y 0 <= nth (S k) y 0) by (apply (falling_le y m F); lia). assert (B2 : nth k y 0 <= nth 0 y 0) by (apply (falling_le y m F); lia).
  rewrite (rltb_f (exp (-1)) (nth m y 0)) by lra. rewrite (rltb_f (nth 0 y 0) (exp (-1))) by lra. cbn [orb].
  assert (Cnt : length (filter (fun p => Rltb (fst p) (exp (-1))) (rev (map f (seq 0 (m + 1))))) = (m - k)%nat).
  { rewrite count_rev. assert (E : forall l, filter (fun p => Rltb (fst p) (exp (-1))) (map f l) = map f (filter (fun i => Rltb (nth i y 0) (exp (-1))) l)).
    { induction l as [|a l IH]; [reflexivity|]. cbn. destruct (Rltb (nth a y 0) (exp (-1))); cbn; rewrite IH; reflexivity. }
    rewrite E, map_length, (count_tail _ k); [lia|lia| |].
    - intros i Hi. apply rltb_f. assert (nth k y 0 <= nth i y 0) by (apply (falling_le y m F); lia). lra.
    - intros i Hi. apply rltb_t. assert (nth i y 0 <= nth (S k) y 0) by (apply (falling_le y m F); lia). lra. }
  rewrite Cnt. replace (Nat.max 1 (Nat.min (m - k) m)) with (m - k)%nat by lia.
  replace (m - (m - k))%nat with k by lia. replace (m - (m - k - 1))%nat with (S k) by lia. unfold f. cbn [fst snd].
  unfold fdiv. destruct (Reqb_spec (nth k y 0 - nth (S k) y 0) 0); [lra|]. reflexivity.
Qed.

Lemma Rdiv_1 a : a / 1 = a.
Proof. field. Qed.
Lemma lag_low n i : (2 * i < n)%nat -> lag n i = INR i.
Proof. exact (fftfreq_low n i). Qed.
Lemma lag_middle m : (1 <= m)%nat -> lag (2 * m) m = - INR m.
Proof.
  intro H. unfold lag, fftfreq. assert (E : ((2 * m - 1) / 2 + 1 = m)%nat).
  { replace (2 * m - 1)%nat with (1 + (m - 1) * 2)%nat by lia. rewrite Nat.div_add by lia. cbn. lia. }
  rewrite E, Nat.ltb_irrefl. assert (N : INR (2 * m) <> 0) by (apply not_0_INR; lia). assert (INR (2 * m) = 2 * INR m) by (rewrite mult_INR; cbn; lra).
  unfold Rdiv. rewrite Rmult_assoc, Rinv_l by exact N. lra.
Qed.

Section Fit.
Variable gauss_fit : R -> list (R * R) -> option (R * R).

Theorem interpolate_general : forall y m rest k, minima y = m :: rest -> (1 < m)%nat -> falling y m -> (k < m)%nat -> (2 * S k < length y)%nat -> crosses y k ->
  width_1D gauss_fit "interpolate" y = Ok (Fin (crossing y k), Fin 0).
Proof.
  intros y m rest k M Hm F Hk H2 C. unfold width_1D. cbn [String.eqb Ascii.eqb Bool.eqb]. unfold width_interpolate. rewrite M.
  replace (Nat.ltb 1 m) with true by (symmetry; apply Nat.ltb_lt; exact Hm). rewrite (interp_at y (length y) m k F Hk C). do 3 f_equal.
  rewrite !lag_low by lia. unfold crossing. rewrite S_INR. assert (nth (S k) y 0 < nth k y 0) by (apply F; lia). field. lra.
Qed.

(** The minima, for any vector *)
Lemma minima_in y i : In i (minima y) <-> local_minimum y i.
Proof.
  unfold minima, local_minimum. rewrite filter_In, in_seq, Bool.andb_true_iff. replace (i + 1)%nat with (S i) by lia.
  destruct (Rltb_spec (nth i y 0) (nth (i - 1) y 0)), (Rltb_spec (nth i y 0) (nth (S i) y 0)); intuition (try lia; try lra; try discriminate).
Qed.
Lemma minima_first y m : falling y m -> local_minimum y m -> exists rest, minima y = m :: rest.
Proof.
  intros F M. pose proof M as (M1 & M2 & _). unfold minima. replace (length y - 2)%nat with ((m - 1) + S (length y - 2 - m))%nat by lia.
  rewrite seq_app, filter_app. replace (1 + (m - 1))%nat with m by lia. cbn [seq filter]. apply minima_in in M. unfold minima in M. apply filter_In in M. destruct M as [_ M]. rewrite M.
  rewrite filter_none; [eexists; reflexivity|]. intros i Hi. apply in_seq in Hi. apply Bool.andb_false_iff. right.
  replace (i + 1)%nat with (S i) by lia. assert (nth (S i) y 0 < nth i y 0) by (apply F; lia). destruct (Rltb_spec (nth i y 0) (nth (S i) y 0)); [lra|reflexivity].
Qed.
Theorem interpolate_minimum : forall y m k, local_minimum y m -> (1 < m)%nat -> falling y m -> (k < m)%nat -> (2 * S k < length y)%nat -> crosses y k ->
  width_1D gauss_fit "interpolate" y = Ok (Fin (crossing y k), Fin 0).
Proof. intros y m k M Hm F Hk H2 C. destruct (minima_first y m F M) as [rest R]. now apply (interpolate_general y m rest k). Qed.
Theorem no_minimum : forall y, (forall i, ~ local_minimum y i) ->
  width_1D gauss_fit "interpolate" y = Err IndexError /\ width_1D gauss_fit "fit" y = Err IndexError.
Proof.
  intros y H. unfold width_1D. cbn [String.eqb Ascii.eqb Bool.eqb]. unfold width_interpolate, width_fit.
  destruct (minima y) as [|m l] eqn:E; [split; reflexivity|]. exfalso. apply (H m), minima_in. rewrite E. now left.
Qed.

(** Walking down *)
Lemma curve_max y n : (0 < n)%nat -> length y = n -> symmetric y -> falling y (n / 2) -> forall v, In v y -> v <= nth 0 y 0.
Proof.
  intros Hn L Sy F v Hv. apply (In_nth _ _ 0) in Hv. destruct Hv as (j & Hj & <-).
  destruct (Nat.le_gt_cases j (n / 2)) as [Le|Gt]; [apply (falling_le y _ F); lia|].
  rewrite (Sy j) by lia. apply (falling_le y _ F). assert (D : (n = 2 * (n / 2) + n mod 2)%nat) by (apply Nat.div_mod; lia). assert (n mod 2 < 2)%nat by (apply Nat.mod_upper_bound; lia). lia.
Qed.
Theorem walk_down_curve : forall y k, curve y -> (S k <= length y / 2)%nat -> crosses y k -> width_1D gauss_fit "walk-down" y = Ok (Fin (crossing y k), Fin (1 / 2)).
Proof.
  intros y k (Y0 & Sy & F) Hk [C1 C2]. unfold width_1D. cbn [String.eqb Ascii.eqb Bool.eqb]. f_equal.
  assert (Hl : (0 < length y)%nat) by (destruct y; [cbn in Hk; lia|cbn; lia]).
  assert (Dm : (length y = 2 * (length y / 2) + length y mod 2)%nat) by (apply Nat.div_mod; lia).
  destruct (walk_down_width y) as [[A _]|(i & w & Hi & G1 & G2 & E & W1 & W2)].
  - destruct y; [cbn in Hl; lia|discriminate].
  - rewrite Y0. lra.
  - apply (curve_max y (length y)); auto.
  - exact Sy.
  - exfalso. specialize (A (S k)). rewrite Y0, Rdiv_1 in A. assert (S k < length y)%nat by lia. specialize (A H). lra.
  - rewrite E. f_equal. f_equal. rewrite Y0, Rdiv_1 in G1. rewrite Y0, !Rdiv_1 in W2.
    assert (Q : forall j, (j < i)%nat -> exp (-1) <= nth j y 0) by (intros j Hj; specialize (G2 j Hj); rewrite Y0, Rdiv_1 in G2; exact G2).
    assert (i = S k).
    { destruct (Nat.lt_trichotomy i (S k)) as [Lt|[Eq|Gt]]; [|exact Eq|].
      - assert (nth k y 0 <= nth i y 0) by (apply (falling_le y _ F); lia). lra.
      - specialize (Q (S k) Gt). lra. }
    subst i. replace (S k - 1)%nat with k in W2 by lia. unfold crossing. rewrite S_INR in W2. assert (nth (S k) y 0 < nth k y 0) by (apply F; lia).
    assert (X : w - INR k = (nth k y 0 - exp (-1)) / (nth k y 0 - nth (S k) y 0)); [|lra].
    apply Rmult_eq_reg_r with (nth k y 0 - nth (S k) y 0); [|lra]. unfold Rdiv. rewrite Rmult_assoc, Rinv_l by lra.
    replace (INR k + 1 - 1) with (INR k) in W2 by lra. nra.
Qed.

Theorem agree_partial : forall y m k, curve y -> length y = (2 * m)%nat -> (1 < m)%nat -> (S k < m)%nat -> crosses y k ->
  width_1D gauss_fit "interpolate" y = Ok (Fin (crossing y k), Fin 0) /\ width_1D gauss_fit "walk-down" y = Ok (Fin (crossing y k), Fin (1 / 2)).
Proof.
  intros y m k Cv L Hm Hk C. assert (D : (length y / 2 = m)%nat) by (rewrite L, Nat.mul_comm; apply Nat.div_mul; lia).
  destruct Cv as (Y0 & Sy & F). rewrite D in F. split.
  - apply (interpolate_general y m [] k); auto; try lia. apply minima_even; auto.
  - apply walk_down_curve; auto; [|lia]. split; [exact Y0|]. split; [exact Sy|]. rewrite D. exact F.
Qed.

(** The step to the largest lag of an even number of channels *)
Theorem middle : forall y m, curve y -> length y = (2 * S m)%nat -> (1 <= m)%nat -> nth (S m) y 0 < exp (-1) < nth m y 0 ->
  let f := (nth m y 0 - exp (-1)) / (nth m y 0 - nth (S m) y 0) in
  width_1D gauss_fit "walk-down" y = Ok (Fin (INR m + f), Fin (1 / 2)) /\ width_1D gauss_fit "interpolate" y = Ok (Fin (INR m - (2 * INR m + 1) * f), Fin 0) /\
  INR m - (2 * INR m + 1) * f < INR m < INR m + f.
Proof.
  intros y m Cv L Hm [C1 C2] f. assert (D : (length y / 2 = S m)%nat) by (rewrite L, Nat.mul_comm; apply Nat.div_mul; lia).
  assert (C : crosses y m) by (split; lra). split; [apply walk_down_curve; auto; lia|].
  destruct Cv as (Y0 & Sy & F). rewrite D in F. assert (Lt : nth (S m) y 0 < nth m y 0) by lra.
  assert (Fp : 0 < f) by (apply Rdiv_lt_0_compat; lra). assert (P : 0 <= INR m) by apply pos_INR.
  split; [|nra]. unfold width_1D. cbn [String.eqb Ascii.eqb Bool.eqb]. unfold width_interpolate. rewrite (minima_even y (S m)) by (auto; lia).
  replace (Nat.ltb 1 (S m)) with true by (symmetry; apply Nat.ltb_lt; lia). rewrite (interp_at y (length y) (S m) m F) by (auto; lia). do 3 f_equal.
  rewrite L, lag_middle, lag_low by lia. unfold f. rewrite S_INR. field. lra.
Qed.

(** An odd number of channels *)
Theorem odd_refused : forall y k, length y = (2 * k + 1)%nat -> symmetric y -> falling y k ->
  width_1D gauss_fit "interpolate" y = Err IndexError /\ width_1D gauss_fit "fit" y = Err IndexError.
Proof.
  intros y k L Sy F. unfold width_1D. cbn [String.eqb Ascii.eqb Bool.eqb]. unfold width_interpolate, width_fit. rewrite (minima_odd y k L Sy F). split; reflexivity.
Qed.

(** A curve that never reaches 1/e *)
Theorem never_reached : forall y m, curve y -> length y = (2 * m)%nat -> (1 < m)%nat -> exp (-1) < nth m y 0 ->
  width_1D gauss_fit "interpolate" y = Ok (NaN, Fin 0) /\ width_1D gauss_fit "walk-down" y = Ok (NaN, NaN).
Proof.
  intros y m Cv L Hm G. assert (D : (length y / 2 = m)%nat) by (rewrite L, Nat.mul_comm; apply Nat.div_mul; lia). pose proof Cv as (Y0 & Sy & F). rewrite D in F. split.
  - unfold width_1D. cbn [String.eqb Ascii.eqb Bool.eqb]. unfold width_interpolate. rewrite (minima_even y m) by auto.
    replace (Nat.ltb 1 m) with true by (symmetry; apply Nat.ltb_lt; exact Hm). unfold interp1d. set (f := fun i => (nth i y 0, lag (length y) i)).
    rewrite sorted_desc by (intros i j Hi Hj; cbn; apply (falling_lt y m F); lia). cbv beta zeta. rewrite (rev_map_seq f) by lia. rewrite Nat.sub_0_r.
    unfold f at 1. cbn [fst]. rewrite (rltb_t (exp (-1)) (nth m y 0)) by exact G. reflexivity.
  - unfold width_1D. cbn [String.eqb Ascii.eqb Bool.eqb]. f_equal. destruct (walk_down_width y) as [[_ A]|(i & w & Hi & G1 & _)].
    + destruct y; [cbn in L; lia|discriminate].
    + rewrite Y0. lra.
    + apply (curve_max y (length y)); auto; [lia|]. rewrite D. exact F.
    + exact Sy.
    + exact A.
    + exfalso. rewrite Y0, Rdiv_1 in G1. destruct (Nat.le_gt_cases i m) as [Le|Gt].
      * assert (nth m y 0 <= nth i y 0) by (apply (falling_le y m F); lia). lra.
      * rewrite (Sy i) in G1 by lia. assert (nth m y 0 <= nth (length y - i) y 0) by (apply (falling_le y m F); lia). lra.
Qed.
End Fit.
