(** Proofs about the azimuthal mask of Model/Psds.v (C13). *)
From Coq Require Import Reals List ZArith Lia Lra Arith Bool.
From Verif Require Import Lib.PyBase Lib.PySlice Lib.Arr Lib.Fl Lib.RSum Lib.Trig2
  Spec.Direction Spec.Freq Model.StatsUtils Model.Psds Proofs.Psds_Proofs.
Import ListNotations.
Local Open Scope R_scope.

Lemma IZR_gap (n : Z) : (n <= -1)%Z \/ n = 0%Z \/ (1 <= n)%Z.
Proof. lia. Qed.

Lemma wrap_pi_id t : - PI <= t < PI -> wrap_pi t = t.
Proof.
  intros H. destruct (wrap_pi_spec t) as [B [k Hk]]. rewrite Hk in B |- *. pose proof PI_pos.
  destruct (IZR_gap k) as [L|[->|L]].
  - apply IZR_le in L. exfalso. nra.
  - cbn. ring.
  - apply IZR_le in L. exfalso. nra.
Qed.

Lemma in_sector_spec theta_0 delta th :
  0 < delta <= 2 * PI -> - PI < th <= PI ->
  angle_within (2 * PI) theta_0 (delta / 2) th -> in_sector theta_0 delta th = true.
Proof.
  intros Hd Ht [m Hm]. pose proof PI_pos as HP. unfold in_sector, theta_lo, theta_hi.
  destruct (wrap_pi_spec (theta_0 - 1 / 2 * delta)) as [B1 [k1 E1]].
  destruct (wrap_pi_spec (theta_0 + 1 / 2 * delta)) as [B2 [k2 E2]].
  set (lo := wrap_pi (theta_0 - 1 / 2 * delta)) in *. set (hi := wrap_pi (theta_0 + 1 / 2 * delta)) in *.
  apply Rabs_def2 in Hm. destruct Hm as [M1 M2].
  assert (E : hi - lo = delta - 2 * PI * IZR (k2 - k1)) by (rewrite minus_IZR; lra).
  assert (T1 : lo < th - 2 * PI * IZR (m + k1)) by (rewrite plus_IZR; lra).
  assert (T2 : th - 2 * PI * IZR (m + k1) < lo + delta) by (rewrite plus_IZR; lra).
  set (n := (k2 - k1)%Z) in *. set (p := (m + k1)%Z) in *.
  destruct (Rltb_spec lo hi) as [L|L].
  - assert (n = 0%Z) as ->.
    { destruct (IZR_gap n) as [G|[G|G]]; auto; exfalso; apply IZR_le in G; nra. }
    cbn [IZR] in E. assert (p = 0%Z) as ->.
    { destruct (IZR_gap p) as [G|[G|G]]; auto; exfalso; apply IZR_le in G; nra. }
    cbn [IZR] in T1, T2. apply andb_true_iff. split; [destruct (Rleb_spec lo th)|destruct (Rleb_spec th hi)]; auto; lra.
  - assert (n = 1%Z) as ->.
    { assert (~ (n <= 0)%Z) by (intros G; apply IZR_le in G; nra).
      assert (~ (2 <= n)%Z) by (intros G; apply IZR_le in G; nra). lia. }
    change (IZR 1) with 1 in E.
    destruct (Rleb_spec lo th) as [|G1]; [reflexivity|]. destruct (Rleb_spec th hi) as [|G2]; [reflexivity|].
    exfalso. destruct (IZR_gap p) as [G|[G|G]].
    + apply IZR_le in G. nra.
    + rewrite G in *. cbn [IZR] in *. lra.
    + apply IZR_le in G. nra.
Qed.

Lemma azim_mask_sector ny nx theta_0 delta i j : 0 < delta <= 2 * PI ->
  angle_within (2 * PI) theta_0 (delta / 2) (atan2 (radial_y ny i) (radial_x nx j)) ->
  azim_mask ny nx theta_0 delta i j = true.
Proof.
  intros Hd Hw. unfold azim_mask. rewrite (in_sector_spec _ _ _ Hd (atan2_range _ _) Hw). reflexivity.
Qed.

(** ** Reversal *)

Lemma radial_y_rev n i : Nat.odd n = true -> (i < n)%nat -> radial_y n (n - 1 - i) = - radial_y n i.
Proof.
  intros Ho Hi. unfold radial_y. apply Nat.odd_spec in Ho. destruct Ho as [m Hm].
  assert (E : (n / 2 = m)%nat) by (subst n; rewrite Nat.mul_comm, Nat.div_add_l by lia; cbn; lia).
  rewrite E. rewrite minus_INR by lia. rewrite minus_INR by lia. subst n. rewrite plus_INR, mult_INR. cbn [INR]. ring.
Qed.

Lemma radial_x_rev n i : Nat.odd n = true -> (i < n)%nat -> radial_x n (n - 1 - i) = - radial_x n i.
Proof. exact (radial_y_rev n i). Qed.

Lemma radial_inj n i i' : radial_y n i = radial_y n i' -> i = i'.
Proof. unfold radial_y. intros H. apply INR_eq. lra. Qed.

Lemma in_block_spec n i : (i < n)%nat -> in_block n i = true <-> (i = n / 2 \/ S i = n / 2)%nat.
Proof.
  intros Hi. unfold in_block. rewrite existsb_exists.
  assert (Hd : (n / 2 < n)%nat) by (apply Nat.div_lt; lia).
  destruct (Nat.eq_dec (n / 2) 0) as [E|E].
  - assert (n = 1)%nat. { pose proof (Nat.div_mod n 2). pose proof (Nat.mod_upper_bound n 2). lia. }
    subst n. cbn. split.
    + intros [x [Hx Hq]]. apply Nat.eqb_eq in Hq. subst. destruct Hx as [<-|[]]. auto.
    + intros _. exists 0%nat. split; [now left|]. apply Nat.eqb_eq. lia.
  - replace (Z.of_nat (n / 2) - 1)%Z with (Z.of_nat (n / 2 - 1)) by lia.
    replace (Z.of_nat (n / 2) + 1)%Z with (Z.of_nat (n / 2 + 1)) by lia.
    rewrite slice_idx_range by lia. split.
    + intros [x [Hx Hq]]. apply Nat.eqb_eq in Hq. subst. apply in_seq in Hx. lia.
    + intros H. exists i. split; [apply in_seq; lia|apply Nat.eqb_refl].
Qed.

Lemma azim_mask_rev ny nx theta_0 delta i j : (i < ny)%nat -> (j < nx)%nat ->
  Nat.odd ny = true -> Nat.odd nx = true ->
  ~ (in_block ny i = true /\ in_block nx j = true) ->
  ~ (in_block ny (ny - 1 - i) = true /\ in_block nx (nx - 1 - j) = true) ->
  azim_mask ny nx theta_0 delta (ny - 1 - i) (nx - 1 - j) = azim_mask ny nx theta_0 delta i j.
Proof.
  intros Hi Hj Oy Ox B1 B2. unfold azim_mask.
  replace (ny - 1 - (ny - 1 - i))%nat with i by lia. replace (nx - 1 - (nx - 1 - j))%nat with j by lia.
  assert (E1 : in_block ny i && in_block nx j = false).
  { destruct (in_block ny i), (in_block nx j); auto. exfalso. auto. }
  assert (E2 : in_block ny (ny - 1 - i) && in_block nx (nx - 1 - j) = false).
  { destruct (in_block ny (ny - 1 - i)), (in_block nx (nx - 1 - j)); auto. exfalso. auto. }
  rewrite E1, E2, !orb_false_r. apply orb_comm.
Qed.

(** Opposite pixels of an odd-sized array away from the middle. *)
Lemma azim_mask_opposite ny nx theta_0 delta i j i' j' :
  (i < ny)%nat -> (j < nx)%nat -> (i' < ny)%nat -> (j' < nx)%nat ->
  Nat.odd ny = true -> Nat.odd nx = true ->
  radial_y ny i' = - radial_y ny i -> radial_x nx j' = - radial_x nx j ->
  (1 < Rabs (radial_y ny i) \/ 1 < Rabs (radial_x nx j)) ->
  azim_mask ny nx theta_0 delta i' j' = azim_mask ny nx theta_0 delta i j.
Proof.
  intros Hi Hj Hi' Hj' Oy Ox Ey Ex Hfar.
  assert (i' = (ny - 1 - i)%nat) as ->.
  { apply (radial_inj ny). rewrite Ey. symmetry. now apply radial_y_rev. }
  assert (j' = (nx - 1 - j)%nat) as ->.
  { apply (radial_inj nx). change (radial_y nx) with (radial_x nx). rewrite Ex. symmetry. now apply radial_x_rev. }
  assert (Hb : forall n i, (i < n)%nat -> in_block n i = true -> Rabs (radial_y n i) <= 1).
  { intros n k Hk Hb. apply in_block_spec in Hb; auto. unfold radial_y.
    destruct Hb as [->|Hb].
    - rewrite Rminus_diag_eq by auto. rewrite Rabs_R0. lra.
    - rewrite <- Hb, S_INR. replace (INR k - (INR k + 1)) with (-1) by ring. rewrite Rabs_left; lra. }
  apply azim_mask_rev; auto.
  - intros [B1 B2]. apply Hb in B1; auto. apply Hb in B2; auto. change (radial_y nx) with (radial_x nx) in B2. lra.
  - intros [B1 B2]. apply Hb in B1; [|lia]. apply Hb in B2; [|lia]. change (radial_y nx) with (radial_x nx) in B2.
    rewrite Ey, Rabs_Ropp in B1. rewrite Ex, Rabs_Ropp in B2. lra.
Qed.

Lemma azim_mask_line ny nx theta_0 delta i j : 0 < delta <= PI ->
  (i < ny)%nat -> (j < nx)%nat -> Nat.odd ny = true -> Nat.odd nx = true ->
  (radial_y ny i <> 0 \/ radial_x nx j <> 0) ->
  angle_within PI theta_0 (delta / 2) (atan2 (radial_y ny i) (radial_x nx j)) ->
  azim_mask ny nx theta_0 delta i j = true.
Proof.
  intros Hd Hi Hj Oy Ox Hnz [k Hk]. pose proof PI_pos as HP.
  destruct (Zeven_odd_dec k) as [Ek|Ek].
  - apply azim_mask_sector; [lra|]. apply Zeven_ex in Ek. destruct Ek as [m ->]. exists m.
    rewrite mult_IZR in Hk. change (IZR 2) with 2 in Hk.
    replace (2 * PI * IZR m) with (PI * (2 * IZR m)) by ring. exact Hk.
  - apply Zodd_ex in Ek. destruct Ek as [m ->]. rewrite plus_IZR, mult_IZR in Hk. change (IZR 2) with 2 in Hk. change (IZR 1) with 1 in Hk.
    unfold azim_mask. rewrite radial_y_rev, radial_x_rev by auto.
    assert (W : angle_within (2 * PI) theta_0 (delta / 2) (atan2 (- radial_y ny i) (- radial_x nx j))).
    { destruct (atan2_opp (radial_y ny i) (radial_x nx j)) as [E|E]; [tauto| |]; rewrite E.
      - exists (m + 1)%Z. rewrite plus_IZR. change (IZR 1) with 1.
        match goal with |- Rabs ?a < _ => match type of Hk with Rabs ?b < _ => replace a with b by ring end end. exact Hk.
      - exists m. match goal with |- Rabs ?a < _ => match type of Hk with Rabs ?b < _ => replace a with b by ring end end. exact Hk. }
    assert (Hd2 : 0 < delta <= 2 * PI) by lra.
    rewrite (in_sector_spec _ _ _ Hd2 (atan2_range _ _) W). rewrite orb_true_r. reflexivity.
Qed.

(** ** Counterexamples *)

Lemma atan2_0_pos x : 0 < x -> atan2 0 x = 0.
Proof. intros H. unfold atan2. destruct (Rltb_spec 0 x); [|lra]. unfold Rdiv. rewrite Rmult_0_l. apply atan_0. Qed.
Lemma atan2_0_neg x : x < 0 -> atan2 0 x = PI.
Proof.
  intros H. unfold atan2. destruct (Rltb_spec 0 x); [lra|]. destruct (Rltb_spec x 0); [|lra].
  destruct (Rleb_spec 0 0); [|lra]. unfold Rdiv. rewrite Rmult_0_l, atan_0. lra.
Qed.
Lemma atan2_diag a : 0 < a -> atan2 a a = PI / 4.
Proof.
  intros H. unfold atan2. destruct (Rltb_spec 0 a); [|lra]. replace (a / a) with 1 by (field; lra). apply atan_1.
Qed.
Lemma atan2_adiag y a : 0 < a -> y = - a -> atan2 y a = - (PI / 4).
Proof.
  intros H ->. unfold atan2. destruct (Rltb_spec 0 a); [|lra]. replace (- a / a) with (Ropp 1) by (field; lra).
  rewrite atan_opp, atan_1. reflexivity.
Qed.

Lemma sector_zero d th : 0 < d < 2 * PI -> in_sector 0 d th = (Rleb (- (d / 2)) th && Rleb th (d / 2))%bool.
Proof.
  intros Hd. unfold in_sector, theta_lo, theta_hi. pose proof PI_pos.
  rewrite !wrap_pi_id by lra. replace (0 - 1 / 2 * d) with (- (d / 2)) by lra. replace (0 + 1 / 2 * d) with (d / 2) by lra.
  destruct (Rltb_spec (- (d / 2)) (d / 2)); [reflexivity|lra].
Qed.

Ltac radial_val := unfold radial_y, radial_x; cbn [Nat.div Nat.divmod fst snd INR]; lra.

Lemma azim_even_cex :
  azim_mask 6 6 0 (PI / 4) 3 5 = true /\ azim_mask 6 6 0 (PI / 4) 3 1 = false /\
  radial_y 6 3 = 0 /\ radial_x 6 5 = 2 /\ radial_x 6 1 = - 2.
Proof.
  pose proof PI_pos as HP.
  assert (Y3 : radial_y 6 3 = 0) by radial_val.
  assert (Y2 : radial_y 6 2 = - 1) by radial_val.
  assert (X5 : radial_x 6 5 = 2) by radial_val.
  assert (X1 : radial_x 6 1 = - 2) by radial_val.
  assert (X4 : radial_x 6 4 = 1) by radial_val.
  split; [|split; [|auto]]; unfold azim_mask.
  - rewrite Y3, X5, atan2_0_pos, sector_zero by lra.
    destruct (Rleb_spec (- (PI / 4 / 2)) 0); [|lra]. destruct (Rleb_spec 0 (PI / 4 / 2)); [|lra]. reflexivity.
  - change (6 - 1 - 3)%nat with 2%nat. change (6 - 1 - 1)%nat with 4%nat.
    rewrite Y3, X1, Y2, X4, atan2_0_neg by lra. rewrite (atan2_adiag _ 1) by lra. rewrite !sector_zero by lra.
    destruct (Rleb_spec PI (PI / 4 / 2)); [lra|]. destruct (Rleb_spec (- (PI / 4 / 2)) (- (PI / 4))); [lra|].
    rewrite andb_false_r. reflexivity.
Qed.

Lemma azim_block_cex :
  azim_mask 5 5 0 (PI / 8) 1 1 = true /\ azim_mask 5 5 0 (PI / 8) 3 3 = false /\
  radial_y 5 1 = - 1 /\ radial_y 5 3 = 1.
Proof.
  pose proof PI_pos as HP.
  assert (Y1 : radial_y 5 1 = - 1) by radial_val.
  assert (Y3 : radial_y 5 3 = 1) by radial_val.
  split; [|split; [|auto]]; unfold azim_mask.
  - replace (in_block 5 1) with true by reflexivity. cbn [andb]. apply orb_true_r.
  - change (5 - 1 - 3)%nat with 1%nat. change (radial_x 5) with (radial_y 5). rewrite Y1, Y3.
    rewrite atan2_diag by lra.
    assert (E : atan2 (- 1) (- 1) = PI / 4 - PI).
    { unfold atan2. destruct (Rltb_spec 0 (- 1)); [lra|]. destruct (Rltb_spec (- 1) 0); [|lra].
      destruct (Rleb_spec 0 (- 1)); [lra|]. replace (- 1 / - 1) with 1 by field. now rewrite atan_1. }
    rewrite E, !sector_zero by lra.
    destruct (Rleb_spec (PI / 4) (PI / 8 / 2)); [lra|]. destruct (Rleb_spec (- (PI / 8 / 2)) (PI / 4 - PI)); [lra|].
    rewrite andb_false_r. reflexivity.
Qed.

(** ** The sense of the azimuthal angle *)

Lemma unshift_odd_freq n i : Nat.odd n = true -> (i < n)%nat ->
  fftfreq n (unshift n i) = radial_y n i / INR n.
Proof.
  intros Ho Hi. apply Nat.odd_spec in Ho. destruct Ho as [m Hm].
  assert (E : (n / 2 = m)%nat) by (subst n; rewrite Nat.mul_comm, Nat.div_add_l by lia; cbn; lia).
  assert (E2 : ((n - 1) / 2 = m)%nat) by (subst n; replace (2 * m + 1 - 1)%nat with (m * 2)%nat by lia; now rewrite Nat.div_mul by lia).
  unfold unshift, fftfreq, radial_y. rewrite E, E2.
  assert (0 < INR n) by (apply lt_0_INR; lia).
  destruct (Nat.lt_ge_cases i m) as [L|L].
  - rewrite Nat.mod_small by lia. destruct (Nat.ltb_spec (i + (n - m)) (m + 1)); [lia|].
    rewrite plus_INR, minus_INR by lia. f_equal. ring.
  - replace (i + (n - m))%nat with ((i - m) + 1 * n)%nat by lia. rewrite Nat.mod_add by lia.
    rewrite Nat.mod_small by lia. destruct (Nat.ltb_spec (i - m) (m + 1)); [|lia].
    rewrite minus_INR by lia. reflexivity.
Qed.

Lemma mask_angle_mirrored ny nx i j : Nat.odd ny = true -> Nat.odd nx = true -> (i < ny)%nat -> (j < nx)%nat ->
  radial_y ny i = - (INR ny * at2 0 (yy_freq ny nx) i j) /\
  radial_x nx j = INR nx * at2 0 (xx_freq ny nx) i j.
Proof.
  intros Oy Ox Hi Hj. rewrite yy_freq_at, xx_freq_at by auto.
  rewrite !unshift_odd_freq by (auto; lia). rewrite radial_y_rev by auto.
  change (radial_x nx) with (radial_y nx).
  assert (0 < INR ny) by (apply lt_0_INR; lia). assert (0 < INR nx) by (apply lt_0_INR; lia).
  split; field; lra.
Qed.

Lemma mask_angle_cex :
  at2 0 (yy_freq 5 5) 0 4 = 2 / 5 /\ at2 0 (xx_freq 5 5) 0 4 = 2 / 5 /\
  azim_mask 5 5 (PI / 4) (PI / 8) 0 4 = false /\ azim_mask 5 5 (- (PI / 4)) (PI / 8) 0 4 = true.
Proof.
  pose proof PI_pos as HP.
  assert (Y0 : radial_y 5 0 = - 2) by radial_val.
  assert (X4 : radial_x 5 4 = 2) by radial_val.
  assert (Y4 : radial_y 5 4 = 2) by radial_val.
  assert (X0 : radial_x 5 0 = - 2) by radial_val.
  destruct (mask_angle_mirrored 5 5 0 4) as [M1 M2]; [reflexivity|reflexivity|lia|lia|].
  assert (I5 : INR 5 = 5) by (cbn; lra). rewrite I5, Y0 in M1. rewrite I5, X4 in M2.
  split; [lra|]. split; [lra|]. split.
  - unfold azim_mask. change (5 - 1 - 0)%nat with 4%nat. change (5 - 1 - 4)%nat with 0%nat.
    replace (in_block 5 0) with false by reflexivity. cbn [andb]. rewrite orb_false_r.
    rewrite Y0, X4, Y4, X0, (atan2_adiag _ 2) by lra.
    assert (E : atan2 2 (- 2) = - (PI / 4) + PI).
    { unfold atan2. destruct (Rltb_spec 0 (- 2)); [lra|]. destruct (Rltb_spec (- 2) 0); [|lra].
      destruct (Rleb_spec 0 2); [|lra]. replace (2 / - 2) with (Ropp 1) by field. now rewrite atan_opp, atan_1. }
    rewrite E. unfold in_sector, theta_lo, theta_hi. rewrite !wrap_pi_id by lra.
    destruct (Rltb_spec (PI / 4 - 1 / 2 * (PI / 8)) (PI / 4 + 1 / 2 * (PI / 8))); [|lra].
    destruct (Rleb_spec (PI / 4 - 1 / 2 * (PI / 8)) (- (PI / 4))); [lra|].
    destruct (Rleb_spec (- (PI / 4) + PI) (PI / 4 + 1 / 2 * (PI / 8))); [lra|].
    rewrite andb_false_r. reflexivity.
  - apply azim_mask_sector; [lra|]. exists 0%Z. cbn [IZR]. rewrite Y0, X4, (atan2_adiag _ 2) by lra.
    replace (- (PI / 4) - - (PI / 4) - 2 * PI * 0) with 0 by ring. rewrite Rabs_R0. lra.
Qed.
