From Coq Require Import Reals List ZArith Bool Arith Lia Lra Permutation.
From Verif Require Import Lib.PyBase Lib.RSum Lib.Fl Lib.Arr Model.Scf Model.StatsUtils Model.MakeCube Spec.Ppv
  Proofs.Scf_Proofs Proofs.StatsUtils2_Proofs Proofs.MakeCube_Proofs Proofs.MakeCube2_Proofs Proofs.MakeCube3_Proofs.
Import ListNotations.
Local Open Scope R_scope.

(** ** Channels at the level of make_ppv *)
Section Channels.
Variables (U : R) (vel dens : field) (a : nat) (vt pix vd idx : R) (mc : Z) (hdu : bool).
Hypothesis A3 : (a < 3)%nat.
Hypothesis SH : f_shape dens = f_shape vel.
Hypothesis N2 : (2 <= dim (f_shape vel) a)%nat.
Hypothesis NN : nonneg_field dens.
Theorem channels_given u lo hi w : 0 < u -> lo < hi -> 0 < w -> (hi - lo) / w <= IZR mc -> (hdu = true -> w < hi - lo) ->
  exists cube axis n, make_ppv U vel dens (Z.of_nat a) vt pix vd idx (Some (mk_vel w u)) (Some (mk_vel lo u)) (Some (mk_vel hi u)) mc None hdu = Ok (cube, axis) /\
  length axis = n /\ (1 <= n)%nat /\ (Z.of_nat n <= mc)%Z /\ (hi - lo) / INR n <= w /\ (forall m, (1 <= m)%nat -> (hi - lo) / INR m <= w -> (n <= m)%nat) /\
  forall j, (j < n)%nat -> nth j axis 0 = lo + (INR j + 1 / 2) * ((hi - lo) / INR n).
Proof.
  intros PU L W M HD. assert (CM : (np_ceil ((hi - lo) / w) <= mc)%Z).
  { pose proof (ceil_bounds ((hi - lo) / w)). assert (np_ceil ((hi - lo) / w) < mc + 1)%Z by (apply lt_IZR; rewrite plus_IZR; lra). lia. }
  destruct (edges_given U (min_list (values vel)) (max_list (values vel)) (sqrt (vd ^ 2 + vt)) (sqrt (vd ^ 2 * Rpower (2 / INR (dim (f_shape vel) a)) idx + 2 * vt)) u lo hi w mc PU L W CM)
    as [n [edges [N [[B1 B2] [NM [E ->]]]]]].
  change (vel_edges U _ _ _ _ _ _ _ _) with (chosen_edges U vel a vt vd idx (Some (mk_vel w u)) (Some (mk_vel lo u)) (Some (mk_vel hi u)) mc) in E.
  assert (PN : 0 < INR n) by (apply lt_0_INR; lia).
  destruct (make_ppv_total U vel dens a vt pix vd idx _ _ _ mc hdu A3 SH N2 _ u (nonneg_values dens NN) E) as [cube H].
  { intro T. specialize (HD T). rewrite linspace_length. assert (1 < INR n); [| assert (1 < n)%nat by (apply INR_lt; exact H); lia].
    apply Rlt_le_trans with ((hi - lo) / w); [| exact B2]. apply (Rmult_lt_reg_r w); [assumption |]. unfold Rdiv. rewrite Rmult_assoc, Rinv_l by lra. lra. }
  exists cube, (mids (linspace lo hi (S n))), n. split; [exact H |]. split; [rewrite mids_length, linspace_length; lia |]. split; [exact N |]. split; [exact NM |].
  assert (DV : (hi - lo) / w * w = hi - lo) by (field; lra).
  split; [| split].
  - apply (Rmult_le_reg_r (INR n)); [assumption |]. unfold Rdiv. rewrite Rmult_assoc, Rinv_l by lra. rewrite Rmult_1_r. apply (Rmult_le_compat_r w) in B2; lra.
  - intros m PM Q. assert (0 < INR m) by (apply lt_0_INR; lia). apply (Rmult_le_compat_r (INR m)) in Q; [| lra]. unfold Rdiv in Q. rewrite Rmult_assoc, Rinv_l in Q by lra.
    assert ((hi - lo) / w <= INR m) by (apply (Rmult_le_reg_r w); [assumption |]; rewrite DV; lra).
    assert (INR n < INR (m + 1)) by (rewrite plus_INR; cbn [INR]; lra). apply INR_lt in H2. lia.
  - intros j J. now apply axis_nth.
Qed.
Theorem channels_default cw cube axis : 0 < U -> 0 < vt -> (0 <= mc)%Z -> (forall b, (b < 3)%nat -> (1 <= dim (f_shape vel) b)%nat) ->
  make_ppv U vel dens (Z.of_nat a) vt pix vd idx cw None None mc None hdu = Ok (cube, axis) ->
  exists lo hi n, length axis = n /\ (Z.of_nat n <= mc)%Z /\ lo < hi /\ ((1 <= n)%nat -> forall j, (j < n)%nat -> nth j axis 0 = lo + (INR j + 1 / 2) * ((hi - lo) / INR n)) /\
  (cw = None -> (1 <= n)%nat /\ (hi - lo) / INR n <= sqrt (vd ^ 2 * Rpower (2 / INR (dim (f_shape vel) a)) idx + 2 * vt) / 2) /\
  forall i j k, (i < dim (f_shape vel) 0)%nat -> (j < dim (f_shape vel) 1)%nat -> (k < dim (f_shape vel) 2)%nat ->
    lo + 4 * sqrt (vd ^ 2 + vt) <= f_at vel i j k <= hi - 4 * sqrt (vd ^ 2 + vt).
Proof.
  intros PU PV MC NE H. destruct (make_ppv_value U vel dens a vt pix vd idx cw None None mc hdu A3 SH N2 cube axis H) as [_ [edges [unit [E [X _]]]]].
  unfold chosen_edges, vel_edges, limits in E. cbn [v_num v_unit] in E. set (vl := sqrt (vd ^ 2 + vt)) in *. set (ve := sqrt (vd ^ 2 * _ + 2 * vt)) in *.
  set (lo := min_list (values vel) - 4 * vl) in *. set (hi := max_list (values vel) + 4 * vl) in *.
  assert (PL : 0 < vl) by (apply sqrt_lt_R0; pose proof (pow2_ge_0 vd); lra).
  pose proof (values_nonempty vel NE) as VN. destruct (min_list_spec _ VN) as [MI ML]. destruct (max_list_spec _ VN) as [XI XL].
  assert (LH : lo < hi) by (unfold lo, hi; specialize (ML _ XI); lra).
  destruct (Rltb _ _); [discriminate |]. set (k := n_channels U ve (mk_vel lo U) (mk_vel hi U) cw) in *.
  destruct (Z.ltb_spec mc k); [discriminate |]. destruct (Z.ltb_spec (k + 1) 0); [discriminate |]. apply ok_pair in E. destruct E as [EE _]. subst edges.
  exists lo, hi, (length axis). rewrite X, mids_length, linspace_length. split; [reflexivity |]. split; [lia |]. split; [exact LH |]. split; [| split].
  - intros N j J. rewrite <- axis_nth by lia. replace (S (Z.to_nat (k + 1) - 1)) with (Z.to_nat (k + 1)) by lia. reflexivity.
  - intros ->. assert (PE : 0 < ve).
    { apply sqrt_lt_R0. pose proof (pow2_ge_0 vd). assert (0 < Rpower (2 / INR (dim (f_shape vel) a)) idx) by apply exp_pos. assert (0 <= vd ^ 2 * Rpower (2 / INR (dim (f_shape vel) a)) idx) by (apply Rmult_le_pos; lra). lra. }
    assert (KE : k = np_ceil ((hi - lo) / (ve / 2))) by (unfold k, n_channels, v_sub, v_to, cgs; cbn [v_num v_unit]; replace (hi - lo * U / U) with (hi - lo) by (field; lra); reflexivity).
    pose proof (ceil_bounds ((hi - lo) / (ve / 2))) as B. rewrite <- KE in B. clearbody k. assert (Q : 0 < (hi - lo) / (ve / 2)) by (apply Rdiv_lt_0_compat; lra).
    assert (KP : (0 < k)%Z) by (apply lt_IZR; lra). split; [lia |]. replace (Z.to_nat (k + 1) - 1)%nat with (Z.to_nat k) by lia.
    assert (IK : INR (Z.to_nat k) = IZR k) by (rewrite INR_IZR_INZ, Z2Nat.id by lia; reflexivity). rewrite IK.
    assert (0 < IZR k) by (apply (IZR_lt 0); assumption). destruct B as [B _]. apply (Rmult_le_compat_r (ve / 2)) in B; [| lra]. replace ((hi - lo) / (ve / 2) * (ve / 2)) with (hi - lo) in B by (field; lra).
    apply (Rmult_le_reg_r (IZR k)); [assumption |]. unfold Rdiv at 1. rewrite Rmult_assoc, Rinv_l by lra. lra.
  - intros p q r P Q R0. assert (I : In (f_at vel p q r) (values vel)) by (apply in_values; now exists p, q, r).
    specialize (ML _ I). specialize (XL _ I). unfold lo, hi. lra.
Qed.
End Channels.
Theorem negative_density U vel dens los vt pix vd idx cw v0 v1 mc sched hdu i j k :
  (i < dim (f_shape dens) 0)%nat -> (j < dim (f_shape dens) 1)%nat -> (k < dim (f_shape dens) 2)%nat -> f_at dens i j k < 0 ->
  make_ppv U vel dens los vt pix vd idx cw v0 v1 mc sched hdu = Err ValueError.
Proof. intros I J K N. unfold make_ppv. assert (E : existsb (fun d => Rltb d 0) (values dens) = true) by (apply existsb_neg; now exists i, j, k). now rewrite E. Qed.
Theorem crossed_limits U vel dens a vt pix vd idx cw lo hi mc sched hdu : (a < 3)%nat -> cgs hi < cgs lo ->
  make_ppv U vel dens (Z.of_nat a) vt pix vd idx cw (Some lo) (Some hi) mc sched hdu = Err ValueError.
Proof.
  intros A H. unfold make_ppv. destruct (existsb _ _); [reflexivity |]. rewrite real_axis_nat by assumption. cbv zeta. unfold vel_edges, limits.
  destruct (Rltb_spec (cgs hi) (cgs lo)); [reflexivity | lra].
Qed.
Theorem too_many U vel dens a vt pix vd idx u lo hi w mc sched hdu : (a < 3)%nat -> 0 < u -> 0 < w -> IZR mc < (hi - lo) / w ->
  make_ppv U vel dens (Z.of_nat a) vt pix vd idx (Some (mk_vel w u)) (Some (mk_vel lo u)) (Some (mk_vel hi u)) mc sched hdu = Err ValueError.
Proof.
  intros A PU W H. unfold make_ppv. destruct (existsb _ _); [reflexivity |]. rewrite real_axis_nat by assumption. cbv zeta. unfold vel_edges, limits.
  destruct (Rltb _ _); [reflexivity |]. rewrite n_channels_same by lra. pose proof (ceil_bounds ((hi - lo) / w)).
  destruct (Z.ltb_spec mc (np_ceil ((hi - lo) / w))) as [| C]; [reflexivity |]. apply IZR_le in C. lra.
Qed.
(** a single channel cannot be returned as an HDU *)
Theorem single_channel U vel dens a vt pix vd idx u lo hi w mc : (a < 3)%nat -> f_shape dens = f_shape vel -> (2 <= dim (f_shape vel) a)%nat -> nonneg_field dens ->
  0 < u -> lo < hi -> hi - lo <= w -> (1 <= mc)%Z ->
  make_ppv U vel dens (Z.of_nat a) vt pix vd idx (Some (mk_vel w u)) (Some (mk_vel lo u)) (Some (mk_vel hi u)) mc None true = Err IndexError.
Proof.
  intros A S N NN PU L W M. assert (Q : 0 < (hi - lo) / w <= 1).
  { split; [apply Rdiv_lt_0_compat; lra |]. apply (Rmult_le_reg_r w); [lra |]. unfold Rdiv. rewrite Rmult_assoc, Rinv_l by lra. lra. }
  assert (C : np_ceil ((hi - lo) / w) = 1%Z) by (apply ceil_unique; lra).
  destruct (edges_given U (min_list (values vel)) (max_list (values vel)) (sqrt (vd ^ 2 + vt)) (sqrt (vd ^ 2 * Rpower (2 / INR (dim (f_shape vel) a)) idx + 2 * vt)) u lo hi w mc PU L ltac:(lra)) as [n [edges [N1 [[B1 B2] [NM [E ->]]]]]]; [rewrite C; lia |].
  rewrite make_ppv_eq by assumption. rewrite (nonneg_values dens NN). change (vel_edges U _ _ _ _ _ _ _ _) with (chosen_edges U vel a vt vd idx (Some (mk_vel w u)) (Some (mk_vel lo u)) (Some (mk_vel hi u)) mc) in E. rewrite E.
  assert (n = 1)%nat; [| subst n]. { assert (INR n < INR 2) by (cbn [INR]; lra). apply INR_lt in H. lia. }
  rewrite mids_length, linspace_length. reflexivity.
Qed.

(** ** Units *)
Lemma edges_of U vel a vt vd idx cw lo hi mc (k : Z) : cgs lo <= cgs hi -> n_channels U (sqrt (vd ^ 2 * Rpower (2 / INR (dim (f_shape vel) a)) idx + 2 * vt)) lo hi cw = k -> (0 <= k <= mc)%Z ->
  chosen_edges U vel a vt vd idx cw (Some lo) (Some hi) mc = Ok (linspace (v_num lo) (v_num hi) (Z.to_nat (k + 1)), v_unit lo).
Proof.
  intros L E K. unfold chosen_edges, vel_edges, limits. destruct (Rltb_spec (cgs hi) (cgs lo)); [lra |]. rewrite E. destruct (Z.ltb_spec mc k); [lia |]. destruct (Z.ltb_spec (k + 1) 0); [lia |]. reflexivity.
Qed.
Section Units.
Variables (U : R) (vel dens : field) (a : nat) (vt pix vd idx : R) (hdu : bool).
Hypothesis A3 : (a < 3)%nat.
Hypothesis SH : f_shape dens = f_shape vel.
Hypothesis N2 : (2 <= dim (f_shape vel) a)%nat.
Hypothesis NN : nonneg_field dens.
Let ppv cw lo hi := make_ppv U vel dens (Z.of_nat a) vt pix vd idx (Some cw) (Some lo) (Some hi) 1000 None hdu.
Lemma ppv_axis cw lo hi k : cgs lo <= cgs hi -> n_channels U (sqrt (vd ^ 2 * Rpower (2 / INR (dim (f_shape vel) a)) idx + 2 * vt)) lo hi (Some cw) = k -> (2 <= k <= 1000)%Z ->
  exists cube, ppv cw lo hi = Ok (cube, mids (linspace (v_num lo) (v_num hi) (Z.to_nat (k + 1)))).
Proof.
  intros L E K. apply (make_ppv_total U vel dens a vt pix vd idx (Some cw) (Some lo) (Some hi) 1000 hdu A3 SH N2 _ (v_unit lo) (nonneg_values dens NN)).
  - apply edges_of; [assumption | assumption | lia].
  - intros _. rewrite linspace_length. lia.
Qed.
Theorem units_max : cgs (mk_vel 1 km_s) = cgs (mk_vel 1000 m_s) /\ (exists cube axis, ppv (mk_vel (1 / 10) km_s) (mk_vel 0 km_s) (mk_vel 1 km_s) = Ok (cube, axis) /\ length axis = 10%nat /\ nth 9 axis 0 = 95 / 100) /\
  exists cube axis, ppv (mk_vel (1 / 10) km_s) (mk_vel 0 km_s) (mk_vel 1000 m_s) = Ok (cube, axis) /\ length axis = 10%nat /\ nth 9 axis 0 = 950.
Proof.
  split; [unfold cgs, km_s, m_s; cbn [v_num v_unit]; lra |]. split.
  - destruct (ppv_axis (mk_vel (1 / 10) km_s) (mk_vel 0 km_s) (mk_vel 1 km_s) 10) as [cube H]; [unfold cgs, km_s; cbn [v_num v_unit]; lra | | lia |].
    + rewrite n_channels_same by (unfold km_s; lra). apply ceil_unique. lra.
    + eexists _, _. split; [exact H |]. cbn [v_num]. change (Z.to_nat (10 + 1)) with 11%nat. split; [now rewrite mids_length, linspace_length |]. rewrite (axis_nth 0 1 10 9) by lia. cbn [INR]. lra.
  - destruct (ppv_axis (mk_vel (1 / 10) km_s) (mk_vel 0 km_s) (mk_vel 1000 m_s) 10) as [cube H]; [unfold cgs, km_s, m_s; cbn [v_num v_unit]; lra | | lia |].
    + unfold n_channels, v_sub, v_to, cgs, km_s, m_s. cbn [v_num v_unit]. replace ((1000 - 0 * 10 ^ 5 / 10 ^ 2) / (1 / 10)) with 10000 by lra. rewrite (ceil_unique 10000 10000) by lra.
      replace (10000 * (10 ^ 2 / 10 ^ 5)) with (IZR 10) by lra. apply truncz_IZR.
    + eexists _, _. split; [exact H |]. cbn [v_num]. change (Z.to_nat (10 + 1)) with 11%nat. split; [now rewrite mids_length, linspace_length |]. rewrite (axis_nth 0 1000 10 9) by lia. cbn [INR]. lra.
Qed.
Theorem units_width : cgs (mk_vel (1 / 10) km_s) = cgs (mk_vel 100 m_s) /\ (exists cube axis, ppv (mk_vel (1 / 10) km_s) (mk_vel 0 km_s) (mk_vel 1 km_s) = Ok (cube, axis) /\ length axis = 10%nat) /\
  exists cube axis, ppv (mk_vel 100 m_s) (mk_vel 0 km_s) (mk_vel 1 km_s) = Ok (cube, axis) /\ length axis = 1000%nat.
Proof.
  split; [unfold cgs, km_s, m_s; cbn [v_num v_unit]; lra |]. split.
  - destruct units_max as [_ [[cube [axis [H [L _]]]] _]]. now exists cube, axis.
  - destruct (ppv_axis (mk_vel 100 m_s) (mk_vel 0 km_s) (mk_vel 1 km_s) 1000) as [cube H]; [unfold cgs, km_s; cbn [v_num v_unit]; lra | | lia |].
    + unfold n_channels, v_sub, v_to, cgs, km_s, m_s. cbn [v_num v_unit]. rewrite (ceil_unique _ 1) by lra. replace (1 * (10 ^ 5 / 10 ^ 2)) with (IZR 1000) by lra. apply truncz_IZR.
    + eexists _, _. split; [exact H |]. rewrite mids_length, linspace_length. lia.
Qed.
End Units.
(** limits and width written in another common unit *)
Lemma linspace_mul lo hi n c : linspace (lo * c) (hi * c) n = map (fun e => e * c) (linspace lo hi n).
Proof.
  destruct n as [| [| n]]; try reflexivity. apply (nth_ext _ _ 0 (0 * c)); [now rewrite map_length, !linspace_length |]. rewrite linspace_length. intros k K.
  rewrite (map_nth (fun x => x * c)), !linspace_nth by lia. replace (hi * c - lo * c) with ((hi - lo) * c) by lra. unfold Rdiv. ring.
Qed.
Theorem units_common U vel dens a vt pix vd idx u u' lo hi w mc hdu cube axis : (a < 3)%nat -> f_shape dens = f_shape vel -> (2 <= dim (f_shape vel) a)%nat -> 0 < u -> 0 < u' -> w <> 0 ->
  make_ppv U vel dens (Z.of_nat a) vt pix vd idx (Some (mk_vel w u)) (Some (mk_vel lo u)) (Some (mk_vel hi u)) mc None hdu = Ok (cube, axis) ->
  exists cube', make_ppv U vel dens (Z.of_nat a) vt pix vd idx (Some (mk_vel (w * (u / u')) u')) (Some (mk_vel (lo * (u / u')) u')) (Some (mk_vel (hi * (u / u')) u')) mc None hdu
     = Ok (cube', map (fun v => v * (u / u')) axis) /\
  forall y x j, on_image vel a y x -> (j < length axis)%nat -> voxel cube' j y x = voxel cube j y x.
Proof.
  intros A S N PU PU' W H. destruct (make_ppv_value U vel dens a vt pix vd idx _ _ _ mc hdu A S N cube axis H) as [P [edges [unit [E [X [B [_ [_ V]]]]]]]].
  set (c := u / u') in *. assert (PC : 0 < c) by now apply Rdiv_lt_0_compat.
  assert (E' : chosen_edges U vel a vt vd idx (Some (mk_vel (w * c) u')) (Some (mk_vel (lo * c) u')) (Some (mk_vel (hi * c) u')) mc = Ok (map (fun e => e * c) edges, u') /\ unit = u).
  { revert E. unfold chosen_edges, vel_edges, limits. rewrite !n_channels_same by lra. unfold cgs. cbn [v_num v_unit].
    replace (lo * c * u') with (lo * u) by (unfold c; field; lra). replace (hi * c * u') with (hi * u) by (unfold c; field; lra).
    replace ((hi * c - lo * c) / (w * c)) with ((hi - lo) / w) by (field; split; lra).
    destruct (Rltb _ _); [discriminate |]. destruct (mc <? _)%Z; [discriminate |]. destruct (_ <? 0)%Z; [discriminate |]. intro E. apply ok_pair in E. destruct E as [<- <-]. rewrite linspace_mul. split; reflexivity. }
  destruct E' as [E' ->].
  destruct (make_ppv_total U vel dens a vt pix vd idx _ _ _ mc hdu A S N _ u' P E') as [cube' H']. { intro T. specialize (B T). rewrite X, mids_length in B. rewrite map_length. lia. }
  assert (MX : mids (map (fun e => e * c) edges) = map (fun v => v * c) axis).
  { subst axis. apply (nth_ext _ _ 0 (0 * c)); [rewrite map_length, !mids_length, map_length; reflexivity |]. rewrite mids_length, map_length. intros k K. rewrite (map_nth (fun v => v * c)).
    rewrite !mids_nth by (rewrite ?map_length; lia).
    assert (M : forall i, (i < length edges)%nat -> nth i (map (fun e => e * c) edges) 0 = nth i edges 0 * c).
    { intros i I. rewrite (nth_indep _ 0 (0 * c)) by (rewrite map_length; lia). now rewrite (map_nth (fun e => e * c)). }
    rewrite !M by lia. lra. }
  rewrite MX in H'. exists cube'. split; [exact H' |]. intros y x j O J.
  destruct (make_ppv_value U vel dens a vt pix vd idx _ _ _ mc hdu A S N cube' _ H') as [_ [edges' [unit' [E'' [_ [_ [_ [_ V']]]]]]]].
  rewrite E' in E''. apply ok_pair in E''. destruct E'' as [<- <-]. rewrite (V' y x j O) by (rewrite map_length; exact J). rewrite (V y x j O J).
  rewrite map_map. replace (map (fun x0 => x0 * c * u') edges) with (map (fun e => e * u) edges); [reflexivity |]. apply map_ext. intro e. unfold c. field. lra.
Qed.

(** ** Negative axes *)
Theorem axis_minus3 U vel dens vt pix vd idx cw v0 v1 mc sched hdu :
  make_ppv U vel dens (-3) vt pix vd idx cw v0 v1 mc sched hdu = make_ppv U vel dens 0 vt pix vd idx cw v0 v1 mc sched hdu.
Proof. reflexivity. Qed.
Theorem axis_minus1 U vel dens n vt pix vd idx cw v0 v1 mc sched hdu : f_shape vel = (n, n, n) ->
  make_ppv U vel dens (-1) vt pix vd idx cw v0 v1 mc sched hdu = make_ppv U vel dens 1 vt pix vd idx cw v0 v1 mc sched hdu.
Proof. intros S. unfold make_ppv. rewrite S. reflexivity. Qed.
Theorem axis_minus2 U vel dens n vt pix vd idx cw v0 v1 mc sched hdu : f_shape vel = (n, n, n) ->
  make_ppv U vel dens (-2) vt pix vd idx cw v0 v1 mc sched hdu = make_ppv U vel dens 0 vt pix vd idx cw v0 v1 mc sched hdu.
Proof. intros S. unfold make_ppv. rewrite S. reflexivity. Qed.
