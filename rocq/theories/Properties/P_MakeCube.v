(** Synthetic position-position-velocity cubes, their headers, and 3D power spectra
    (C57-C59, C143-C152). *)
From Coq Require Import Reals List ZArith Bool Arith Lia Lra Permutation.
From Verif Require Import Lib.PyBase Lib.RSum Lib.Fl Model.MakeCube Model.ThreeD Spec.Ppv Spec.Freq Spec.Modes
  Proofs.MakeCube_Proofs Proofs.MakeCube2_Proofs Proofs.MakeCube3_Proofs Proofs.MakeCube4_Proofs Proofs.MakeCube5_Proofs Proofs.ThreeD_Proofs.
Import ListNotations.
Local Open Scope R_scope.

(** Throughout: [U] is the unit of the velocity field in cm/s, [vt] the squared thermal width
    in that unit, [pix] the length of a cell in cm, [vd] the velocity dispersion, [cw] the
    channel width, [l0], [l1], [v0], [v1] the velocity limits, [mc] max_chan. *)

(** ** C57 *)
Theorem C57_schedule : forall U vel dens los vt pix vd idx cw v0 v1 mc order hdu,
  (forall axis, real_axis los = Some axis ->
     Permutation order (seq 0 (fst (image_dims (f_shape vel) axis) * snd (image_dims (f_shape vel) axis)))) ->
  make_ppv U vel dens los vt pix vd idx cw v0 v1 mc (Some order) hdu = make_ppv U vel dens los vt pix vd idx cw v0 v1 mc None hdu.
Proof. exact make_ppv_schedule. Qed.
Print Assumptions C57_schedule.

Example C57_schedule_case : forall axis, real_axis 1 = Some axis ->
  Permutation [5; 2; 0; 4; 1; 3]%nat (seq 0 (fst (image_dims (2, 7, 3)%nat axis) * snd (image_dims (2, 7, 3)%nat axis))).
Proof. intros axis H. inversion H; subst. change (Permutation [5; 2; 0; 4; 1; 3]%nat [0; 1; 2; 3; 4; 5]%nat). apply NoDup_Permutation; [repeat constructor; cbn; intuition lia | repeat constructor; cbn; intuition lia | cbn; intuition lia]. Qed.

Theorem C57_line_of_sight : forall U vel dens vel' dens' a vt pix vd idx w lo hi mc hdu cube axis cube' axis' y x,
  (a < 3)%nat -> f_shape dens = f_shape vel -> f_shape vel' = f_shape vel -> f_shape dens' = f_shape vel ->
  (2 <= dim (f_shape vel) a)%nat -> on_image vel a y x ->
  (forall i, (i < dim (f_shape vel) a)%nat -> sight vel' a y x i = sight vel a y x i /\ sight dens' a y x i = sight dens a y x i) ->
  make_ppv U vel dens (Z.of_nat a) vt pix vd idx (Some w) (Some lo) (Some hi) mc None hdu = Ok (cube, axis) ->
  make_ppv U vel' dens' (Z.of_nat a) vt pix vd idx (Some w) (Some lo) (Some hi) mc None hdu = Ok (cube', axis') ->
  axis' = axis /\ cube' y x = cube y x.
Proof. exact own_sight. Qed.
Print Assumptions C57_line_of_sight.

Example C57_line_of_sight_case : exists cube axis,
  make_ppv 1 (uniform (2, 2, 2)%nat 0) depth 2 1 1 0 0 (Some (mk_vel 2 1)) (Some (mk_vel (-1) 1)) (Some (mk_vel 1 1)) 1000 None false = Ok (cube, axis)
  /\ on_image depth 2 1 0.
Proof. destruct (still_voxel 2 ltac:(lia)) as [c [ax [H _]]]. exists c, ax. split; [exact H | split; cbn; lia]. Qed.

(** ** C58 *)
Theorem C58_additive : forall U vel a vt pix vd idx cw v0 v1 mc hdu, (a < 3)%nat -> (2 <= dim (f_shape vel) a)%nat ->
  forall d1 d2 cube axis, f_shape d1 = f_shape vel -> f_shape d2 = f_shape vel -> nonneg_field d1 -> nonneg_field d2 ->
  make_ppv U vel d1 (Z.of_nat a) vt pix vd idx cw v0 v1 mc None hdu = Ok (cube, axis) ->
  exists cube2 cube12, make_ppv U vel d2 (Z.of_nat a) vt pix vd idx cw v0 v1 mc None hdu = Ok (cube2, axis) /\
    make_ppv U vel (f_map2 Rplus d1 d2) (Z.of_nat a) vt pix vd idx cw v0 v1 mc None hdu = Ok (cube12, axis) /\
    forall y x j, on_image vel a y x -> (j < length axis)%nat -> voxel cube12 j y x = voxel cube j y x + voxel cube2 j y x.
Proof. exact density_additive. Qed.
Print Assumptions C58_additive.

Theorem C58_homogeneous : forall U vel a vt pix vd idx cw v0 v1 mc hdu, (a < 3)%nat -> (2 <= dim (f_shape vel) a)%nat ->
  forall c d cube axis, f_shape d = f_shape vel -> nonneg_field d -> 0 <= c ->
  make_ppv U vel d (Z.of_nat a) vt pix vd idx cw v0 v1 mc None hdu = Ok (cube, axis) ->
  exists cube', make_ppv U vel (f_map (Rmult c) d) (Z.of_nat a) vt pix vd idx cw v0 v1 mc None hdu = Ok (cube', axis) /\
    forall y x j, on_image vel a y x -> (j < length axis)%nat -> voxel cube' j y x = c * voxel cube j y x.
Proof. exact density_scaled. Qed.
Print Assumptions C58_homogeneous.

Theorem C58_nonnegative : forall U vel a vt pix vd idx cw v0 v1 mc hdu, (a < 3)%nat -> (2 <= dim (f_shape vel) a)%nat ->
  forall d cube axis, 0 < U -> 0 < vt -> 0 < pix -> f_shape d = f_shape vel ->
  make_ppv U vel d (Z.of_nat a) vt pix vd idx cw v0 v1 mc None hdu = Ok (cube, axis) ->
  forall y x j, on_image vel a y x -> (j < length axis)%nat -> 0 <= voxel cube j y x.
Proof. exact density_nonneg. Qed.
Print Assumptions C58_nonnegative.

(** the cells of a line of sight, each with its velocity, density and gradient, in any order *)
Theorem C58_order : forall cells cells' edges vt pix, Permutation cells cells' ->
  generate_spectrum cells edges (mids edges) vt pix = generate_spectrum cells' edges (mids edges) vt pix.
Proof. exact spectrum_order. Qed.
Print Assumptions C58_order.

(** a run with a strictly positive voxel *)
Example C58_case : exists cube axis, nonneg_field depth /\
  make_ppv 1 (uniform (2, 2, 2)%nat 0) depth 2 1 1 0 0 (Some (mk_vel 2 1)) (Some (mk_vel (-1) 1)) (Some (mk_vel 1 1)) 1000 None false = Ok (cube, axis)
  /\ 0 < voxel cube 0 0 0.
Proof.
  destruct axis_minus1_wrong as [vel [dens [c1 [c2 [a1 [a2 _]]]]]]. destruct (still_voxel 2 ltac:(lia)) as [c [ax [H V]]]. exists c, ax. split; [exact depth_nonneg |]. split; [exact H |]. rewrite V. cbn [sight depth f_at INR].
  pose proof (line_pos 1 1 0 0 0 ltac:(lra) ltac:(lra)). apply Rmult_lt_0_compat; [lra |]. apply Rdiv_lt_0_compat; [assumption | unfold conv_to_K; lra].
Qed.

(** ** C59 *)
(** n equal channels from lo to hi, n the smallest number with a width of at most w *)
Theorem C59_channels_partial : forall U vel dens a vt pix vd idx mc hdu, (a < 3)%nat -> f_shape dens = f_shape vel -> (2 <= dim (f_shape vel) a)%nat -> nonneg_field dens ->
  forall u lo hi w, 0 < u -> lo < hi -> 0 < w -> (hi - lo) / w <= IZR mc -> (hdu = true -> w < hi - lo) ->
  exists cube axis n, make_ppv U vel dens (Z.of_nat a) vt pix vd idx (Some (mk_vel w u)) (Some (mk_vel lo u)) (Some (mk_vel hi u)) mc None hdu = Ok (cube, axis) /\
    length axis = n /\ (1 <= n)%nat /\ (Z.of_nat n <= mc)%Z /\ (hi - lo) / INR n <= w /\ (forall m, (1 <= m)%nat -> (hi - lo) / INR m <= w -> (n <= m)%nat) /\
    forall j, (j < n)%nat -> nth j axis 0 = lo + (INR j + 1 / 2) * ((hi - lo) / INR n).
Proof. exact channels_given. Qed.
Print Assumptions C59_channels_partial.

Example C59_channels_case : (1 - 0) / (1 / 10) <= IZR 1000 /\ (true = true -> 1 / 10 < 1 - 0).
Proof. split; [lra | intros _; lra]. Qed.

(** default limits leave four line widths around every cell *)
Theorem C59_default_limits_partial : forall U vel dens a vt pix vd idx mc hdu, (a < 3)%nat -> f_shape dens = f_shape vel -> (2 <= dim (f_shape vel) a)%nat ->
  forall cw cube axis, 0 < U -> 0 < vt -> (0 <= mc)%Z -> (forall b, (b < 3)%nat -> (1 <= dim (f_shape vel) b)%nat) ->
  make_ppv U vel dens (Z.of_nat a) vt pix vd idx cw None None mc None hdu = Ok (cube, axis) ->
  exists lo hi n, length axis = n /\ (Z.of_nat n <= mc)%Z /\ lo < hi /\
    ((1 <= n)%nat -> forall j, (j < n)%nat -> nth j axis 0 = lo + (INR j + 1 / 2) * ((hi - lo) / INR n)) /\
    (cw = None -> (1 <= n)%nat /\ (hi - lo) / INR n <= sqrt (vd ^ 2 * Rpower (2 / INR (dim (f_shape vel) a)) idx + 2 * vt) / 2) /\
    forall i j k, (i < dim (f_shape vel) 0)%nat -> (j < dim (f_shape vel) 1)%nat -> (k < dim (f_shape vel) 2)%nat ->
      lo + 4 * sqrt (vd ^ 2 + vt) <= f_at vel i j k <= hi - 4 * sqrt (vd ^ 2 + vt).
Proof. exact channels_default. Qed.
Print Assumptions C59_default_limits_partial.

Example C59_default_case : exists cube axis,
  make_ppv 1 (uniform (2, 3, 4)%nat 7) (uniform (2, 3, 4)%nat 5) (Z.of_nat 1) 1 1 0 0 None None None 1000 None true = Ok (cube, axis) /\ length axis = 12%nat.
Proof.
  destruct (uniform_is_black 1 (2, 3, 4)%nat 7 (uniform (2, 3, 4)%nat 5) 1 1 1 0 1000 true) as [c [ax [H [L _]]]]; try lra; try lia; try reflexivity.
  - intros i j k. cbn. lra.
  - cbn. lia.
  - intros b B. destruct b as [| [| [| b]]]; cbn; lia.
  - now exists c, ax.
Qed.

Theorem C59_negative_density : forall U vel dens los vt pix vd idx cw v0 v1 mc sched hdu i j k,
  (i < dim (f_shape dens) 0)%nat -> (j < dim (f_shape dens) 1)%nat -> (k < dim (f_shape dens) 2)%nat -> f_at dens i j k < 0 ->
  make_ppv U vel dens los vt pix vd idx cw v0 v1 mc sched hdu = Err ValueError.
Proof. exact negative_density. Qed.
Print Assumptions C59_negative_density.

Theorem C59_crossed_limits : forall U vel dens a vt pix vd idx cw lo hi mc sched hdu, (a < 3)%nat -> cgs hi < cgs lo ->
  make_ppv U vel dens (Z.of_nat a) vt pix vd idx cw (Some lo) (Some hi) mc sched hdu = Err ValueError.
Proof. exact crossed_limits. Qed.
Print Assumptions C59_crossed_limits.

Example C59_crossed_case : cgs (mk_vel 900 m_s) < cgs (mk_vel 1 km_s) /\ f_at (uniform (1, 1, 1)%nat (-2)) 0 0 0 < 0.
Proof. split; [unfold cgs, km_s, m_s; cbn [v_num v_unit]; lra | cbn; lra]. Qed.

Theorem C59_too_many_channels : forall U vel dens a vt pix vd idx u lo hi w mc sched hdu, (a < 3)%nat -> 0 < u -> 0 < w -> IZR mc < (hi - lo) / w ->
  make_ppv U vel dens (Z.of_nat a) vt pix vd idx (Some (mk_vel w u)) (Some (mk_vel lo u)) (Some (mk_vel hi u)) mc sched hdu = Err ValueError.
Proof. exact too_many. Qed.
Print Assumptions C59_too_many_channels.

Example C59_too_many_case : IZR 1000 < (11 - 0) / (1 / 100).
Proof. lra. Qed.

(** the default output form fails for a range no wider than one channel *)
Theorem C59_single_channel_refuted : forall U vel dens a vt pix vd idx u lo hi w mc,
  (a < 3)%nat -> f_shape dens = f_shape vel -> (2 <= dim (f_shape vel) a)%nat -> nonneg_field dens ->
  0 < u -> lo < hi -> hi - lo <= w -> (1 <= mc)%Z ->
  make_ppv U vel dens (Z.of_nat a) vt pix vd idx (Some (mk_vel w u)) (Some (mk_vel lo u)) (Some (mk_vel hi u)) mc None true = Err IndexError.
Proof. exact single_channel. Qed.
Print Assumptions C59_single_channel_refuted.

Example C59_single_channel_case : nonneg_field depth /\ 1 - (-1) <= 2 /\ (2 <= dim (f_shape depth) 0)%nat.
Proof. split; [exact depth_nonneg |]. split; [lra | cbn; lia]. Qed.

(** ** C143 *)
Theorem C143_reversal : forall U vel dens a vt pix vd idx cw v0 v1 mc hdu cube axis, (a < 3)%nat -> f_shape dens = f_shape vel -> (2 <= dim (f_shape vel) a)%nat ->
  make_ppv U vel dens (Z.of_nat a) vt pix vd idx cw v0 v1 mc None hdu = Ok (cube, axis) ->
  exists cube', make_ppv U (reversed a vel) (reversed a dens) (Z.of_nat a) vt pix vd idx cw v0 v1 mc None hdu = Ok (cube', axis) /\
    forall y x j, on_image vel a y x -> (j < length axis)%nat -> voxel cube' j y x = voxel cube j y x.
Proof. exact reversal. Qed.
Print Assumptions C143_reversal.

Example C143_case : f_at (reversed 2 depth) 0 0 0 <> f_at depth 0 0 0.
Proof. cbn. lra. Qed.

(** ** C144 *)
Theorem C144_galilean : forall U vel dens a vt pix vd idx cw l0 l1 mc hdu c cube axis, 0 < U -> (a < 3)%nat -> f_shape dens = f_shape vel -> (2 <= dim (f_shape vel) a)%nat ->
  (forall b, (b < 3)%nat -> (1 <= dim (f_shape vel) b)%nat) ->
  make_ppv U vel dens (Z.of_nat a) vt pix vd idx cw (lim U l0) (lim U l1) mc None hdu = Ok (cube, axis) ->
  exists cube', make_ppv U (f_map (fun v => v + c) vel) dens (Z.of_nat a) vt pix vd idx cw
      (lim U (option_map (fun v => v + c) l0)) (lim U (option_map (fun v => v + c) l1)) mc None hdu = Ok (cube', map (fun v => v + c) axis) /\
    forall y x j, on_image vel a y x -> (j < length axis)%nat -> voxel cube' j y x = voxel cube j y x.
Proof. exact galilean. Qed.
Print Assumptions C144_galilean.

Example C144_case : exists cube axis,
  make_ppv 1 (uniform (2, 2, 2)%nat 0) depth 2 1 1 0 0 (Some (mk_vel 2 1)) (lim 1 (Some (-1))) (lim 1 (Some 1)) 1000 None false = Ok (cube, axis).
Proof. destruct (still_voxel 2 ltac:(lia)) as [c [ax [H _]]]. exists c, ax. exact H. Qed.

(** ** C145 *)
(** a uniform velocity field with the default channels gives a cube of zeros, whatever the density *)
Theorem C145_uniform_refuted : forall U s v dens a vt pix idx mc hdu, 0 < U -> 0 < vt -> (12 <= mc)%Z -> (a < 3)%nat -> f_shape dens = s -> nonneg_field dens ->
  (2 <= dim s a)%nat -> (forall b, (b < 3)%nat -> (1 <= dim s b)%nat) ->
  exists cube axis, make_ppv U (uniform s v) dens (Z.of_nat a) vt pix 0 idx None None None mc None hdu = Ok (cube, axis) /\ length axis = 12%nat /\
    forall y x j, on_image (uniform s v) a y x -> (j < 12)%nat -> voxel cube j y x = 0.
Proof. exact uniform_is_black. Qed.
Print Assumptions C145_uniform_refuted.

(** each cell strictly inside a channel adds its Gaussian line to every channel; a cell on an
    edge or outside the range adds nothing *)
Theorem C145_cells_partial : forall U vel dens a vt pix vd idx lo hi w mc hdu keep y x j cube axis,
  0 < U -> (a < 3)%nat -> f_shape dens = f_shape vel -> (2 <= dim (f_shape vel) a)%nat -> lo < hi -> 0 < w ->
  make_ppv U vel dens (Z.of_nat a) vt pix vd idx (Some (mk_vel w U)) (Some (mk_vel lo U)) (Some (mk_vel hi U)) mc None hdu = Ok (cube, axis) ->
  on_image vel a y x -> (j < length axis)%nat ->
  (forall i, keep i = true <-> exists k, (k < length axis)%nat /\ edge lo hi (length axis) k < sight vel a y x i < edge lo hi (length axis) (S k)) ->
  voxel cube j y x = rsum (dim (f_shape vel) a) (fun i => if keep i : bool then
     sight dens a y x i * line (vt * U ^ 2) pix (sight vel a y x i * U) (grad (sight vel a y x) (dim (f_shape vel) a) i / pix * U) (nth j axis 0 * U) / conv_to_K
     else 0).
Proof. exact counted_given. Qed.
Print Assumptions C145_cells_partial.

Example C145_case : forall i : nat, true = true <-> exists k, (k < 1)%nat /\ edge (-1) 1 1 k < sight (uniform (2, 2, 2)%nat 0) 2 0 0 i < edge (-1) 1 1 (S k).
Proof. intro i. split; [intros _ | reflexivity]. exists 0%nat. split; [lia |]. cbn [sight uniform f_at]. unfold edge. cbn [INR]. lra. Qed.

(** ** C146 *)
Theorem C146_limit_unit_refuted : forall U vel dens a vt pix vd idx hdu, (a < 3)%nat -> f_shape dens = f_shape vel -> (2 <= dim (f_shape vel) a)%nat -> nonneg_field dens ->
  let ppv cw lo hi := make_ppv U vel dens (Z.of_nat a) vt pix vd idx (Some cw) (Some lo) (Some hi) 1000 None hdu in
  cgs (mk_vel 1 km_s) = cgs (mk_vel 1000 m_s) /\
  (exists cube axis, ppv (mk_vel (1 / 10) km_s) (mk_vel 0 km_s) (mk_vel 1 km_s) = Ok (cube, axis) /\ length axis = 10%nat /\ nth 9 axis 0 = 95 / 100) /\
  exists cube axis, ppv (mk_vel (1 / 10) km_s) (mk_vel 0 km_s) (mk_vel 1000 m_s) = Ok (cube, axis) /\ length axis = 10%nat /\ nth 9 axis 0 = 950.
Proof. exact units_max. Qed.
Print Assumptions C146_limit_unit_refuted.

Theorem C146_width_unit_refuted : forall U vel dens a vt pix vd idx hdu, (a < 3)%nat -> f_shape dens = f_shape vel -> (2 <= dim (f_shape vel) a)%nat -> nonneg_field dens ->
  let ppv cw lo hi := make_ppv U vel dens (Z.of_nat a) vt pix vd idx (Some cw) (Some lo) (Some hi) 1000 None hdu in
  cgs (mk_vel (1 / 10) km_s) = cgs (mk_vel 100 m_s) /\
  (exists cube axis, ppv (mk_vel (1 / 10) km_s) (mk_vel 0 km_s) (mk_vel 1 km_s) = Ok (cube, axis) /\ length axis = 10%nat) /\
  exists cube axis, ppv (mk_vel 100 m_s) (mk_vel 0 km_s) (mk_vel 1 km_s) = Ok (cube, axis) /\ length axis = 1000%nat.
Proof. exact units_width. Qed.
Print Assumptions C146_width_unit_refuted.

Theorem C146_common_unit_partial : forall U vel dens a vt pix vd idx u u' lo hi w mc hdu cube axis,
  (a < 3)%nat -> f_shape dens = f_shape vel -> (2 <= dim (f_shape vel) a)%nat -> 0 < u -> 0 < u' -> w <> 0 ->
  make_ppv U vel dens (Z.of_nat a) vt pix vd idx (Some (mk_vel w u)) (Some (mk_vel lo u)) (Some (mk_vel hi u)) mc None hdu = Ok (cube, axis) ->
  exists cube', make_ppv U vel dens (Z.of_nat a) vt pix vd idx (Some (mk_vel (w * (u / u')) u')) (Some (mk_vel (lo * (u / u')) u')) (Some (mk_vel (hi * (u / u')) u')) mc None hdu
     = Ok (cube', map (fun v => v * (u / u')) axis) /\
  forall y x j, on_image vel a y x -> (j < length axis)%nat -> voxel cube' j y x = voxel cube j y x.
Proof. exact units_common. Qed.
Print Assumptions C146_common_unit_partial.

Example C146_case : nonneg_field depth /\ (2 <= dim (f_shape depth) 1)%nat /\ 0 < km_s /\ 0 < m_s /\ km_s / m_s = 1000.
Proof. unfold km_s, m_s. split; [exact depth_nonneg |]. split; [cbn; lia |]. repeat split; lra. Qed.

(** ** C147 *)
Theorem C147_last_axis_refuted : exists vel dens cube1 cube2 axis1 axis2, f_shape vel = (2, 2, 2)%nat /\ f_shape dens = (2, 2, 2)%nat /\
  make_ppv 1 vel dens 2 1 1 0 0 (Some (mk_vel 2 1)) (Some (mk_vel (-1) 1)) (Some (mk_vel 1 1)) 1000 None false = Ok (cube2, axis2) /\
  make_ppv 1 vel dens (-1) 1 1 0 0 (Some (mk_vel 2 1)) (Some (mk_vel (-1) 1)) (Some (mk_vel 1 1)) 1000 None false = Ok (cube1, axis1) /\
  voxel cube1 0 0 0 = 0 /\ 0 < voxel cube2 0 0 0.
Proof. exact axis_minus1_wrong. Qed.
Print Assumptions C147_last_axis_refuted.

(** for cubic fields -1 silently means axis 1 and -2 means axis 0 *)
Theorem C147_minus1_refuted : forall U vel dens n vt pix vd idx cw v0 v1 mc sched hdu, f_shape vel = (n, n, n) ->
  make_ppv U vel dens (-1) vt pix vd idx cw v0 v1 mc sched hdu = make_ppv U vel dens 1 vt pix vd idx cw v0 v1 mc sched hdu.
Proof. exact axis_minus1. Qed.
Print Assumptions C147_minus1_refuted.

Theorem C147_minus2_refuted : forall U vel dens n vt pix vd idx cw v0 v1 mc sched hdu, f_shape vel = (n, n, n) ->
  make_ppv U vel dens (-2) vt pix vd idx cw v0 v1 mc sched hdu = make_ppv U vel dens 0 vt pix vd idx cw v0 v1 mc sched hdu.
Proof. exact axis_minus2. Qed.
Print Assumptions C147_minus2_refuted.

Theorem C147_noncubic_refuted : forall U vel dens n0 n1 n2 vt pix vd idx cw v0 v1 mc hdu r, f_shape vel = (n0, n1, n2) -> f_shape dens = f_shape vel -> (1 <= n0)%nat -> (2 <= n2 < n1)%nat ->
  make_ppv U vel dens 2 vt pix vd idx cw v0 v1 mc None hdu = Ok r -> make_ppv U vel dens (-1) vt pix vd idx cw v0 v1 mc None hdu = Err IndexError.
Proof. exact axis_minus1_fails. Qed.
Print Assumptions C147_noncubic_refuted.

Theorem C147_minus3_partial : forall U vel dens vt pix vd idx cw v0 v1 mc sched hdu,
  make_ppv U vel dens (-3) vt pix vd idx cw v0 v1 mc sched hdu = make_ppv U vel dens 0 vt pix vd idx cw v0 v1 mc sched hdu.
Proof. exact axis_minus3. Qed.
Print Assumptions C147_minus3_partial.

Example C147_case : exists r, make_ppv 1 (uniform (2, 3, 2)%nat 7) (uniform (2, 3, 2)%nat 5) 2 1 1 0 0 None None None 1000 None true = Ok r.
Proof.
  destruct (uniform_is_black 1 (2, 3, 2)%nat 7 (uniform (2, 3, 2)%nat 5) 2 1 1 0 1000 true) as [c [ax [H _]]]; try lra; try lia; try reflexivity.
  - intros i j k. cbn. lra.
  - intros b B. destruct b as [| [| [| b]]]; cbn; lia.
  - exists (c, ax). exact H.
Qed.

(** ** C148 *)
(** FITS axis 1 is the last axis of the array *)
Theorem C148_off_image_refuted : forall nchan ny nx, (2 * nx + 2 <= ny)%nat ->
  INR nx + 1 / 2 < fst (crpix_cube (nchan, ny, nx)) /\ INR nx + 1 / 2 < fst (crpix_image (ny, nx)).
Proof. exact header_off_image. Qed.
Print Assumptions C148_off_image_refuted.

Theorem C148_square_partial : forall nchan n,
  Rabs (fst (crpix_cube (nchan, n, n)) - centre n) <= 1 / 2 /\ Rabs (snd (crpix_cube (nchan, n, n)) - centre n) <= 1 / 2 /\
  Rabs (fst (crpix_image (n, n)) - centre n) <= 1 / 2 /\ Rabs (snd (crpix_image (n, n)) - centre n) <= 1 / 2.
Proof. exact header_square. Qed.
Print Assumptions C148_square_partial.

Example C148_case : fst (crpix_cube (5, 10, 4)%nat) = 5.
Proof. unfold crpix_cube. cbn [fst dim INR]. lra. Qed.

(** ** C149 *)
Theorem C149_spectral_axis : forall U vel dens a vt pix vd idx cw v0 v1 mc cube axis, (a < 3)%nat -> f_shape dens = f_shape vel -> (2 <= dim (f_shape vel) a)%nat ->
  make_ppv U vel dens (Z.of_nat a) vt pix vd idx cw v0 v1 mc None true = Ok (cube, axis) ->
  forall i, (i < length axis)%nat -> header_spectral (nth 0 axis 0) (nth 1 axis 0 - nth 0 axis 0) i = nth i axis 0.
Proof. exact header_axis. Qed.
Print Assumptions C149_spectral_axis.

Example C149_case : exists cube axis, make_ppv 1 (uniform (2, 3, 4)%nat 7) (uniform (2, 3, 4)%nat 5) (Z.of_nat 1) 1 1 0 0 None None None 1000 None true = Ok (cube, axis) /\ length axis = 12%nat.
Proof. exact C59_default_case. Qed.

(** ** C150 *)
Theorem C150_bins : forall n0 n1 n2 arr fx fy fz, (1 <= n0)%nat -> (1 <= n1)%nat -> (1 <= n2)%nat ->
  (forall a, (a < n0)%nat -> is_freq n0 a (fx a)) -> (forall b, (b < n1)%nat -> is_freq n1 b (fy b)) -> (forall c, (c < n2)%nat -> is_freq n2 c (fz c)) ->
  let N := Nat.max n0 (Nat.max n1 n2) in let K := ((N - 1) / 2)%nat in
  exists freqs ps err, threeD_pspec 3 (n0, n1, n2) arr = Ok (freqs, ps, err) /\ length freqs = K /\ length ps = K /\ length err = K /\
  forall k, (1 <= k <= K)%nat -> nth (k - 1) freqs 0 = INR k / INR N /\
  forall sel : nat -> nat -> nat -> bool,
    (forall a b c, (a < n0)%nat -> (b < n1)%nat -> (c < n2)%nat -> sel a b c = true <->
        INR k / INR N <= mode_freq fx fy fz a b c /\ (k = K \/ mode_freq fx fy fz a b c < INR (S k) / INR N)) ->
    let total g := rsum n0 (fun a => rsum n1 (fun b => rsum n2 (fun c => if sel a b c then g a b c else 0))) in
    let count := total (fun _ _ _ => 1) in
    let mean := total (power n0 n1 n2 arr) / count in
    1 <= count /\ nth (k - 1) ps NaN = Fin mean /\ nth (k - 1) err NaN = Fin (sqrt (total (fun a b c => (power n0 n1 n2 arr a b c - mean) ^ 2) / count)).
Proof. exact threeD_values. Qed.
Print Assumptions C150_bins.

Example C150_case : is_freq 4 3 (- (1 / 4)) /\ is_freq 4 1 (1 / 4) /\ ((Nat.max 4 (Nat.max 3 9) - 1) / 2 = 4)%nat.
Proof. split; [split; [lra | exists (-1)%Z; cbn [INR]; lra] |]. split; [split; [lra | exists 0%Z; cbn [INR]; lra] | reflexivity]. Qed.

(** ** C151 *)
Theorem C151_cyclic_shift : forall n0 n1 n2 arr s0 s1 s2,
  threeD_pspec 3 (n0, n1, n2) (fun i j k => arr ((i + s0) mod n0) ((j + s1) mod n1) ((k + s2) mod n2))%nat = threeD_pspec 3 (n0, n1, n2) arr.
Proof. exact threeD_roll. Qed.
Print Assumptions C151_cyclic_shift.
Theorem C151_offset : forall n0 n1 n2 arr v, threeD_pspec 3 (n0, n1, n2) (fun i j k => arr i j k + v) = threeD_pspec 3 (n0, n1, n2) arr.
Proof. exact threeD_offset. Qed.
Print Assumptions C151_offset.
Theorem C151_scale : forall n0 n1 n2 arr s freqs ps err, threeD_pspec 3 (n0, n1, n2) arr = Ok (freqs, ps, err) ->
  threeD_pspec 3 (n0, n1, n2) (fun i j k => s * arr i j k) = Ok (freqs, map (fscale (s ^ 2)) ps, map (fscale (s ^ 2)) err).
Proof. exact threeD_scaled. Qed.
Print Assumptions C151_scale.
Example C151_case : exists r, threeD_pspec 3 (3, 4, 5)%nat (fun i j k => INR (i * j + k)) = Ok r.
Proof. eexists. reflexivity. Qed.

(** ** C152 *)
Theorem C152_total_power : forall n0 n1 n2, (1 <= n0)%nat -> (1 <= n1)%nat -> (1 <= n2)%nat -> (3 <= Nat.max n0 (Nat.max n1 n2))%nat ->
  let K := ((Nat.max n0 (Nat.max n1 n2) - 1) / 2)%nat in let M := INR (n0 * n1 * n2) in
  exists count : nat -> nat, (forall k, (k < K)%nat -> (1 <= count k)%nat) /\ rsum K (fun k => INR (count k)) = M - 1 /\
    forall arr freqs ps err p, threeD_pspec 3 (n0, n1, n2) arr = Ok (freqs, ps, err) -> (forall k, (k < K)%nat -> nth k ps NaN = Fin (p k)) ->
      rsum K (fun k => INR (count k) * p k) = M * sum3 n0 n1 n2 (fun i j k => arr i j k ^ 2) - sum3 n0 n1 n2 arr ^ 2.
Proof. exact threeD_total'. Qed.
Print Assumptions C152_total_power.
Example C152_case : (3 <= Nat.max 4 (Nat.max 1 6))%nat /\ ((Nat.max 4 (Nat.max 1 6) - 1) / 2 = 2)%nat.
Proof. split; [cbn; lia | reflexivity]. Qed.
