From Coq Require Import Reals List ZArith Bool Arith Lia Lra Permutation.
From Verif Require Import Lib.PyBase Lib.RSum Lib.Fl Lib.Arr Model.Scf Model.StatsUtils Model.MakeCube Spec.Ppv
  Proofs.Scf_Proofs Proofs.StatsUtils2_Proofs Proofs.MakeCube_Proofs Proofs.MakeCube2_Proofs Proofs.MakeCube3_Proofs Proofs.MakeCube4_Proofs.
Import ListNotations.
Local Open Scope R_scope.

(** ** Negative axes, continued *)
Lemma all_ok_index {A B} (f : A -> result B) l : (forall a, In a l -> (exists b, f a = Ok b) \/ f a = Err IndexError) -> (exists a, In a l /\ f a = Err IndexError) -> all_ok (map f l) = Err IndexError.
Proof.
  induction l as [| a l IH]; intros H [x [X E]]; [destruct X |]. cbn [map all_ok]. destruct (H a (or_introl eq_refl)) as [[b Q] | Q]; rewrite Q; [| reflexivity]. cbn [bind].
  rewrite IH; [reflexivity | intros; apply H; now right |]. destruct X as [-> | X]; [congruence |]. now exists x.
Qed.
Theorem axis_minus1_fails U vel dens n0 n1 n2 vt pix vd idx cw v0 v1 mc hdu r : f_shape vel = (n0, n1, n2) -> f_shape dens = f_shape vel -> (1 <= n0)%nat -> (2 <= n2 < n1)%nat ->
  make_ppv U vel dens 2 vt pix vd idx cw v0 v1 mc None hdu = Ok r -> make_ppv U vel dens (-1) vt pix vd idx cw v0 v1 mc None hdu = Err IndexError.
Proof.
  intros SV SD N0 N12 H. destruct r as [cube axis].
  destruct (make_ppv_value U vel dens 2 vt pix vd idx cw v0 v1 mc hdu ltac:(lia) SD ltac:(rewrite SV; cbn; lia) cube axis H) as [P [edges [unit [E _]]]].
  unfold make_ppv. rewrite P. change (real_axis (-1)) with (Some 2%nat). cbv beta iota zeta. unfold chosen_edges in E. rewrite E. cbn [bind].
  rewrite all_ok_index; [reflexivity | |].
  - intros [y x] I. apply in_pixels in I. rewrite SV in I. cbn [image_dims fst snd] in I |- *. unfold los_slice. change (insert_pos (-1)) with 1%nat. cbv zeta. rewrite SD, SV. cbn [dim].
    destruct (Nat.ltb_spec y n0); [| lia]. destruct (Nat.ltb_spec x n2); cbn [andb bind]; [| now right]. left.
    destruct (spectrum_maker_tab U (map (fun e => e * unit) edges) (fun i => f_at vel y i x) (fun i => f_at dens y i x) n1 vt pix ltac:(lia)) as [s [Q _]]. rewrite Q. cbn [bind]. eexists. reflexivity.
  - exists (0, n2)%nat. split; [apply in_pixels; rewrite SV; cbn; lia |]. cbn [fst snd]. unfold los_slice. change (insert_pos (-1)) with 1%nat. cbv zeta. rewrite SV. cbn [dim].
    destruct (Nat.ltb_spec n2 n2); [lia |]. rewrite andb_false_r. reflexivity.
Qed.
(** a density that varies along the last axis only *)
Definition depth : field := mk_field (2, 2, 2)%nat (fun _ _ k => INR k).
Lemma depth_nonneg : nonneg_field depth.
Proof. intros i j k. apply pos_INR. Qed.
Lemma still_edges a : chosen_edges 1 (uniform (2, 2, 2)%nat 0) a 1 0 0 (Some (mk_vel 2 1)) (Some (mk_vel (-1) 1)) (Some (mk_vel 1 1)) 1000 = Ok (linspace (-1) 1 2, 1).
Proof.
  unfold chosen_edges. destruct (edges_given 1 (min_list (values (uniform (2, 2, 2)%nat 0))) (max_list (values (uniform (2, 2, 2)%nat 0))) (sqrt (0 ^ 2 + 1)) (sqrt (0 ^ 2 * Rpower (2 / INR (dim (f_shape (uniform (2, 2, 2)%nat 0)) a)) 0 + 2 * 1)) 1 (-1) 1 2 1000)
   as [n [edges [N [[B1 B2] [_ [E ->]]]]]]; try lra; [rewrite (ceil_unique _ 1) by lra; lia |]. rewrite E. assert (INR n < INR 2) by (cbn [INR]; lra). apply INR_lt in H. replace n with 1%nat by lia. reflexivity.
Qed.
Lemma still_voxel a : (a < 3)%nat -> exists cube axis, make_ppv 1 (uniform (2, 2, 2)%nat 0) depth (Z.of_nat a) 1 1 0 0 (Some (mk_vel 2 1)) (Some (mk_vel (-1) 1)) (Some (mk_vel 1 1)) 1000 None false = Ok (cube, axis) /\
  voxel cube 0 0 0 = (sight depth a 0 0 0 + sight depth a 0 0 1) * (line 1 1 0 0 0 / conv_to_K).
Proof.
  intro A. assert (D2 : forall b, dim (f_shape (uniform (2, 2, 2)%nat 0)) b = 2%nat) by (intro b; destruct b as [| [| b]]; reflexivity).
  destruct (make_ppv_total 1 (uniform (2, 2, 2)%nat 0) depth a 1 1 0 0 (Some (mk_vel 2 1)) (Some (mk_vel (-1) 1)) (Some (mk_vel 1 1)) 1000 false A eq_refl ltac:(rewrite D2; lia) _ 1 (nonneg_values depth depth_nonneg) (still_edges a)) as [cube H]; [discriminate |].
  exists cube, (mids (linspace (-1) 1 2)). split; [exact H |].
  rewrite (counted 1 (uniform (2, 2, 2)%nat 0) depth a 1 1 0 0 (Some (mk_vel 2 1)) (Some (mk_vel (-1) 1)) (Some (mk_vel 1 1)) 1000 false ltac:(lra) A eq_refl ltac:(rewrite D2; lia) (-1) 1 1 (fun _ => true) 0 0 0 cube _ ltac:(lra) ltac:(lia) (still_edges a) H).
  - rewrite D2. cbn [rsum]. rewrite !uniform_sight.
    assert (G : forall i, grad (sight (uniform (2, 2, 2)%nat 0) a 0 0) 2 i = 0).
    { intro i. unfold grad. rewrite !uniform_sight. destruct (Nat.eqb i 0); [lra |]. destruct (Nat.eqb i (2 - 1)); lra. }
    rewrite !G. cbn [INR]. replace ((-1 + (0 + 1 / 2) * ((1 - -1) / 1)) * 1) with 0 by lra. replace (0 / 1 * 1) with 0 by lra. replace (1 * 1 ^ 2) with 1 by ring. replace (0 * 1) with 0 by ring. unfold Rdiv. ring.
  - destruct a as [| [| [| a]]]; [split; cbn; lia | split; cbn; lia | split; cbn; lia | lia].
  - lia.
  - intro i. split; [intros _ | reflexivity]. exists 0%nat. split; [lia |]. rewrite uniform_sight. unfold edge. cbn [INR]. lra.
Qed.
Theorem axis_minus1_wrong : exists vel dens cube1 cube2 axis1 axis2, f_shape vel = (2, 2, 2)%nat /\ f_shape dens = (2, 2, 2)%nat /\
  make_ppv 1 vel dens 2 1 1 0 0 (Some (mk_vel 2 1)) (Some (mk_vel (-1) 1)) (Some (mk_vel 1 1)) 1000 None false = Ok (cube2, axis2) /\
  make_ppv 1 vel dens (-1) 1 1 0 0 (Some (mk_vel 2 1)) (Some (mk_vel (-1) 1)) (Some (mk_vel 1 1)) 1000 None false = Ok (cube1, axis1) /\
  voxel cube1 0 0 0 = 0 /\ 0 < voxel cube2 0 0 0.
Proof.
  destruct (still_voxel 1 ltac:(lia)) as [c1 [a1 [H1 V1]]]. destruct (still_voxel 2 ltac:(lia)) as [c2 [a2 [H2 V2]]].
  exists (uniform (2, 2, 2)%nat 0), depth, c1, c2, a1, a2. do 2 (split; [reflexivity |]). split; [exact H2 |]. split; [rewrite (axis_minus1 _ _ _ 2) by reflexivity; exact H1 |].
  rewrite V1, V2. cbn [sight depth f_at INR]. split; [ring |]. pose proof (line_pos 1 1 0 0 0 ltac:(lra) ltac:(lra)). apply Rmult_lt_0_compat; [lra |]. apply Rdiv_lt_0_compat; [assumption | unfold conv_to_K; lra].
Qed.

(** ** Headers *)
Theorem header_square nchan n : Rabs (fst (crpix_cube (nchan, n, n)) - centre n) <= 1 / 2 /\ Rabs (snd (crpix_cube (nchan, n, n)) - centre n) <= 1 / 2 /\
  Rabs (fst (crpix_image (n, n)) - centre n) <= 1 / 2 /\ Rabs (snd (crpix_image (n, n)) - centre n) <= 1 / 2.
Proof.
  unfold crpix_cube, crpix_image, centre. cbn [fst snd dim]. replace (INR n / 2 - (INR n + 1) / 2) with (- (1 / 2)) by lra. rewrite Rabs_Ropp, Rabs_pos_eq by lra. lra.
Qed.
Theorem header_off_image nchan ny nx : (2 * nx + 2 <= ny)%nat -> INR nx + 1 / 2 < fst (crpix_cube (nchan, ny, nx)) /\ INR nx + 1 / 2 < fst (crpix_image (ny, nx)).
Proof.
  intro H. apply le_INR in H. rewrite plus_INR, mult_INR in H. cbn [INR] in H. unfold crpix_cube, crpix_image. cbn [fst snd dim]. lra.
Qed.
Lemma chosen_linspace U vel a vt vd idx cw v0 v1 mc edges unit : chosen_edges U vel a vt vd idx cw v0 v1 mc = Ok (edges, unit) -> exists lo hi m, edges = linspace lo hi m.
Proof.
  unfold chosen_edges, vel_edges. destruct (limits _ _ _ _ _ _) as [lo hi]. destruct (Rltb _ _); [discriminate |]. cbv zeta. destruct (mc <? _)%Z; [discriminate |]. destruct (_ <? 0)%Z; [discriminate |].
  intro E. apply ok_pair in E. destruct E as [<- _]. eexists _, _, _. reflexivity.
Qed.
Theorem header_axis U vel dens a vt pix vd idx cw v0 v1 mc cube axis : (a < 3)%nat -> f_shape dens = f_shape vel -> (2 <= dim (f_shape vel) a)%nat ->
  make_ppv U vel dens (Z.of_nat a) vt pix vd idx cw v0 v1 mc None true = Ok (cube, axis) ->
  forall i, (i < length axis)%nat -> header_spectral (nth 0 axis 0) (nth 1 axis 0 - nth 0 axis 0) i = nth i axis 0.
Proof.
  intros A S N H i I. destruct (make_ppv_value U vel dens a vt pix vd idx cw v0 v1 mc true A S N cube axis H) as [_ [edges [unit [E [X [B _]]]]]]. specialize (B eq_refl).
  destruct (chosen_linspace _ _ _ _ _ _ _ _ _ _ _ _ E) as [lo [hi [m ->]]]. subst axis. rewrite mids_length, linspace_length in I, B. unfold header_spectral.
  destruct m as [| m]; [lia |]. cbn [Nat.sub] in I, B. rewrite Nat.sub_0_r in I, B. rewrite !axis_nth by lia. cbn [INR]. lra.
Qed.

(** ** Lines of sight *)
Theorem own_sight U vel dens vel' dens' a vt pix vd idx w lo hi mc hdu cube axis cube' axis' y x : (a < 3)%nat -> f_shape dens = f_shape vel -> f_shape vel' = f_shape vel -> f_shape dens' = f_shape vel ->
  (2 <= dim (f_shape vel) a)%nat -> on_image vel a y x ->
  (forall i, (i < dim (f_shape vel) a)%nat -> sight vel' a y x i = sight vel a y x i /\ sight dens' a y x i = sight dens a y x i) ->
  make_ppv U vel dens (Z.of_nat a) vt pix vd idx (Some w) (Some lo) (Some hi) mc None hdu = Ok (cube, axis) ->
  make_ppv U vel' dens' (Z.of_nat a) vt pix vd idx (Some w) (Some lo) (Some hi) mc None hdu = Ok (cube', axis') -> axis' = axis /\ cube' y x = cube y x.
Proof.
  intros A SD SV' SD' N O EQ H H'.
  destruct (make_ppv_value U vel dens a vt pix vd idx _ _ _ mc hdu A SD N cube axis H) as [_ [edges [unit [E [X [_ [_ [V _]]]]]]]].
  destruct (make_ppv_value U vel' dens' a vt pix vd idx _ _ _ mc hdu A ltac:(congruence) ltac:(rewrite SV'; exact N) cube' axis' H') as [_ [edges' [unit' [E' [X' [_ [_ [V' _]]]]]]]].
  assert (EE : Ok (edges, unit) = Ok (edges', unit')) by (rewrite <- E, <- E'; unfold chosen_edges; rewrite SV'; reflexivity). apply ok_pair in EE. destruct EE as [<- <-]. split; [congruence |].
  destruct (V y x O) as [s [C [_ M]]]. destruct (V' y x) as [s' [C' [_ M']]]; [unfold on_image; rewrite SV'; exact O |]. rewrite C, C'. rewrite SV' in M'.
  rewrite (map_ext_in (sight vel' a y x) (sight vel a y x)) in M' by (intros i I; apply in_seq in I; apply EQ; lia).
  rewrite (map_ext_in (sight dens' a y x) (sight dens a y x)) in M' by (intros i I; apply in_seq in I; apply EQ; lia). rewrite M in M'. f_equal. inversion M'. reflexivity.
Qed.
Theorem counted_given U vel dens a vt pix vd idx lo hi w mc hdu keep y x j cube axis : 0 < U -> (a < 3)%nat -> f_shape dens = f_shape vel -> (2 <= dim (f_shape vel) a)%nat -> lo < hi -> 0 < w ->
  make_ppv U vel dens (Z.of_nat a) vt pix vd idx (Some (mk_vel w U)) (Some (mk_vel lo U)) (Some (mk_vel hi U)) mc None hdu = Ok (cube, axis) ->
  on_image vel a y x -> (j < length axis)%nat ->
  (forall i, keep i = true <-> exists k, (k < length axis)%nat /\ edge lo hi (length axis) k < sight vel a y x i < edge lo hi (length axis) (S k)) ->
  voxel cube j y x = rsum (dim (f_shape vel) a) (fun i => if keep i : bool then
     sight dens a y x i * line (vt * U ^ 2) pix (sight vel a y x i * U) (grad (sight vel a y x) (dim (f_shape vel) a) i / pix * U) (nth j axis 0 * U) / conv_to_K else 0).
Proof.
  intros PU A S N L W H O J K. destruct (make_ppv_value U vel dens a vt pix vd idx _ _ _ mc hdu A S N cube axis H) as [_ [edges [unit [E [X _]]]]].
  assert (CM : (np_ceil ((hi - lo) / w) <= mc)%Z).
  { unfold chosen_edges, vel_edges, limits in E. rewrite n_channels_same in E by lra. destruct (Rltb _ _); [discriminate |]. destruct (Z.ltb_spec mc (np_ceil ((hi - lo) / w))); [discriminate | assumption]. }
  destruct (edges_given U (min_list (values vel)) (max_list (values vel)) (sqrt (vd ^ 2 + vt)) (sqrt (vd ^ 2 * Rpower (2 / INR (dim (f_shape vel) a)) idx + 2 * vt)) U lo hi w mc PU L W CM) as [n [es [N1 [_ [_ [E2 ->]]]]]].
  unfold chosen_edges in E. rewrite E2 in E. apply ok_pair in E. destruct E as [<- <-].
  assert (LX : length axis = n) by (subst axis; rewrite mids_length, linspace_length; lia). rewrite LX in *.
  rewrite (counted U vel dens a vt pix vd idx _ _ _ mc hdu PU A S N lo hi n keep y x j cube axis L N1 E2 H O J K). apply rsum_ext. intros i _. destruct (keep i); [| reflexivity]. subst axis. now rewrite axis_nth.
Qed.
