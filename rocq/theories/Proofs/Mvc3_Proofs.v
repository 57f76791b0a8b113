From Coq Require Import Reals List ZArith Arith Bool Lia Lra.
From Coquelicot Require Import Complex.
From Verif Require Import Lib.PyBase Lib.PySlice Lib.Arr Lib.RSum Lib.Fl Lib.DFT Spec.Blank Spec.Freq Spec.Velocity Model.RfftToFft Model.Psds
  Model.Beam Model.Mvc Proofs.RfftToFft_Proofs Proofs.Psds_Proofs Proofs.Psds2_Proofs Proofs.ThreeD_Proofs Proofs.Beam_Proofs Proofs.Fl_Proofs Proofs.Bispec3_Proofs
  Proofs.Mvc_Proofs Proofs.Mvc2_Proofs.
Import ListNotations.
Local Open Scope R_scope.

(** only the pixels of the maps matter *)
Lemma ps2D_ext ny nx c m l c' m' l' k bc beam :
  (forall y x, (y < ny)%nat -> (x < nx)%nat -> c y x = c' y x /\ m y x = m' y x /\ l y x = l' y x) ->
  mvc_ps2D (map_of ny nx c) (map_of ny nx m) (map_of ny nx l) k bc beam =
  mvc_ps2D (map_of ny nx c') (map_of ny nx m') (map_of ny nx l') k bc beam.
Proof.
  intros H. unfold mvc_ps2D. rewrite !init_ok. cbn [bind].
  match goal with |- bind (mvc_compute ?d _ _ _) _ = bind (mvc_compute ?d' _ _ _) _ => rewrite (compute_ext d d' k bc beam) end; [reflexivity| | |]; try reflexivity.
  cbn. intros y x Y X. destruct (H y x Y X) as (-> & -> & ->). auto.
Qed.

Lemma weighted_full ny nx a e : e <> 0 ->
  forall y x, pixel (weighted (full ny nx a) (full ny nx (fun _ _ => e))) y x = Fin (/ e ^ 2 * a y x).
Proof.
  intros E y x. cbn. destruct (Reqb_spec (e * e) 0) as [Q|Q].
  - apply Rmult_integral in Q. tauto.
  - cbn. f_equal. field. assumption.
Qed.

Lemma distance_constant ny nx c m l ec em el : ec <> 0 -> em <> 0 -> el <> 0 ->
  distance_ps2D true (full ny nx c) (full ny nx m) (full ny nx l)
    (full ny nx (fun _ _ => ec)) (full ny nx (fun _ _ => em)) (full ny nx (fun _ _ => el)) =
  mvc_ps2D (full ny nx (fun y x => / ec ^ 2 * c y x)) (full ny nx (fun y x => / em ^ 2 * m y x)) (full ny nx (fun y x => / el ^ 2 * l y x)) None false None.
Proof.
  intros C M L. unfold distance_ps2D.
  change (mvc_ps2D (map_of ny nx (pixel (weighted (full ny nx c) (full ny nx (fun _ _ => ec)))))
                   (map_of ny nx (pixel (weighted (full ny nx m) (full ny nx (fun _ _ => em)))))
                   (map_of ny nx (pixel (weighted (full ny nx l) (full ny nx (fun _ _ => el))))) None false None =
          mvc_ps2D (map_of ny nx (fun y x => Fin (/ ec ^ 2 * c y x))) (map_of ny nx (fun y x => Fin (/ em ^ 2 * m y x)))
                   (map_of ny nx (fun y x => Fin (/ el ^ 2 * l y x))) None false None).
  apply ps2D_ext. intros y x _ _. rewrite !weighted_full by assumption. auto.
Qed.

Theorem moment0_error ny nx c m l e : (1 <= ny)%nat -> (1 <= nx)%nat -> e <> 0 ->
  exists ps ps', distance_ps2D false (full ny nx c) (full ny nx m) (full ny nx l) (full ny nx (fun _ _ => 1)) (full ny nx (fun _ _ => e)) (full ny nx (fun _ _ => 1)) = Ok ps /\
  distance_ps2D true (full ny nx c) (full ny nx m) (full ny nx l) (full ny nx (fun _ _ => 1)) (full ny nx (fun _ _ => e)) (full ny nx (fun _ _ => 1)) = Ok ps' /\
  forall i j, (i < ny)%nat -> (j < nx)%nat -> exists p, at2 NaN ps i j = Fin p /\ at2 NaN ps' i j = Fin ((/ e ^ 2) ^ 2 * p).
Proof.
  intros Y X E. destruct (intensity_unit ny nx c m l None (/ e ^ 2) Y X) as (ps & ps' & A & B & H).
  exists ps, ps'. split; [exact A|]. split; [|exact H]. rewrite distance_constant by (assumption || lra).
  rewrite <- B.
  change (mvc_ps2D (map_of ny nx (fun y x => Fin (/ 1 ^ 2 * c y x))) (map_of ny nx (fun y x => Fin (/ e ^ 2 * m y x))) (map_of ny nx (fun y x => Fin (/ 1 ^ 2 * l y x))) None false None =
          mvc_ps2D (map_of ny nx (fun y x => Fin (c y x))) (map_of ny nx (fun y x => Fin (/ e ^ 2 * m y x))) (map_of ny nx (fun y x => Fin (l y x))) None false None).
  apply ps2D_ext. intros y x _ _. split; [f_equal; field|]. split; [reflexivity|f_equal; field].
Qed.

Theorem error_refuted : exists c m l ps ps',
  let one := full 1 2 (fun _ _ => 1) in let half := full 1 2 (fun _ _ => 1 / 2) in
  distance_ps2D false (full 1 2 c) (full 1 2 m) (full 1 2 l) half one half = Ok ps /\
  distance_ps2D true (full 1 2 c) (full 1 2 m) (full 1 2 l) half one half = Ok ps' /\
  at2 NaN ps 0 0 = Fin 1 /\ at2 NaN ps 0 1 = Fin 0 /\ at2 NaN ps' 0 0 = Fin 16 /\ at2 NaN ps' 0 1 = Fin 144.
Proof.
  destruct (velocity_unit 1 2 cc one2 zero2 4 ltac:(lia) ltac:(lia) ltac:(lra)) as (ps & ps' & E & E' & V).
  exists cc, one2, zero2, ps, ps'. cbv zeta. split; [exact E|]. split.
  { rewrite distance_constant by lra. rewrite <- E'.
    change (mvc_ps2D (map_of 1 2 (fun y x => Fin (/ (1 / 2) ^ 2 * cc y x))) (map_of 1 2 (fun y x => Fin (/ 1 ^ 2 * one2 y x))) (map_of 1 2 (fun y x => Fin (/ (1 / 2) ^ 2 * zero2 y x))) None false None =
            mvc_ps2D (map_of 1 2 (fun y x => Fin (4 * cc y x))) (map_of 1 2 (fun y x => Fin (one2 y x))) (map_of 1 2 (fun y x => Fin (4 * zero2 y x))) None false None).
    apply ps2D_ext. intros y x _ _. split; [f_equal; field|]. split; [f_equal; field|f_equal; field]. }
  destruct holds_12 as [H0 H1]. destruct terms_12 as (A0 & A1 & B0 & B1 & D).
  destruct (V 0%nat 1%nat 0%nat 0%nat ltac:(lia) ltac:(lia) H0) as [P0 Q0].
  destruct (V 0%nat 0%nat 0%nat 1%nat ltac:(lia) ltac:(lia) H1) as [P1 Q1].
  rewrite P0, Q0, P1, Q1, A0, A1, B0, B1, D. repeat split; f_equal; lra.
Qed.

(** a zero error *)
Theorem zero_error ny nx c m l (ec em el : nat -> nat -> fl) y0 x0 : (y0 < ny)%nat -> (x0 < nx)%nat ->
  c y0 x0 <> 0 -> ec y0 x0 = Fin 0 ->
  exists ps, distance_ps2D true (full ny nx c) (full ny nx m) (full ny nx l) (map_of ny nx ec) (map_of ny nx em) (map_of ny nx el) = Ok ps /\
  forall i j, (i < ny)%nat -> (j < nx)%nat -> at2 NaN ps i j = NaN.
Proof.
  intros Y X C E. unfold distance_ps2D, mvc_ps2D, mvc_init. cbn [rows cols pixel full map_of weighted]. rewrite !Nat.eqb_refl. cbn [negb orb andb bind].
  set (d := {| centroid := _ |}).
  assert (I : is_fin (centroid d y0 x0) = false /\ is_nan (centroid d y0 x0) = false).
  { cbn [centroid d]. rewrite E. cbn [fsqr fmul fdiv]. destruct (Reqb_spec (0 * 0) 0) as [_|Q]; [|exfalso; apply Q; ring].
    unfold sinf. destruct (Rltb_spec 0 1); [|lra]. cbn [fmul]. unfold sinf.
    destruct (Rltb_spec 0 (c y0 x0)); [cbn; auto|]. destruct (Rltb_spec (c y0 x0) 0); [cbn; auto|lra]. }
  destruct I as [I1 I2].
  assert (P : is_fin (fmul (centroid d y0 x0) (moment0 d y0 x0)) = false).
  { destruct (centroid d y0 x0), (moment0 d y0 x0); cbn in *; try discriminate; try reflexivity;
    unfold sinf; destruct (Rltb _ _); try reflexivity; destruct (Rltb _ _); reflexivity. }
  unfold mvc_compute. cbv zeta. cbn [mvc_rows mvc_cols d].
  match goal with |- context [map2 _ (abs_fft ny nx ?g) (abs_fft _ _ ?h)] =>
    rewrite (abs_fft_nan ny nx g y0 x0 Y X P); assert (T : exists h', abs_fft ny nx h = tab2 ny nx h') end.
  { unfold abs_fft. destruct (forallb _ _); [|eauto]. rewrite rfft_2d by lia. rewrite map_tab2. eauto. }
  destruct T as [h' T]. cbn [beam_divide]. rewrite T. rewrite map2_tab2, fftshift2_tab, map_tab2. cbn [bind]. rewrite flip2_tab.
  eexists. split; [reflexivity|]. intros i j Hi Hj. rewrite at2_tab by assumption. reflexivity.
Qed.

(** beam correction of MVC and VCA *)
Theorem mvc_beam ny nx c m l k kern : (1 <= ny)%nat -> (1 <= nx)%nat ->
  exists ps ps', mvc_ps2D (full ny nx c) (full ny nx m) (full ny nx l) k false None = Ok ps /\
  mvc_ps2D (full ny nx c) (full ny nx m) (full ny nx l) k true (Some kern) = Ok ps' /\
  forall i j ky kx, (i < ny)%nat -> (j < nx)%nat -> holds ny nx i j ky kx ->
    exists p, at2 NaN ps i j = Fin p /\
    (ft_abs ny nx kern ky kx <> 0 -> at2 NaN ps' i j = Fin (p / ft_abs ny nx kern ky kx ^ 2)) /\
    (ft_abs ny nx kern ky kx = 0 -> at2 NaN ps' i j = NaN).
Proof.
  intros Y X. destruct (mvc_value ny nx c m l k Y X) as (ps & E & V). exists ps.
  unfold mvc_ps2D in *. destruct (mvc_init (full ny nx c) (full ny nx m) (full ny nx l)) as [d|] eqn:Ed; [|discriminate].
  cbn [bind] in E |- *.
  assert (D : mvc_rows d = ny /\ mvc_cols d = nx).
  { unfold mvc_init in Ed. cbn in Ed. rewrite !Nat.eqb_refl in Ed. cbn in Ed. injection Ed as <-. auto. }
  destruct D as [Dy Dx].
  assert (T : exists f, mvc_compute d k false None = Ok (tab2 ny nx f) /\
      mvc_compute d k true (Some kern) = beam_divide ny nx (tab2 ny nx f) true (Some kern)).
  { unfold mvc_init in Ed. cbn in Ed. rewrite !Nat.eqb_refl in Ed. cbn in Ed. injection Ed as <-.
    eexists. split; [apply (compute_fin ny nx _ k c m); auto|].
    unfold mvc_compute. cbn [mvc_rows mvc_cols]. cbv zeta. f_equal.
    match goal with |- ?L = _ => assert (Q : Ok L = mvc_compute {| centroid := fun y x => Fin (c y x); moment0 := fun y x => Fin (m y x);
       linewidth := fun y x => Fin (l y x); mvc_rows := ny; mvc_cols := nx |} k false None) by reflexivity end.
    rewrite (compute_fin ny nx _ k c m) in Q by auto. injection Q as Q. exact Q. }
  destruct T as (f & T1 & T2). rewrite T1 in E. rewrite T2. cbn [bind] in E. rewrite flip2_tab in E. injection E as E.
  unfold beam_divide. rewrite beam_pow_tab by assumption. cbn [bind]. rewrite map2_tab2, flip2_tab.
  eexists. split; [now rewrite T1; cbn [bind]; rewrite flip2_tab, E|]. split; [reflexivity|].
  intros i j ky kx I J H. eexists. split; [apply (V i j ky kx I J H)|].
  pose proof (V i j ky kx I J H) as W. rewrite <- E, at2_tab in W by assumption. rewrite at2_tab by assumption. rewrite W.
  destruct (holds_unique ny nx i j ky kx I J H) as [<- <-]. cbv zeta.
  set (w := ft_abs ny nx kern ky kx). split; intros N.
  - destruct (Reqb_spec (w * w) 0) as [Q|Q]; [apply Rmult_integral in Q; tauto|]. cbn [fdiv].
    destruct (Reqb_spec (w * w) 0) as [Q'|_]; [contradiction|]. f_equal. f_equal. ring.
  - rewrite N. destruct (Reqb_spec (0 * 0) 0) as [_|Q]; [reflexivity|exfalso; apply Q; ring].
Qed.

Lemma vca_beam_at nz ny nx a kern i j : (1 <= nz)%nat -> (i < ny)%nat -> (j < nx)%nat ->
  exists ps, vca_ps2D_beam nz ny nx a true (Some kern) = Ok ps /\
  at2 NaN ps i j =
    let ky := unshift ny (ny - 1 - i) in let kx := unshift nx j in
    if Reqb (ft_abs ny nx kern ky kx) 0 then NaN
    else Fin (INR nz * rsum nz (fun z => ft_abs ny nx (a z) ky kx ^ 2) / ft_abs ny nx kern ky kx ^ 2).
Proof.
  intros Z I J. pose proof (vca_ps2D_at nz ny nx a i j Z I J) as A. unfold vca_ps2D in A. unfold vca_ps2D_beam.
  rewrite rfft_3d in A |- * by lia. rewrite fftshift3_tab in A |- *.
  unfold sum_axis0 in A |- *. rewrite flip2_tab, at2_tab in A by assumption.
  rewrite map_tab2. unfold beam_divide. rewrite beam_pow_tab by lia. cbn [bind]. rewrite map2_tab2, flip2_tab.
  eexists. split; [reflexivity|]. rewrite at2_tab by assumption. rewrite A. cbv zeta.
  set (w := ft_abs ny nx kern _ _). destruct (Reqb_spec w 0) as [E|E].
  - rewrite E. destruct (Reqb_spec (0 * 0) 0) as [_|Q]; [reflexivity|]. exfalso. apply Q. ring.
  - destruct (Reqb_spec (w * w) 0) as [Q|Q]; [apply Rmult_integral in Q; tauto|]. cbn [fdiv].
    destruct (Reqb_spec (w * w) 0) as [Q'|_]; [contradiction|]. f_equal. f_equal; [|ring]. f_equal.
    apply rsum_ext. intros z _. unfold ft_abs. rewrite <- Rsqr_pow2. symmetry. apply Cmod_sqr.
Qed.

Theorem vca_beam_recovers nz ny nx a kern i j : (1 <= nz)%nat -> (i < ny)%nat -> (j < nx)%nat ->
  exists ps, vca_ps2D_beam nz ny nx (fun z => convolved ny nx (a z) kern) true (Some kern) = Ok ps /\
  forall ky kx, holds ny nx i j ky kx -> ft_abs ny nx kern ky kx <> 0 -> at2 NaN ps i j = Fin (at2 0 (vca_ps2D nz ny nx a) i j).
Proof.
  intros Z I J. destruct (vca_beam_at nz ny nx (fun z => convolved ny nx (a z) kern) kern i j Z I J) as (ps & E & V).
  exists ps. split; [exact E|]. intros ky kx H N. destruct (holds_unique ny nx i j ky kx I J H) as [-> ->]. rewrite V. cbv zeta.
  set (w := ft_abs ny nx kern _ _) in *. destruct (Reqb_spec w 0); [contradiction|]. f_equal.
  rewrite vca_ps2D_at by assumption.
  rewrite (rsum_ext nz _ (fun z => w ^ 2 * ft_abs ny nx (a z) (unshift ny (ny - 1 - i)) (unshift nx j) ^ 2)).
  - rewrite rsum_scal. rewrite (rsum_ext nz (fun z => Cnorm2 _) (fun z => ft_abs ny nx (a z) (unshift ny (ny - 1 - i)) (unshift nx j) ^ 2)).
    + field. assumption.
    + intros z _. unfold ft_abs. rewrite <- Rsqr_pow2. symmetry. apply Cmod_sqr.
  - intros z _. rewrite ft_abs_conv by lia. fold w. ring.
Qed.

Theorem no_beam ny nx data k c m l nz cube :
  pspec_ps2D ny nx data k true None = Err AttributeError /\
  ((1 <= nz)%nat -> vca_ps2D_beam nz ny nx cube true None = Err AttributeError) /\
  mvc_ps2D (map_of ny nx c) (map_of ny nx m) (map_of ny nx l) k true None = Err AttributeError.
Proof.
  split; [reflexivity|]. split; [reflexivity|]. unfold mvc_ps2D. rewrite init_ok. reflexivity.
Qed.
