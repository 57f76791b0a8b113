From Coq Require Import Reals List ZArith Arith Bool Lia Lra.
From Coquelicot Require Import Complex.
From Verif Require Import Lib.PyBase Lib.PySlice Lib.Arr Lib.RSum Lib.Fl Lib.DFT Spec.Blank Spec.Freq Spec.Velocity Model.RfftToFft Model.Psds
  Model.Beam Model.Mvc Proofs.RfftToFft_Proofs Proofs.Psds_Proofs Proofs.ThreeD_Proofs Proofs.Beam_Proofs Proofs.Fl_Proofs Proofs.Bispec3_Proofs Proofs.Mvc_Proofs.
Import ListNotations.
Local Open Scope R_scope.

Definition disp (ny nx : nat) (k : option (nat -> nat -> R)) (c l : nat -> nat -> R) : R :=
  mean2 ny nx (fun y x => l y x ^ 2 + tapered k (fun y x => c y x ^ 2) y x).

Lemma pixels_length ny nx : length (pixels ny nx) = (ny * nx)%nat.
Proof. unfold pixels. now rewrite prod_length, !seq_length. Qed.

Lemma q_full ny nx k c l : (1 <= ny)%nat -> (1 <= nx)%nat ->
  q_of ny nx k (fun y x => Fin (c y x)) (fun y x => Fin (l y x)) = Fin (disp ny nx k c l).
Proof.
  intros Y X. unfold q_of.
  set (g := fun p : nat * nat => l (fst p) (snd p) ^ 2 + tapered k (fun y x => c y x ^ 2) (fst p) (snd p)).
  replace (map _ (pixels ny nx)) with (map Fin (map g (pixels ny nx))).
  2:{ rewrite map_map. apply map_ext. intros [y x]. unfold t2, g, tapered. cbn [fst snd].
      destruct k; cbn [fsqr fmul fadd]; f_equal; ring. }
  rewrite nanmean_rmean.
  - f_equal. rewrite fins_map_Fin. unfold rmean, disp, mean2. rewrite sum_grid, map_length, pixels_length, mult_INR. reflexivity.
  - apply Forall_forall. intros v V. apply in_map_iff in V. destruct V as (r & <- & _). exact I.
  - rewrite fins_map_Fin. intros E. apply (f_equal (@length R)) in E. rewrite map_length, pixels_length in E. cbn in E. nia.
Qed.

(** the spectrum of maps without blanks *)
Theorem mvc_value ny nx c m l k : (1 <= ny)%nat -> (1 <= nx)%nat ->
  exists ps, mvc_ps2D (full ny nx c) (full ny nx m) (full ny nx l) k false None = Ok ps /\
  forall i j ky kx, (i < ny)%nat -> (j < nx)%nat -> holds ny nx i j ky kx ->
    at2 NaN ps i j = Fin ((ft_abs ny nx (tapered k (fun y x => c y x * m y x)) ky kx
                           - disp ny nx k c l * ft_abs ny nx (tapered k m) ky kx) ^ 2).
Proof.
  intros Y X. unfold mvc_ps2D. change (full ny nx c) with (map_of ny nx (fun y x => Fin (c y x))).
  change (full ny nx m) with (map_of ny nx (fun y x => Fin (m y x))).
  change (full ny nx l) with (map_of ny nx (fun y x => Fin (l y x))).
  rewrite init_ok. cbn [bind is_nan andb].
  rewrite (compute_fin ny nx _ k c m) by auto. cbn [bind centroid linewidth]. rewrite q_full by assumption.
  rewrite flip2_tab. eexists. split; [reflexivity|]. intros i j ky kx I J H.
  destruct (holds_unique ny nx i j ky kx I J H) as [-> ->]. rewrite at2_tab by assumption.
  cbn [fmul fsub fneg fadd fabs fsqr]. f_equal. unfold fsqr, fmul. rewrite <- pow2_abs. unfold Rminus. ring.
Qed.

Lemma ft_abs_0 ny nx a : ft_abs ny nx a 0 0 = Rabs (rsum ny (fun y => rsum nx (fun x => a y x))).
Proof.
  unfold ft_abs. rewrite <- Cmod_real. f_equal. unfold dft2. rewrite <- csum_RtoC. apply csum_ext. intros y _.
  rewrite <- csum_RtoC. apply csum_ext. intros x _. rewrite !tw_0_r. ring.
Qed.

Lemma mean2_const ny nx v : (1 <= ny)%nat -> (1 <= nx)%nat -> mean2 ny nx (fun _ _ => v) = v.
Proof.
  intros Y X. unfold mean2. rewrite (rsum_ext ny _ (fun _ => INR nx * v)) by (intros; rewrite rsum_const; ring).
  rewrite rsum_const. field. split; apply not_0_INR; lia.
Qed.

Lemma mean2_ext ny nx a b : (forall y x, (y < ny)%nat -> (x < nx)%nat -> a y x = b y x) -> mean2 ny nx a = mean2 ny nx b.
Proof. intros H. unfold mean2. f_equal. apply rsum_ext. intros y Y. apply rsum_ext. intros x X. auto. Qed.

Theorem documented_refuted ny nx mu lambda : (1 <= ny)%nat -> (1 <= nx)%nat -> mu <> 0 -> lambda <> 0 ->
  exists ps i j, (i < ny)%nat /\ (j < nx)%nat /\ holds ny nx i j 0 0 /\
  mvc_ps2D (full ny nx (fun _ _ => 0)) (full ny nx (fun _ _ => mu)) (full ny nx (fun _ _ => lambda)) None false None = Ok ps /\
  documented_mvc ny nx (fun _ _ => 0) (fun _ _ => mu) (fun _ _ => lambda) 0 0 < 0 /\
  exists v, at2 NaN ps i j = Fin v /\ 0 < v.
Proof.
  intros Y X M L. destruct (mvc_value ny nx (fun _ _ => 0) (fun _ _ => mu) (fun _ _ => lambda) None Y X) as (ps & E & V).
  destruct (unshift_surj ny 0 ltac:(lia)) as (i0 & I0 & U0). destruct (unshift_surj nx 0 ltac:(lia)) as (j & J & W0).
  assert (I : (ny - 1 - i0 < ny)%nat) by lia.
  assert (H : holds ny nx (ny - 1 - i0) j 0 0).
  { pose proof (holds_at ny nx (ny - 1 - i0) j I J) as H. replace (ny - 1 - (ny - 1 - i0))%nat with i0 in H by lia. rewrite U0, W0 in H. exact H. }
  exists ps, (ny - 1 - i0)%nat, j. split; [exact I|]. split; [exact J|]. split; [exact H|]. split; [exact E|].
  assert (S : forall v, rsum ny (fun _ => rsum nx (fun _ => v)) = INR ny * INR nx * v).
  { intros v. rewrite (rsum_ext ny _ (fun _ => INR nx * v)) by (intros; rewrite rsum_const; ring). rewrite rsum_const. ring. }
  assert (PY : 0 < INR ny) by (apply lt_0_INR; lia). assert (PX : 0 < INR nx) by (apply lt_0_INR; lia).
  assert (P : 0 < Rabs (INR ny * INR nx * mu)).
  { apply Rabs_pos_lt. apply Rmult_integral_contrapositive_currified; [|assumption]. apply Rmult_integral_contrapositive_currified; lra. }
  assert (L2 : 0 < lambda ^ 2) by (rewrite <- Rsqr_pow2; now apply Rsqr_pos_lt).
  split.
  - unfold documented_mvc. rewrite !ft_abs_0. rewrite mean2_const by assumption.
    rewrite (S mu). rewrite (S (mu * 0)). replace (INR ny * INR nx * (mu * 0)) with 0 by ring. rewrite Rabs_R0.
    assert (0 < Rabs (INR ny * INR nx * mu) ^ 2) by now apply pow_lt.
    assert (0 < lambda ^ 2 * Rabs (INR ny * INR nx * mu) ^ 2) by now apply Rmult_lt_0_compat. replace (0 ^ 2) with 0 by ring. lra.
  - eexists. split; [apply (V _ _ 0%nat 0%nat I J H)|]. cbv beta iota delta [tapered]. unfold disp. cbv beta iota delta [tapered].
    rewrite mean2_const by assumption. rewrite !ft_abs_0. cbv beta. rewrite (S (0 * mu)), (S mu).
    replace (INR ny * INR nx * (0 * mu)) with 0 by ring. rewrite Rabs_R0.
    assert (0 < (lambda ^ 2 + 0 ^ 2) * Rabs (INR ny * INR nx * mu)) by (apply Rmult_lt_0_compat; lra).
    rewrite <- Rsqr_pow2. apply Rsqr_pos_lt. lra.
Qed.

(** units *)
Lemma tapered_ext k a b y x : a y x = b y x -> tapered k a y x = tapered k b y x.
Proof. destruct k; cbn; intros ->; reflexivity. Qed.


Theorem intensity_unit ny nx c m l k (s : R) : (1 <= ny)%nat -> (1 <= nx)%nat ->
  exists ps ps', mvc_ps2D (full ny nx c) (full ny nx m) (full ny nx l) k false None = Ok ps /\
  mvc_ps2D (full ny nx c) (full ny nx (fun y x => s * m y x)) (full ny nx l) k false None = Ok ps' /\
  forall i j, (i < ny)%nat -> (j < nx)%nat -> exists p, at2 NaN ps i j = Fin p /\ at2 NaN ps' i j = Fin (s ^ 2 * p).
Proof.
  intros Y X.
  destruct (mvc_value ny nx c m l k Y X) as (ps & E & V).
  destruct (mvc_value ny nx c (fun y x => s * m y x) l k Y X) as (ps' & E' & V').
  exists ps, ps'. split; [exact E|]. split; [exact E'|]. intros i j I J.
  pose proof (holds_at ny nx i j I J) as H. eexists. split; [apply (V i j _ _ I J H)|].
  rewrite (V' i j _ _ I J H). f_equal.
  set (ky := unshift ny _). set (kx := unshift nx _).
  rewrite (ft_abs_ext ny nx (tapered k (fun y x => c y x * (s * m y x))) (fun y x => s * tapered k (fun y x => c y x * m y x) y x)).
  2:{ intros y x _ _. destruct k; cbn; ring. }
  rewrite (ft_abs_ext ny nx (tapered k (fun y x => s * m y x)) (fun y x => s * tapered k m y x)).
  2:{ intros y x _ _. destruct k; cbn; ring. }
  rewrite !ft_abs_scal. rewrite <- (pow2_abs s). ring.
Qed.

(** velocities multiplied by v > 0 (another unit): the first term scales with v, the second with v^2 *)
Theorem velocity_unit ny nx c m l (v : R) : (1 <= ny)%nat -> (1 <= nx)%nat -> 0 < v ->
  exists ps ps', mvc_ps2D (full ny nx c) (full ny nx m) (full ny nx l) None false None = Ok ps /\
  mvc_ps2D (full ny nx (fun y x => v * c y x)) (full ny nx m) (full ny nx (fun y x => v * l y x)) None false None = Ok ps' /\
  forall i j ky kx, (i < ny)%nat -> (j < nx)%nat -> holds ny nx i j ky kx ->
    let T := ft_abs ny nx (fun y x => c y x * m y x) ky kx in
    let M := mean2 ny nx (fun y x => l y x ^ 2 + c y x ^ 2) * ft_abs ny nx m ky kx in
    at2 NaN ps i j = Fin ((T - M) ^ 2) /\ at2 NaN ps' i j = Fin (v ^ 2 * (T - v * M) ^ 2).
Proof.
  intros Y X P.
  destruct (mvc_value ny nx c m l None Y X) as (ps & E & V).
  destruct (mvc_value ny nx (fun y x => v * c y x) m (fun y x => v * l y x) None Y X) as (ps' & E' & V').
  exists ps, ps'. split; [exact E|]. split; [exact E'|]. intros i j ky kx I J H T M.
  rewrite (V i j ky kx I J H), (V' i j ky kx I J H). split; [reflexivity|]. f_equal. cbv beta iota delta [tapered].
  rewrite (ft_abs_ext ny nx (fun y x => v * c y x * m y x) (fun y x => v * (c y x * m y x))) by (intros; ring).
  rewrite ft_abs_scal, (Rabs_pos_eq v) by lra. fold T.
  assert (D : disp ny nx None (fun y x => v * c y x) (fun y x => v * l y x) = v ^ 2 * mean2 ny nx (fun y x => l y x ^ 2 + c y x ^ 2)).
  { unfold disp, mean2. cbv beta iota delta [tapered].
    rewrite (rsum_ext ny _ (fun y => v ^ 2 * rsum nx (fun x => l y x ^ 2 + c y x ^ 2))).
    - rewrite rsum_scal. field. split; apply not_0_INR; lia.
    - intros y _. rewrite <- rsum_scal. apply rsum_ext. intros x _. ring. }
  rewrite D. unfold M. change (ft_abs ny nx (fun y x => m y x) ky kx) with (ft_abs ny nx m ky kx). ring.
Qed.

(** two pixels side by side *)
Lemma tw_2_1_1 : tw 2 1 1 = RtoC (-1).
Proof.
  unfold tw, cis. change (1 * 1)%nat with 1%nat. replace (- (2 * PI * INR 1 / INR 2)) with (- PI) by (cbn; field).
  apply Ceq; cbn; [rewrite cos_neg, cos_PI|rewrite sin_neg, sin_PI]; lra.
Qed.
Lemma ft_12 a : ft_abs 1 2 a 0 0 = Rabs (a 0%nat 0%nat + a 0%nat 1%nat) /\ ft_abs 1 2 a 0 1 = Rabs (a 0%nat 0%nat - a 0%nat 1%nat).
Proof.
  split.
  - rewrite ft_abs_0. cbn [rsum]. f_equal. ring.
  - unfold ft_abs. rewrite <- Cmod_real. f_equal. unfold dft2. cbn [csum]. rewrite !tw_0_l, tw_2_1_1.
    apply Ceq; cbn; ring.
Qed.
Lemma holds_12 : holds 1 2 0 1 0 0 /\ holds 1 2 0 0 0 1.
Proof. split; [apply (holds_at 1 2 0 1)|apply (holds_at 1 2 0 0)]; lia. Qed.

Definition cc (y x : nat) : R := if Nat.eqb x 0 then 1 else 0.
Definition one2 (y x : nat) : R := 1.
Definition zero2 (y x : nat) : R := 0.

Lemma terms_12 : ft_abs 1 2 (fun y x => cc y x * one2 y x) 0 0 = 1 /\ ft_abs 1 2 (fun y x => cc y x * one2 y x) 0 1 = 1 /\
  ft_abs 1 2 one2 0 0 = 2 /\ ft_abs 1 2 one2 0 1 = 0 /\ mean2 1 2 (fun y x => zero2 y x ^ 2 + cc y x ^ 2) = 1 / 2.
Proof.
  destruct (ft_12 (fun y x => cc y x * one2 y x)) as [-> ->]. destruct (ft_12 one2) as [-> ->].
  unfold cc, one2, zero2, mean2. cbn [Nat.eqb rsum INR].
  replace (1 * 1 + 0 * 1) with 1 by ring. replace (1 * 1 - 0 * 1) with 1 by ring. replace (1 - 1) with 0 by ring.
  rewrite Rabs_R1, Rabs_R0, (Rabs_pos_eq (1 + 1)) by lra. repeat split; try lra.
Qed.

Theorem velocity_refuted : exists c m l ps ps',
  mvc_ps2D (full 1 2 c) (full 1 2 m) (full 1 2 l) None false None = Ok ps /\
  mvc_ps2D (full 1 2 (fun y x => 2 * c y x)) (full 1 2 m) (full 1 2 (fun y x => 2 * l y x)) None false None = Ok ps' /\
  at2 NaN ps 0 0 = Fin 1 /\ at2 NaN ps 0 1 = Fin 0 /\ at2 NaN ps' 0 0 = Fin 4 /\ at2 NaN ps' 0 1 = Fin 4.
Proof.
  destruct (velocity_unit 1 2 cc one2 zero2 2 ltac:(lia) ltac:(lia) ltac:(lra)) as (ps & ps' & E & E' & V).
  exists cc, one2, zero2, ps, ps'. split; [exact E|]. split; [exact E'|].
  destruct holds_12 as [H0 H1]. destruct terms_12 as (A0 & A1 & B0 & B1 & D).
  destruct (V 0%nat 1%nat 0%nat 0%nat ltac:(lia) ltac:(lia) H0) as [P0 Q0].
  destruct (V 0%nat 0%nat 0%nat 1%nat ltac:(lia) ltac:(lia) H1) as [P1 Q1].
  rewrite P0, Q0, P1, Q1, A0, A1, B0, B1, D. repeat split; f_equal; lra.
Qed.

(** cyclic shifts and symmetry *)
Lemma mean2_moved ny nx sy sx a : (1 <= ny)%nat -> (1 <= nx)%nat -> mean2 ny nx (moved ny nx sy sx a) = mean2 ny nx a.
Proof.
  intros Y X. unfold mean2, moved. f_equal.
  rewrite (rsum_ext ny _ (fun y => rsum nx (fun x => a ((y + sy) mod ny)%nat x))).
  - apply (rsum_shift ny (fun y => rsum nx (fun x => a y x)) sy); lia.
  - intros y _. apply (rsum_shift nx (fun x => a ((y + sy) mod ny)%nat x) sx); lia.
Qed.

Theorem mvc_moved ny nx c m l sy sx : (1 <= ny)%nat -> (1 <= nx)%nat ->
  exists ps ps', mvc_ps2D (full ny nx c) (full ny nx m) (full ny nx l) None false None = Ok ps /\
  mvc_ps2D (full ny nx (moved ny nx sy sx c)) (full ny nx (moved ny nx sy sx m)) (full ny nx (moved ny nx sy sx l)) None false None = Ok ps' /\
  forall i j, (i < ny)%nat -> (j < nx)%nat -> at2 NaN ps' i j = at2 NaN ps i j.
Proof.
  intros Y X.
  destruct (mvc_value ny nx c m l None Y X) as (ps & E & V).
  destruct (mvc_value ny nx (moved ny nx sy sx c) (moved ny nx sy sx m) (moved ny nx sy sx l) None Y X) as (ps' & E' & V').
  exists ps, ps'. split; [exact E|]. split; [exact E'|]. intros i j I J.
  pose proof (holds_at ny nx i j I J) as H. rewrite (V i j _ _ I J H), (V' i j _ _ I J H). f_equal. cbv beta iota delta [tapered].
  set (ky := unshift ny _). set (kx := unshift nx _).
  rewrite (ft_abs_moved ny nx sy sx m) by lia.
  change (fun y x => moved ny nx sy sx c y x * moved ny nx sy sx m y x) with (moved ny nx sy sx (fun y x => c y x * m y x)).
  rewrite ft_abs_moved by lia.
  assert (D : disp ny nx None (moved ny nx sy sx c) (moved ny nx sy sx l) = disp ny nx None c l).
  { unfold disp. cbv beta iota delta [tapered]. apply (mean2_moved ny nx sy sx (fun y x => l y x ^ 2 + c y x ^ 2)); assumption. }
  now rewrite D.
Qed.

Theorem mvc_symmetric ny nx c m l k i j i' j' ky kx : (i < ny)%nat -> (j < nx)%nat -> (i' < ny)%nat -> (j' < nx)%nat ->
  holds ny nx i j ky kx -> holds ny nx i' j' ((ny - ky) mod ny) ((nx - kx) mod nx) ->
  exists ps, mvc_ps2D (full ny nx c) (full ny nx m) (full ny nx l) k false None = Ok ps /\ at2 NaN ps i' j' = at2 NaN ps i j.
Proof.
  intros I J I' J' H H'. destruct (mvc_value ny nx c m l k ltac:(lia) ltac:(lia)) as (ps & E & V).
  exists ps. split; [exact E|]. rewrite (V i j _ _ I J H), (V i' j' _ _ I' J' H'). f_equal.
  destruct H as (A & B & _). now rewrite !ft_abs_symmetric by assumption.
Qed.

(** apodizing *)
Theorem apodized_value ny nx c m l k : (1 <= ny)%nat -> (1 <= nx)%nat ->
  exists ps ps', mvc_ps2D (full ny nx c) (full ny nx m) (full ny nx l) (Some k) false None = Ok ps /\
  mvc_ps2D (full ny nx c) (full ny nx (fun y x => m y x * k y x)) (full ny nx l) None false None = Ok ps' /\
  forall i j ky kx, (i < ny)%nat -> (j < nx)%nat -> holds ny nx i j ky kx ->
    let T := ft_abs ny nx (fun y x => c y x * m y x * k y x) ky kx in
    let M := ft_abs ny nx (fun y x => m y x * k y x) ky kx in
    at2 NaN ps' i j = Fin ((T - mean2 ny nx (fun y x => l y x ^ 2 + c y x ^ 2) * M) ^ 2) /\
    at2 NaN ps i j = Fin ((T - mean2 ny nx (fun y x => l y x ^ 2 + c y x ^ 2 * k y x) * M) ^ 2).
Proof.
  intros Y X.
  destruct (mvc_value ny nx c m l (Some k) Y X) as (ps & E & V).
  destruct (mvc_value ny nx c (fun y x => m y x * k y x) l None Y X) as (ps' & E' & V').
  exists ps, ps'. split; [exact E|]. split; [exact E'|]. intros i j ky kx I J H T M.
  rewrite (V i j ky kx I J H), (V' i j ky kx I J H). split.
  - f_equal. cbv beta iota delta [tapered]. rewrite (ft_abs_ext ny nx (fun y x => c y x * (m y x * k y x)) (fun y x => c y x * m y x * k y x)) by (intros; ring).
    reflexivity.
  - reflexivity.
Qed.

Definition window3 (y x : nat) : R := if Nat.eqb x 1 then 1 else 0.
Theorem apodized_refuted : exists c m l k ps ps',
  mvc_ps2D (full 1 3 c) (full 1 3 m) (full 1 3 l) (Some k) false None = Ok ps /\
  mvc_ps2D (full 1 3 c) (full 1 3 (fun y x => m y x * k y x)) (full 1 3 l) None false None = Ok ps' /\
  at2 NaN ps 0 1 = Fin (4 / 9) /\ at2 NaN ps' 0 1 = Fin 0.
Proof.
  destruct (apodized_value 1 3 one2 one2 zero2 window3 ltac:(lia) ltac:(lia)) as (ps & ps' & E & E' & V).
  exists one2, one2, zero2, window3, ps, ps'. split; [exact E|]. split; [exact E'|].
  assert (H : holds 1 3 0 1 0 0) by (apply (holds_at 1 3 0 1); lia).
  destruct (V 0%nat 1%nat 0%nat 0%nat ltac:(lia) ltac:(lia) H) as [P Q]. rewrite P, Q. rewrite !ft_abs_0.
  unfold one2, zero2, window3, mean2. cbn [Nat.eqb rsum INR].
  replace (0 + (0 + 1 * 1 * 0 + 1 * 1 * 1 + 1 * 1 * 0)) with 1 by ring.
  replace (0 + (0 + 1 * 0 + 1 * 1 + 1 * 0)) with 1 by ring. rewrite Rabs_R1. split; f_equal; lra.
Qed.

Theorem kernel_ones c m l : mvc_ps2D c m l (Some (fun _ _ => 1)) false None = mvc_ps2D c m l None false None.
Proof.
  unfold mvc_ps2D. destruct (mvc_init c m l) as [d|]; [|reflexivity]. cbn [bind].
  assert (M1 : forall v, fmul v (Fin 1) = v).
  { intros [r| | |]; cbn; try reflexivity; [f_equal; ring|unfold sinf; destruct (Rltb_spec 0 1); [reflexivity|lra]|unfold sinf; destruct (Rltb_spec 0 1); [reflexivity|lra]]. }
  unfold mvc_compute. cbv zeta.
  rewrite (abs_fft_ext _ _ (fun y x => fmul (fmul (centroid d y x) (moment0 d y x)) (Fin 1)) (fun y x => fmul (centroid d y x) (moment0 d y x))) by (intros; apply M1).
  rewrite (abs_fft_ext _ _ (fun y x => fmul (moment0 d y x) (Fin 1)) (fun y x => moment0 d y x)) by (intros; apply M1).
  rewrite (map_ext (fun p => fadd (fsqr (linewidth d (fst p) (snd p))) (fmul (fsqr (centroid d (fst p) (snd p))) (Fin 1)))
                   (fun p => fadd (fsqr (linewidth d (fst p) (snd p))) (fsqr (centroid d (fst p) (snd p))))) by (intros; now rewrite M1).
  reflexivity.
Qed.
