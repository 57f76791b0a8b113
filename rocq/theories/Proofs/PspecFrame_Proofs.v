(** Proofs for C324: power spectra in larger blank fields. *)
From Coquelicot Require Import Complex.
From Coq Require Import Reals List ZArith Arith Bool Lra Lia.
From Verif Require Import Lib.PyBase Lib.Arr Lib.Fl Lib.RSum Lib.DFT Spec.Freq Spec.PspecFrame Model.StatsUtils Model.Psds Proofs.Psds_Proofs Proofs.Psds2_Proofs.
Import ListNotations.
Local Open Scope R_scope.

Definition cleaned (im : nat -> nat -> fl) (y x : nat) : R := real_of (clean (im y x)).
Lemma cleaned_zero v : real_of (clean v) = or_zero v.
Proof. now destruct v. Qed.
Lemma cis_2PI_Z z : cis (2 * PI * IZR z) = RtoC 1.
Proof.
  assert (P : forall k, IZR (Z.of_nat k) = INR k) by (intros; symmetry; apply INR_IZR_INZ).
  destruct (Z_le_gt_dec 0 z) as [H|H].
  - rewrite <- (Z2Nat.id z) by exact H. rewrite P. apply cis_2PI.
  - replace z with (- Z.of_nat (Z.to_nat (- z)))%Z by lia. rewrite opp_IZR, P, Ropp_mult_distr_r_reverse, cis_opp, cis_2PI. apply Cconj_RtoC.
Qed.
Lemma tw_freq n j k f : is_freq n k f -> tw n j k = cis (- (2 * PI * (f * INR j))).
Proof.
  intros [_ [z ->]]. unfold tw. rewrite mult_INR.
  replace (- (2 * PI * ((INR k / INR n + IZR z) * INR j))) with (- (2 * PI * (INR j * INR k) / INR n) + 2 * PI * IZR (- (z * Z.of_nat j))) by (rewrite opp_IZR, mult_IZR, <- INR_IZR_INZ; unfold Rdiv; ring).
  rewrite cis_plus, cis_2PI_Z. ring.
Qed.
(** The transform at a frequency *)
Lemma dft2_power ny nx (a : nat -> nat -> R) ky kx fy fx : is_freq ny ky fy -> is_freq nx kx fx ->
  let phase y x := 2 * PI * (fy * INR y + fx * INR x) in
  let s g := rsum ny (fun y => rsum nx (fun x => a y x * g (phase y x))) in
  Cnorm2 (dft2 ny nx (fun y x => RtoC (a y x)) ky kx) = s cos * s cos + s sin * s sin.
Proof.
  intros Fy Fx phase s. unfold Cnorm2, dft2. rewrite csum_fst, csum_snd.
  assert (T : forall y x, Cmult (RtoC (a y x)) (Cmult (tw ny y ky) (tw nx x kx)) = (a y x * cos (phase y x), - (a y x * sin (phase y x)))).
  { intros y x. rewrite (tw_freq ny y ky fy Fy), (tw_freq nx x kx fx Fx), <- cis_plus.
    replace (- (2 * PI * (fy * INR y)) + - (2 * PI * (fx * INR x))) with (- phase y x) by (unfold phase; ring). unfold cis. rewrite cos_neg, sin_neg. apply Ceq; cbn; ring. }
  rewrite (rsum_ext ny (fun i => fst (csum nx _)) (fun y => rsum nx (fun x => a y x * cos (phase y x)))).
  2:{ intros y _. rewrite csum_fst. apply rsum_ext. intros x _. now rewrite T. }
  rewrite (rsum_ext ny (fun i => snd (csum nx _)) (fun y => (-1) * rsum nx (fun x => a y x * sin (phase y x)))).
  2:{ intros y _. rewrite csum_snd, <- rsum_scal. apply rsum_ext. intros x _. rewrite T. cbn. ring. }
  rewrite rsum_scal. unfold s, Rsqr. ring.
Qed.
(** Sums over a window *)
Lemma rsum_window N n o (g : nat -> R) : (o + n <= N)%nat -> (forall i, (i < o \/ o + n <= i)%nat -> g i = 0) -> rsum N g = rsum n (fun i => g (o + i)%nat).
Proof.
  intros H Z. replace N with (o + (n + (N - o - n)))%nat by lia. rewrite rsum_split, rsum_split.
  rewrite (rsum_ext o g (fun _ => 0)) by (intros; apply Z; lia). rewrite (rsum_ext (N - o - n) _ (fun _ => 0)) by (intros; apply Z; lia). rewrite !rsum_const. ring.
Qed.
Lemma field_sum NY NX ny nx oy ox im (h : nat -> nat -> R) : (oy + ny <= NY)%nat -> (ox + nx <= NX)%nat ->
  rsum NY (fun y => rsum NX (fun x => or_zero (surrounded ny nx oy ox im y x) * h y x)) = rsum ny (fun y => rsum nx (fun x => or_zero (im y x) * h (oy + y)%nat (ox + x)%nat)).
Proof.
  intros Hy Hx. rewrite (rsum_window NY ny oy _ Hy).
  - apply rsum_ext. intros y Y. rewrite (rsum_window NX nx ox _ Hx).
    + apply rsum_ext. intros x X. unfold surrounded. destruct (Nat.leb_spec oy (oy + y)); [|lia]. destruct (Nat.ltb_spec (oy + y) (oy + ny)); [|lia]. destruct (Nat.leb_spec ox (ox + x)); [|lia]. destruct (Nat.ltb_spec (ox + x) (ox + nx)); [|lia]. cbn [andb].
      now replace (oy + y - oy)%nat with y by lia; replace (ox + x - ox)%nat with x by lia.
    + intros x X. unfold surrounded. destruct (Nat.leb_spec ox x), (Nat.ltb_spec x (ox + nx)); try lia; rewrite ?andb_false_r; cbn; ring.
  - intros y Y. rewrite (rsum_ext NX _ (fun _ => 0)); [rewrite rsum_const; ring|]. intros x _. unfold surrounded. destruct (Nat.leb_spec oy y), (Nat.ltb_spec y (oy + ny)); try lia; cbn; ring.
Qed.
Lemma power_moved ny nx im fy fx oy ox NY NX : (oy + ny <= NY)%nat -> (ox + nx <= NX)%nat -> power_at NY NX (surrounded ny nx oy ox im) fy fx = power_at ny nx im fy fx.
Proof.
  intros Hy Hx. unfold power_at. cbv zeta. rewrite (field_sum NY NX ny nx oy ox im (fun y x => cos (2 * PI * (fy * INR y + fx * INR x))) Hy Hx), (field_sum NY NX ny nx oy ox im (fun y x => sin (2 * PI * (fy * INR y + fx * INR x))) Hy Hx).
  set (t := 2 * PI * (fy * INR oy + fx * INR ox)). set (p := fun y x : nat => 2 * PI * (fy * INR y + fx * INR x)).
  set (a := rsum ny (fun y => rsum nx (fun x => or_zero (im y x) * cos (p y x)))). set (b := rsum ny (fun y => rsum nx (fun x => or_zero (im y x) * sin (p y x)))).
  assert (P : forall y x, 2 * PI * (fy * INR (oy + y) + fx * INR (ox + x)) = t + p y x) by (intros; unfold t, p; rewrite !plus_INR; ring).
  assert (E : forall u v, rsum ny (fun y => rsum nx (fun x => or_zero (im y x) * (u * cos (p y x) + v * sin (p y x)))) = u * a + v * b).
  { intros u v. unfold a, b. rewrite <- !rsum_scal, <- rsum_plus. apply rsum_ext. intros y _. rewrite <- !rsum_scal, <- rsum_plus. apply rsum_ext. intros x _. ring. }
  rewrite (rsum_ext ny _ (fun y => rsum nx (fun x => or_zero (im y x) * (cos t * cos (p y x) + (- sin t) * sin (p y x))))).
  2:{ intros y _. apply rsum_ext. intros x _. rewrite P, cos_plus. ring. }
  rewrite (rsum_ext ny (fun y => rsum nx (fun x => or_zero (im y x) * sin _)) (fun y => rsum nx (fun x => or_zero (im y x) * (sin t * cos (p y x) + cos t * sin (p y x))))).
  2:{ intros y _. apply rsum_ext. intros x _. rewrite P, sin_plus. ring. }
  rewrite !E. change (rsum ny (fun y => rsum nx (fun x => or_zero (im y x) * cos (2 * PI * (fy * INR y + fx * INR x))))) with a. change (rsum ny (fun y => rsum nx (fun x => or_zero (im y x) * sin (2 * PI * (fy * INR y + fx * INR x))))) with b. pose proof (sin2_cos2 t) as S. unfold Rsqr in S. transitivity ((sin t * sin t + cos t * cos t) * (a * a + b * b)); [ring|rewrite S; ring].
Qed.
Lemma image_power ny nx im i j : (i < ny)%nat -> (j < nx)%nat ->
  at2 0 (power_ps2D ny nx (cleaned im)) i j = power_at ny nx im (at2 0 (yy_freq ny nx) i j) (at2 0 (xx_freq ny nx) i j).
Proof.
  intros I J. destruct (ps2D_frequency ny nx (cleaned im) i j I J) as [ky [kx [Ky [Kx [E [Fy Fx]]]]]]. rewrite E, (dft2_power ny nx (cleaned im) ky kx _ _ Fy Fx). unfold power_at. cbv zeta.
  f_equal; f_equal; apply rsum_ext; intros y _; apply rsum_ext; intros x _; unfold cleaned; now rewrite cleaned_zero.
Qed.
Theorem field_power : forall NY NX ny nx oy ox im i j, (oy + ny <= NY)%nat -> (ox + nx <= NX)%nat -> (i < NY)%nat -> (j < NX)%nat ->
  at2 0 (power_ps2D NY NX (cleaned (surrounded ny nx oy ox im))) i j = power_at ny nx im (at2 0 (yy_freq NY NX) i j) (at2 0 (xx_freq NY NX) i j).
Proof. intros NY NX ny nx oy ox im i j Hy Hx I J. rewrite image_power by assumption. now apply power_moved. Qed.
Theorem same_frequency : forall NY NX ny nx oy ox im i j i' j', (oy + ny <= NY)%nat -> (ox + nx <= NX)%nat -> (i < ny)%nat -> (j < nx)%nat -> (i' < NY)%nat -> (j' < NX)%nat ->
  at2 0 (yy_freq NY NX) i' j' = at2 0 (yy_freq ny nx) i j -> at2 0 (xx_freq NY NX) i' j' = at2 0 (xx_freq ny nx) i j ->
  at2 0 (power_ps2D NY NX (cleaned (surrounded ny nx oy ox im))) i' j' = at2 0 (power_ps2D ny nx (cleaned im)) i j.
Proof. intros NY NX ny nx oy ox im i j i' j' Hy Hx I J I' J' Ey Ex. rewrite field_power, image_power by assumption. now rewrite Ey, Ex. Qed.
(** In a field of a multiple of the size every frequency of the image occurs *)
Lemma freq_multiple n m k f : (0 < n)%nat -> (0 < m)%nat -> is_freq n k f <-> is_freq (m * n) (m * k) f.
Proof.
  intros N M. assert (0 < INR n) by now apply lt_0_INR. assert (0 < INR m) by now apply lt_0_INR. unfold is_freq. rewrite !mult_INR. replace (INR m * INR k / (INR m * INR n)) with (INR k / INR n) by (field; lra). reflexivity.
Qed.
Lemma freq_unique n k f g : is_freq n k f -> is_freq n k g -> f = g.
Proof.
  intros [B [z Z]] [B' [z' Z']]. assert (E : f - g = IZR (z - z')) by (rewrite minus_IZR; lra). assert (- 1 < IZR (z - z') < 1) by lra. assert (z - z' = 0)%Z. { destruct H as [H1 H2]. apply lt_IZR in H1, H2. lia. } rewrite H0 in E. cbn in E. lra.
Qed.
Theorem multiples : forall my mx ny nx oy ox im i j, (0 < my)%nat -> (0 < mx)%nat -> (oy + ny <= my * ny)%nat -> (ox + nx <= mx * nx)%nat -> (i < ny)%nat -> (j < nx)%nat ->
  exists i' j', (i' < my * ny)%nat /\ (j' < mx * nx)%nat /\ at2 0 (yy_freq (my * ny) (mx * nx)) i' j' = at2 0 (yy_freq ny nx) i j /\ at2 0 (xx_freq (my * ny) (mx * nx)) i' j' = at2 0 (xx_freq ny nx) i j /\
    at2 0 (power_ps2D (my * ny) (mx * nx) (cleaned (surrounded ny nx oy ox im))) i' j' = at2 0 (power_ps2D ny nx (cleaned im)) i j.
Proof.
  intros my mx ny nx oy ox im i j My Mx Hy Hx I J. destruct (ps2D_frequency ny nx (cleaned im) i j I J) as [ky [kx [Ky [Kx [_ [Fy Fx]]]]]].
  destruct (ps2D_complete (my * ny) (mx * nx) (my * ky) (mx * kx)) as [i' [j' [I' [J' [Fy' [Fx' _]]]]]]; [nia|nia|].
  apply freq_multiple in Fy'; [|lia|lia]. apply freq_multiple in Fx'; [|lia|lia]. exists i', j'. split; [exact I'|]. split; [exact J'|].
  assert (Ey := freq_unique _ _ _ _ Fy' Fy). assert (Ex := freq_unique _ _ _ _ Fx' Fx). split; [exact Ey|]. split; [exact Ex|]. now apply same_frequency.
Qed.
(** Cubes: the spectrum of VCA *)
Theorem cube_power : forall nz NY NX ny nx oy ox (cube : nat -> nat -> nat -> fl) i j, (1 <= nz)%nat -> (oy + ny <= NY)%nat -> (ox + nx <= NX)%nat -> (i < NY)%nat -> (j < NX)%nat ->
  at2 0 (vca_ps2D nz NY NX (clean3 (fun z => surrounded ny nx oy ox (cube z)))) i j = INR nz * rsum nz (fun z => power_at ny nx (cube z) (at2 0 (yy_freq NY NX) i j) (at2 0 (xx_freq NY NX) i j)).
Proof. intros nz NY NX ny nx oy ox cube i j Z Hy Hx I J. rewrite vca_sum_of_channels by assumption. f_equal. apply rsum_ext. intros z _. now apply field_power. Qed.
