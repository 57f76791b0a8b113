(** Proofs for C325: modified velocity centroids in larger blank fields. *)
From Coquelicot Require Import Complex.
From Coq Require Import Reals List ZArith Arith Bool Lra Lia FunctionalExtensionality.
From Verif Require Import Lib.PyBase Lib.PySlice Lib.Arr Lib.Fl Lib.RSum Lib.DFT Spec.Freq Spec.Velocity Spec.PspecFrame Spec.MvcFrame Model.StatsUtils Model.Psds Model.Beam Model.Mvc Proofs.Psds_Proofs Proofs.Psds2_Proofs Proofs.Mvc_Proofs Proofs.Mvc2_Proofs Proofs.PspecFrame_Proofs.
Import ListNotations.
Local Open Scope R_scope.

Lemma filled ny nx c m l k b w : blank_together c m l ->
  mvc_ps2D (map_of ny nx c) (map_of ny nx m) (map_of ny nx l) k b w =
  mvc_ps2D (full ny nx (fun y x => or_zero (c y x))) (full ny nx (fun y x => or_zero (m y x))) (full ny nx (fun y x => or_zero (l y x))) k b w.
Proof.
  intros H. unfold mvc_ps2D, mvc_init, map_of, full. cbn [rows cols pixel]. rewrite !Nat.eqb_refl. cbn [andb orb negb bind is_nan].
  f_equal. f_equal. f_equal; apply functional_extensionality; intros y; apply functional_extensionality; intros x; destruct (H y x) as [[a [b' [d [-> [-> ->]]]]]|[-> [-> ->]]]; reflexivity.
Qed.
Lemma surrounded_blanks ny nx oy ox c m l : blank_together c m l -> blank_together (surrounded ny nx oy ox c) (surrounded ny nx oy ox m) (surrounded ny nx oy ox l).
Proof. intros H y x. unfold surrounded. destruct ((oy <=? y)%nat && (y <? oy + ny)%nat && (ox <=? x)%nat && (x <? ox + nx)%nat); [apply H|right; repeat split]. Qed.
Lemma power_ext ny nx a b fy fx : (forall y x, or_zero (a y x) = or_zero (b y x)) -> power_at ny nx a fy fx = power_at ny nx b fy fx.
Proof. intros H. unfold power_at. cbv zeta. f_equal; f_equal; apply rsum_ext; intros y _; apply rsum_ext; intros x _; now rewrite H. Qed.
Lemma ft_power ny nx (a : nat -> nat -> R) (im : nat -> nat -> fl) i j ky kx : holds ny nx i j ky kx -> (forall y x, a y x = or_zero (im y x)) ->
  ft_abs ny nx a ky kx = sqrt (power_at ny nx im (at2 0 (yy_freq ny nx) i j) (at2 0 (xx_freq ny nx) i j)).
Proof.
  intros [_ [_ [Fy Fx]]] H. unfold ft_abs. rewrite Cmod_norm2, (dft2_power ny nx a ky kx _ _ Fy Fx). f_equal. unfold power_at. cbv zeta. f_equal; f_equal; apply rsum_ext; intros y _; apply rsum_ext; intros x _; now rewrite H.
Qed.
Lemma own_value ny nx c m l : blank_together c m l -> (1 <= ny)%nat -> (1 <= nx)%nat ->
  exists ps, mvc_ps2D (map_of ny nx c) (map_of ny nx m) (map_of ny nx l) None false None = Ok ps /\
  forall i j, (i < ny)%nat -> (j < nx)%nat -> at2 NaN ps i j = Fin (mvc_at ny nx c m (total_square ny nx c l / INR (ny * nx)) (at2 0 (yy_freq ny nx) i j) (at2 0 (xx_freq ny nx) i j)).
Proof.
  intros H Y X. rewrite (filled _ _ _ _ _ _ _ _ H). destruct (mvc_value ny nx (fun y x => or_zero (c y x)) (fun y x => or_zero (m y x)) (fun y x => or_zero (l y x)) None Y X) as [ps [E V]]. exists ps. split; [exact E|].
  intros i j I J. destruct (ps2D_frequency ny nx (fun _ _ => 0) i j I J) as [ky [kx [Ky [Kx [_ [Fy Fx]]]]]]. assert (K : holds ny nx i j ky kx) by (repeat split; try assumption; try apply Fy; try apply Fx).
  rewrite (V i j ky kx I J K). f_equal. unfold tapered, disp, mvc_at. cbv zeta.
  rewrite (ft_power ny nx _ (fun y x => fmul (c y x) (m y x)) i j ky kx K) by (intros y x; destruct (H y x) as [[a [b [d [-> [-> _]]]]]|[-> [-> _]]]; cbn; ring).
  rewrite (ft_power ny nx _ m i j ky kx K) by reflexivity.
  assert (T : mean2 ny nx (fun y x => or_zero (l y x) ^ 2 + or_zero (c y x) ^ 2) = total_square ny nx c l / INR (ny * nx)).
  { unfold mean2, total_square. rewrite mult_INR. f_equal. apply rsum_ext. intros y _. apply rsum_ext. intros x _. ring. }
  unfold tapered in *. rewrite ?T. cbn [pow]. rewrite Rmult_1_r. reflexivity.
Qed.
Lemma total_moved NY NX ny nx oy ox c l : (oy + ny <= NY)%nat -> (ox + nx <= NX)%nat ->
  total_square NY NX (surrounded ny nx oy ox c) (surrounded ny nx oy ox l) = total_square ny nx c l.
Proof.
  intros Hy Hx. unfold total_square.
  assert (S : forall im : nat -> nat -> fl, rsum NY (fun y => rsum NX (fun x => or_zero (surrounded ny nx oy ox im y x) * or_zero (surrounded ny nx oy ox im y x))) = rsum ny (fun y => rsum nx (fun x => or_zero (im y x) * or_zero (im y x)))).
  { intros im. rewrite (field_sum NY NX ny nx oy ox im (fun y x => or_zero (surrounded ny nx oy ox im y x)) Hy Hx). apply rsum_ext. intros y Y. apply rsum_ext. intros x X. f_equal. unfold surrounded.
    destruct (Nat.leb_spec oy (oy + y)); [|lia]. destruct (Nat.ltb_spec (oy + y) (oy + ny)); [|lia]. destruct (Nat.leb_spec ox (ox + x)); [|lia]. destruct (Nat.ltb_spec (ox + x) (ox + nx)); [|lia]. cbn [andb].
    now replace (oy + y - oy)%nat with y by lia; replace (ox + x - ox)%nat with x by lia. }
  transitivity (rsum NY (fun y => rsum NX (fun x => or_zero (surrounded ny nx oy ox l y x) * or_zero (surrounded ny nx oy ox l y x))) + rsum NY (fun y => rsum NX (fun x => or_zero (surrounded ny nx oy ox c y x) * or_zero (surrounded ny nx oy ox c y x)))).
  { rewrite <- rsum_plus. apply rsum_ext. intros y _. now rewrite <- rsum_plus. }
  rewrite !S, <- rsum_plus. apply rsum_ext. intros y _. now rewrite <- rsum_plus.
Qed.
Theorem field_value : forall NY NX ny nx oy ox c m l, blank_together c m l -> (1 <= NY)%nat -> (1 <= NX)%nat -> (oy + ny <= NY)%nat -> (ox + nx <= NX)%nat ->
  exists ps, mvc_ps2D (map_of NY NX (surrounded ny nx oy ox c)) (map_of NY NX (surrounded ny nx oy ox m)) (map_of NY NX (surrounded ny nx oy ox l)) None false None = Ok ps /\
  forall i j, (i < NY)%nat -> (j < NX)%nat -> at2 NaN ps i j = Fin (mvc_at ny nx c m (total_square ny nx c l / INR (NY * NX)) (at2 0 (yy_freq NY NX) i j) (at2 0 (xx_freq NY NX) i j)).
Proof.
  intros NY NX ny nx oy ox c m l H Y X Hy Hx. destruct (own_value NY NX _ _ _ (surrounded_blanks ny nx oy ox _ _ _ H) Y X) as [ps [E V]]. exists ps. split; [exact E|]. intros i j I J. rewrite (V i j I J). f_equal.
  rewrite (total_moved NY NX ny nx oy ox c l Hy Hx). unfold mvc_at. cbv zeta. rewrite (power_moved ny nx m _ _ oy ox NY NX Hy Hx).
  rewrite (power_ext NY NX _ (surrounded ny nx oy ox (fun y x => fmul (c y x) (m y x)))); [now rewrite (power_moved ny nx _ _ _ oy ox NY NX Hy Hx)|].
  intros y x. unfold surrounded. destruct ((oy <=? y)%nat && (y <? oy + ny)%nat && (ox <=? x)%nat && (x <? ox + nx)%nat); reflexivity.
Qed.
Definition one (v : R) (_ _ : nat) : fl := Fin v.
Lemma surrounded_self ny nx im y x : (y < ny)%nat -> (x < nx)%nat -> surrounded ny nx 0 0 im y x = im y x.
Proof. intros Y X. unfold surrounded. cbn [Nat.leb Nat.add andb]. destruct (Nat.ltb_spec y ny); [|lia]. destruct (Nat.ltb_spec x nx); [|lia]. cbn [andb]. now rewrite !Nat.sub_0_r. Qed.
(** A single pixel, in fields of any size *)
Lemma pixel_power v fy fx : power_at 1 1 (one v) fy fx = v * v.
Proof. unfold power_at, one, or_zero. cbn [rsum INR]. replace (2 * PI * (fy * 0 + fx * 0)) with 0 by ring. rewrite cos_0, sin_0. ring. Qed.
Theorem one_pixel : forall NY NX oy ox c m l, 0 <= c * m -> 0 <= m -> (oy + 1 <= NY)%nat -> (ox + 1 <= NX)%nat ->
  exists ps, mvc_ps2D (map_of NY NX (surrounded 1 1 oy ox (one c))) (map_of NY NX (surrounded 1 1 oy ox (one m))) (map_of NY NX (surrounded 1 1 oy ox (one l))) None false None = Ok ps /\
  forall i j, (i < NY)%nat -> (j < NX)%nat -> at2 NaN ps i j = Fin ((c * m - (l * l + c * c) / INR (NY * NX) * m) * (c * m - (l * l + c * c) / INR (NY * NX) * m)).
Proof.
  intros NY NX oy ox c m l CM M Hy Hx. destruct (field_value NY NX 1 1 oy ox (one c) (one m) (one l)) as [ps [E V]]; try lia; [intros y x; left; exists c, m, l; repeat split|].
  exists ps. split; [exact E|]. intros i j I J. rewrite (V i j I J). f_equal. unfold mvc_at. cbv zeta. rewrite pixel_power. change (fun y x : nat => fmul (one c y x) (one m y x)) with (one (c * m)). rewrite pixel_power, !sqrt_square by assumption.
  unfold total_square, one, or_zero. cbn [rsum]. replace (0 + (0 + (l * l + c * c))) with (l * l + c * c) by ring. reflexivity.
Qed.
Theorem blanks_matter : ~ (forall NY NX ny nx oy ox c m l ps ps' i j i' j', blank_together c m l -> (oy + ny <= NY)%nat -> (ox + nx <= NX)%nat -> (i < ny)%nat -> (j < nx)%nat -> (i' < NY)%nat -> (j' < NX)%nat ->
  at2 0 (yy_freq NY NX) i' j' = at2 0 (yy_freq ny nx) i j -> at2 0 (xx_freq NY NX) i' j' = at2 0 (xx_freq ny nx) i j ->
  mvc_ps2D (map_of ny nx c) (map_of ny nx m) (map_of ny nx l) None false None = Ok ps ->
  mvc_ps2D (map_of NY NX (surrounded ny nx oy ox c)) (map_of NY NX (surrounded ny nx oy ox m)) (map_of NY NX (surrounded ny nx oy ox l)) None false None = Ok ps' ->
  at2 NaN ps' i' j' = at2 NaN ps i j).
Proof.
  intros H. assert (B : blank_together (one 0) (one 1) (one 1)) by (intros y x; left; exists 0, 1, 1; repeat split).
  destruct (own_value 1 1 _ _ _ B) as [ps [E V]]; [lia|lia|]. destruct (one_pixel 2 1 0 0 0 1 1) as [ps' [E' V']]; [lra|lra|lia|lia|].
  destruct (multiples 2 1 1 1 0 0 (one 1) 0 0) as [i' [j' [I' [J' [Fy [Fx _]]]]]]; try lia.
  specialize (H 2%nat 1%nat 1%nat 1%nat 0%nat 0%nat _ _ _ ps ps' 0%nat 0%nat i' j' B ltac:(lia) ltac:(lia) ltac:(lia) ltac:(lia) I' J' Fy Fx E E').
  rewrite (V 0%nat 0%nat) in H by lia. rewrite (V' i' j' I' J') in H. injection H as H. unfold mvc_at in H. cbv zeta in H. rewrite pixel_power in H. change (fun y x : nat => fmul (one 0 y x) (one 1 y x)) with (one (0 * 1)) in H. rewrite pixel_power in H.
  unfold total_square, one, or_zero in H. cbn [rsum INR Nat.mul Nat.add] in H. rewrite !Rmult_0_l, !Rmult_1_r, sqrt_0, sqrt_1 in H. unfold Rdiv in H. rewrite ?Rinv_1 in H. assert (T : (1 + 1) * / (1 + 1) = 1) by (apply Rinv_r; lra). nra.
Qed.
