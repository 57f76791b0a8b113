(** Proofs about pixels on the sky and channels. *)
From Coq Require Import Reals List Arith Bool Lra Lia.
From Verif Require Import Lib.PyBase Lib.Fl Model.BaseStat Model.Wcs Spec.Wcs.
From Verif Require Model.StatsUtils.
Import ListNotations.
Local Open Scope R_scope.

Definition first_two (w : wcs) : mat2 :=
  mk_mat2 (w_matrix w 0%nat 0%nat) (w_matrix w 0%nat 1%nat) (w_matrix w 1%nat 0%nat) (w_matrix w 1%nat 1%nat).
Lemma celestial_is w : celestial_first w -> celestial w = Ok (first_two w).
Proof. intros [(rest & [E|E]) _]; unfold celestial; rewrite E; reflexivity. Qed.

Lemma total_zero f n k : (k <= n)%nat -> (forall i, (k <= i)%nat -> f i = 0) -> total f n = total f k.
Proof.
  intros L Z. induction n as [|n IH]; [now replace k with O by lia|].
  destruct (Nat.eq_dec k (S n)) as [->|N]; [reflexivity|]. cbn [total]. rewrite IH by lia. rewrite (Z n) by lia. lra.
Qed.
Lemma column_first w : celestial_first w ->
  column_length w 0 = sqrt (w_matrix w 0%nat 0%nat * w_matrix w 0%nat 0%nat + w_matrix w 1%nat 0%nat * w_matrix w 1%nat 0%nat).
Proof.
  intros [(rest & A) Z]. unfold column_length. f_equal.
  rewrite (total_zero _ _ 2).
  - cbn [total]. lra.
  - destruct A as [-> | ->]; cbn; lia.
  - intros i L. destruct (Z i L) as (-> & _). lra.
Qed.

Definition area (m : mat2) : R := Rabs (m00 m * m11 m - m01 m * m10 m).
Lemma area_is w : area (first_two w) = pixel_area w.
Proof. reflexivity. Qed.

(** ** Square pixels *)
Lemma trig1 t : cos t * cos t + sin t * sin t = 1.
Proof. pose proof (sin2_cos2 t) as E. unfold Rsqr in E. lra. Qed.
Lemma square_facts w s : 0 < s -> square w s ->
  let m := first_two w in
  area m = s * s /\ m00 m * m00 m + m01 m * m01 m = s * s /\ m00 m * m10 m + m01 m * m11 m = 0 /\ m10 m * m10 m + m11 m * m11 m = s * s /\
  m00 m * m00 m + m10 m * m10 m = s * s /\ m01 m * m01 m + m11 m * m11 m = s * s.
Proof.
  intros P (t & A & B & C) m. unfold m, first_two, area; cbn [m00 m01 m10 m11]. rewrite A, B.
  pose proof (trig1 t) as T. set (c := cos t) in *. set (d := sin t) in *.
  assert (S2 : 0 <= s * s) by nra.
  assert (Q : s * c * (s * c) + s * d * (s * d) = s * s) by (replace (s * c * (s * c) + s * d * (s * d)) with (s * s * (c * c + d * d)) by ring; rewrite T; ring).
  destruct C as [[-> ->]|[-> ->]].
  - replace (s * c * (s * c) - - (s * d) * (s * d)) with (s * c * (s * c) + s * d * (s * d)) by ring. rewrite Q.
    rewrite Rabs_right by lra. repeat split; lra.
  - replace (s * c * - (s * c) - s * d * (s * d)) with (- (s * c * (s * c) + s * d * (s * d))) by ring. rewrite Q, Rabs_Ropp.
    rewrite Rabs_right by lra. repeat split; lra.
Qed.
Lemma square_orthogonal w s : 0 < s -> square w s -> orthogonal (first_two w) = Ok true.
Proof.
  intros P S. destruct (square_facts w s P S) as (A & B & C & D & _). set (m := first_two w) in *.
  unfold orthogonal. fold (area m). rewrite A, B, C, D.
  assert (0 < s * s) by nra.
  destruct (Reqb_spec (s * s) 0); [lra|].
  replace (s * s / (s * s) - 1) with 0 by (field; lra). replace (0 / (s * s)) with 0 by (field; lra).
  rewrite Rabs_R0. unfold Rltb. destruct (Rlt_dec 0 (1 / 100000)); [reflexivity|lra].
Qed.
Lemma square_wcs w s : 0 < s -> celestial_first w -> square w s -> w_distortion w = false -> get_wcs (Some w) = Ok w.
Proof.
  intros P C S D. unfold get_wcs, distorted. rewrite celestial_is by assumption. cbn [bind].
  rewrite (square_orthogonal w s) by assumption. cbn [bind]. now rewrite D.
Qed.
Lemma sqrt_self s : 0 < s -> sqrt (s * s) = s.
Proof. intros P. apply sqrt_square. lra. Qed.
Lemma square_size w s : 0 < s -> celestial_first w -> square w s -> w_distortion w = false -> ang_size (Some w) = Ok s.
Proof.
  intros P C S D. unfold ang_size. rewrite (square_wcs w s) by assumption. cbn [bind]. f_equal.
  rewrite column_first by assumption. destruct (square_facts w s P S) as (_ & _ & _ & _ & E & _). cbn [first_two m00 m10] in E.
  rewrite E, sqrt_self by assumption. apply Rabs_right. lra.
Qed.

(** ** Nearly square pixels *)
Lemma rltb_true a b : Rltb a b = true -> a < b.
Proof. unfold Rltb. destruct (Rlt_dec a b); [auto|discriminate]. Qed.
Lemma near m : orthogonal m = Ok true ->
  0 < area m /\ Rabs (m00 m * m00 m + m01 m * m01 m - area m) <= / 100000 * area m /\
  Rabs (m00 m * m10 m + m01 m * m11 m) <= / 100000 * area m /\
  Rabs (m10 m * m10 m + m11 m * m11 m - area m) <= / 100000 * area m.
Proof.
  unfold orthogonal. fold (area m). destruct (Reqb_spec (area m) 0) as [|N]; [discriminate|]. intros [= E].
  apply andb_prop in E. destruct E as [E E3]. apply andb_prop in E. destruct E as [E1 E2].
  apply rltb_true in E1, E2, E3.
  assert (P : 0 < area m) by (pose proof (Rabs_pos (m00 m * m11 m - m01 m * m10 m)); unfold area in *; lra).
  assert (K : forall x, Rabs x < 1 / 100000 -> Rabs (x * area m) <= / 100000 * area m).
  { intros x L. rewrite Rabs_mult, (Rabs_right (area m)) by lra. apply Rmult_le_compat_r; lra. }
  split; [exact P|]. repeat split.
  - apply K in E1. replace ((m00 m * m00 m + m01 m * m01 m) / area m - 1) with ((m00 m * m00 m + m01 m * m01 m - area m) / area m) in E1 by (field; lra).
    replace ((m00 m * m00 m + m01 m * m01 m - area m) / area m * area m) with (m00 m * m00 m + m01 m * m01 m - area m) in E1 by (field; lra). exact E1.
  - apply K in E2. replace ((m00 m * m10 m + m01 m * m11 m) / area m * area m) with (m00 m * m10 m + m01 m * m11 m) in E2 by (field; lra). exact E2.
  - apply K in E3. replace ((m10 m * m10 m + m11 m * m11 m) / area m - 1) with ((m10 m * m10 m + m11 m * m11 m - area m) / area m) in E3 by (field; lra).
    replace ((m10 m * m10 m + m11 m * m11 m - area m) / area m * area m) with (m10 m * m10 m + m11 m * m11 m - area m) in E3 by (field; lra). exact E3.
Qed.
Lemma abs_sq x e : Rabs x <= e -> x * x <= e * e.
Proof. intros L. pose proof (Rabs_pos x). replace (x * x) with (Rabs x * Rabs x); [apply Rmult_le_compat; assumption|]. rewrite <- Rabs_mult. apply Rabs_right. nra. Qed.
Lemma column_near m : orthogonal m = Ok true -> Rabs (m00 m * m00 m + m10 m * m10 m - area m) <= 3 / 100000 * area m.
Proof.
  intros O. destruct (near m O) as (P & A & B & C). set (a := m00 m) in *. set (b := m01 m) in *. set (c := m10 m) in *. set (d := m11 m) in *.
  set (S := area m) in *. set (e := / 100000 * S) in *.
  assert (D : (a * d - b * c) * (a * d - b * c) = S * S).
  { unfold S, area. fold a b c d. rewrite <- Rabs_mult. rewrite Rabs_right; [ring|apply Rle_ge, Rle_0_sqr]. }
  assert (e0 : 0 < e) by (unfold e; lra).
  set (x := a * a + c * c). set (y := b * b + d * d). set (p := a * a + b * b). set (q := c * c + d * d). set (s := a * c + b * d).
  assert (T : x + y = p + q) by (unfold x, y, p, q; ring).
  assert (DD : p * q - s * s = S * S) by (rewrite <- D; unfold p, q, s; ring).
  assert (XY : x * y - (a * b + c * d) * (a * b + c * d) = S * S) by (rewrite <- D; unfold x, y; ring).
  fold p q s in A, B, C.
  pose proof (Rle_0_sqr (a * b + c * d)) as U. unfold Rsqr in U.
  pose proof (abs_sq _ _ B) as B2.
  (* (x - y)^2 <= (p - q)^2 + 4 s^2 *)
  assert (V : (x - y) * (x - y) <= (p - q) * (p - q) + 4 * (s * s)).
  { replace ((x - y) * (x - y)) with ((x + y) * (x + y) - 4 * (x * y)) by ring.
    replace ((p - q) * (p - q)) with ((p + q) * (p + q) - 4 * (p * q)) by ring. rewrite T. lra. }
  assert (PQ : Rabs (p - q) <= 2 * e).
  { replace (p - q) with ((p - S) - (q - S)) by ring. eapply Rle_trans; [apply Rabs_triang|]. rewrite Rabs_Ropp. lra. }
  pose proof (abs_sq _ _ PQ) as PQ2.
  assert (W : (x - y) * (x - y) <= 3 * e * (3 * e)) by nra.
  assert (XYb : Rabs (x - y) <= 3 * e).
  { apply Rnot_lt_le. intros L. pose proof (Rabs_pos (x - y)).
    assert (3 * e * (3 * e) < Rabs (x - y) * Rabs (x - y)) by nra. rewrite <- Rabs_mult in H0. rewrite Rabs_right in H0 by (apply Rle_ge, Rle_0_sqr). lra. }
  (* x - S = ((p - S) + (q - S) + (x - y)) / 2 *)
  replace (x - S) with (((p - S) + (q - S) + (x - y)) / 2) by lra.
  assert (Rabs (p - S + (q - S) + (x - y)) <= 5 * e).
  { eapply Rle_trans; [apply Rabs_triang|]. eapply Rle_trans; [apply Rplus_le_compat_r, Rabs_triang|]. lra. }
  unfold Rdiv at 1. rewrite Rabs_mult, (Rabs_right (/ 2)) by lra. unfold e in *. lra.
Qed.
Lemma size_near w a : celestial_first w -> ang_size (Some w) = Ok a -> 0 < a /\ Rabs (a * a - pixel_area w) <= 3 / 100000 * pixel_area w.
Proof.
  intros C. unfold ang_size, get_wcs, distorted. rewrite celestial_is by assumption. cbn [bind].
  destruct (orthogonal (first_two w)) as [o|e] eqn:O; cbn [bind]; [|discriminate].
  destruct o; cbn [negb orb]; [|discriminate]. destruct (w_distortion w); cbn [bind]; [discriminate|].
  rewrite column_first by assumption. intros [= <-].
  pose proof (column_near _ O) as N. destruct (near _ O) as (P & _). rewrite area_is in *. cbn [first_two m00 m10] in N.
  set (x := w_matrix w 0%nat 0%nat * w_matrix w 0%nat 0%nat + w_matrix w 1%nat 0%nat * w_matrix w 1%nat 0%nat) in *.
  assert (X : 0 < x).
  { apply Rnot_le_lt. intros L. assert (x = 0) by (unfold x in *; nra). rewrite H in N.
    replace (0 - pixel_area w) with (- pixel_area w) in N by ring. rewrite Rabs_Ropp, Rabs_right in N by lra. lra. }
  pose proof (sqrt_lt_R0 x X) as R0. rewrite (Rabs_right (sqrt x)) by lra. split; [exact R0|].
  rewrite sqrt_sqrt by lra. exact N.
Qed.

(** ** Oblong pixels *)
Lemma oblong w a b : celestial_first w -> rectangle w a b -> 0 < a -> 0 < b ->
  (1 / 100000 <= a / b - 1 \/ 1 / 100000 <= b / a - 1) -> ang_size (Some w) = Err ValueError.
Proof.
  intros C (A & B & Z1 & Z2) Pa Pb N. unfold ang_size, get_wcs, distorted. rewrite celestial_is by assumption. cbn [bind].
  unfold orthogonal, first_two; cbn [m00 m01 m10 m11]. rewrite Z1, Z2.
  set (u := w_matrix w 0%nat 0%nat) in *. set (v := w_matrix w 1%nat 1%nat) in *.
  replace (u * v - 0 * 0) with (u * v) by ring. rewrite Rabs_mult, A, B.
  assert (0 < a * b) by (apply Rmult_lt_0_compat; assumption).
  destruct (Reqb_spec (a * b) 0); [lra|].
  assert (U : u * u = a * a) by (rewrite <- A, <- Rabs_mult, Rabs_right; [reflexivity|nra]).
  assert (V : v * v = b * b) by (rewrite <- B, <- Rabs_mult, Rabs_right; [reflexivity|nra]).
  replace (u * u + 0 * 0) with (a * a) by lra. replace (0 * 0 + v * v) with (b * b) by lra.
  replace (a * a / (a * b) - 1) with (a / b - 1) by (field; lra). replace (b * b / (a * b) - 1) with (b / a - 1) by (field; lra).
  replace (Rltb (Rabs (a / b - 1)) (1 / 100000) && Rltb (Rabs ((u * 0 + 0 * v) / (a * b))) (1 / 100000) && Rltb (Rabs (b / a - 1)) (1 / 100000)) with false; [reflexivity|].
  symmetry. destruct N as [N|N].
  - replace (Rltb (Rabs (a / b - 1)) (1 / 100000)) with false; [reflexivity|].
    symmetry. unfold Rltb. destruct (Rlt_dec _ _) as [L|]; [|reflexivity]. rewrite Rabs_right in L; lra.
  - replace (Rltb (Rabs (b / a - 1)) (1 / 100000)) with false; [now rewrite andb_false_r|].
    symmetry. unfold Rltb. destruct (Rlt_dec _ _) as [L|]; [|reflexivity]. rewrite Rabs_right in L; lra.
Qed.

(** ** Two grids *)
Lemma square_grid w s : 0 < s -> celestial_first w -> square w s -> w_distortion w = false -> grid_of w = Ok (StatsUtils.Build_grid false s s).
Proof.
  intros P C S D. unfold grid_of. rewrite celestial_is by assumption. cbn [bind].
  rewrite (square_orthogonal w s) by assumption. cbn [bind negb orb]. rewrite D.
  destruct (square_facts w s P S) as (_ & _ & _ & _ & E & F). rewrite E, F, sqrt_self by assumption. reflexivity.
Qed.
Lemma common w1 w2 s1 s2 tol : 0 < s1 -> 0 < s2 -> 0 <= tol ->
  celestial_first w1 -> celestial_first w2 -> square w1 s1 -> square w2 s2 -> w_distortion w1 = false -> w_distortion w2 = false ->
  (g1 <- grid_of w1 ;; g2 <- grid_of w2 ;; StatsUtils.common_scale g1 g2 tol) = Ok (s2 / s1).
Proof.
  intros P1 P2 T C1 C2 S1 S2 D1 D2. rewrite (square_grid w1 s1), (square_grid w2 s2) by assumption. cbn [bind].
  unfold StatsUtils.common_scale. cbn [StatsUtils.distorted StatsUtils.scale0 StatsUtils.scale1].
  rewrite !Rminus_eq_0, Rabs_R0. unfold Rltb. destruct (Rlt_dec tol 0); [lra|].
  rewrite !Rabs_right by lra. reflexivity.
Qed.

(** ** Channels *)
Lemma place_some (f : axis -> bool) l k : (exists a, nth_error l k = Some a /\ f a = true) ->
  (forall j a, nth_error l j = Some a -> f a = true -> j = k) -> place f l = Some k.
Proof.
  revert k; induction l as [|x l IH]; intros k (a & E & Fa) U; [destruct k; discriminate|]. cbn [place].
  destruct (f x) eqn:Fx.
  - f_equal. apply (U 0%nat x); auto.
  - destruct k as [|k]; [cbn in E; congruence|]. cbn in E.
    rewrite (IH k); [reflexivity|eauto|]. intros j a' Ej Fj. specialize (U (S j) a' Ej Fj). congruence.
Qed.
Lemma place_none (f : axis -> bool) l : (forall a, In a l -> f a = false) -> place f l = None.
Proof.
  induction l as [|x l IH]; intros U; [reflexivity|]. cbn [place]. rewrite U by now left. rewrite IH; [reflexivity|]. intros; apply U; now right.
Qed.
Lemma channel w k v step : get_wcs (Some w) = Ok w -> spectral_axis w k v step -> spectral_size (Some w) = Ok (step, v).
Proof.
  intros G (E & U & S). unfold spectral_size. rewrite G. cbn [bind].
  rewrite (place_some is_spectral (w_axes w) k).
  - rewrite S. now rewrite (nth_error_nth _ _ _ E).
  - exists (Spectral v); auto.
  - intros j a Ej Fj. destruct a as [| |v'|]; try discriminate. eauto.
Qed.
Lemma get_wcs_same w w' : get_wcs (Some w) = Ok w' -> w' = w.
Proof. unfold get_wcs. destruct (distorted w) as [[]|]; cbn [bind]; congruence. Qed.
Lemma no_channel w : (forall v, ~ In (Spectral v) (w_axes w)) -> exists e, spectral_size (Some w) = Err e.
Proof.
  intros N. unfold spectral_size. destruct (get_wcs (Some w)) as [w'|e] eqn:G; cbn [bind]; [|eauto].
  apply get_wcs_same in G. subst w'. rewrite place_none; [eauto|].
  intros a I. destruct a; try reflexivity. now apply N in I.
Qed.

Lemma pca_shape w k step n rest vals : get_wcs (Some w) = Ok w -> spectral_axis w k true step -> n <> 1%nat ->
  new_pca (Some w) (mk_arr (n :: rest) vals) false None = Ok n.
Proof.
  intros G S N. unfold new_pca. rewrite (channel w k true step) by assumption. cbn [bind snd negb squeeze a_shape filter].
  destruct (Nat.eqb_spec n 1); [congruence|reflexivity].
Qed.
Lemma pca_needs w a ne d n : new_pca (Some w) a ne d = Ok n -> exists step, spectral_size (Some w) = Ok (step, true) /\ ne = false.
Proof.
  unfold new_pca. destruct (spectral_size (Some w)) as [[s v]|]; cbn [bind snd]; [|discriminate].
  destruct v; cbn [negb]; [|discriminate]. destruct (a_shape (squeeze a)); [discriminate|]. destruct ne; [discriminate|]. eauto.
Qed.
Lemma pca_one_channel w k step ny nx vals : get_wcs (Some w) = Ok w -> spectral_axis w k true step -> ny <> 1%nat ->
  new_pca (Some w) (mk_arr [1%nat; ny; nx] vals) false None = Ok ny.
Proof.
  intros G S N. unfold new_pca. rewrite (channel w k true step) by assumption. cbn [bind snd negb squeeze a_shape filter Nat.eqb].
  destruct (Nat.eqb_spec ny 1); [congruence|reflexivity].
Qed.
