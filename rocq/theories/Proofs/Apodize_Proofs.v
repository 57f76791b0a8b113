(** Proofs about the apodizing windows. *)
From Coq Require Import Reals String List ZArith Arith Lra Lia Bool.
From Verif Require Import Lib.PyBase Lib.Fl Lib.Arr Spec.Taper Model.Psds Model.Apodize Proofs.Psds_Proofs.
Import ListNotations.
Local Open Scope R_scope.

Definition taper (r_inner : R) (rt : Z) (d : R) : R :=
  if Rltb (r_inner + IZR rt) d then 0 else
  if Rltb d r_inner then 1 else
  if Z.eqb rt 0 then 1 else 1 / 2 * (1 + cos (PI * (d - r_inner) / IZR rt)).

Lemma radial_distance_centre n0 n1 i j : radial_distance n0 n1 i j = centre_dist n0 n1 i j.
Proof. unfold radial_distance, centre_dist. f_equal. unfold Rsqr. ring. Qed.

Lemma window_taper w n0 n1 i j :
  window_at w n0 n1 i j = taper (beta w * half_width n0 n1) (Int_part (alpha w * half_width n0 n1)) (centre_dist n0 n1 i j).
Proof. unfold window_at, taper. rewrite radial_distance_centre. reflexivity. Qed.

Lemma taper_range ri rt d : 0 <= taper ri rt d <= 1.
Proof.
  unfold taper. destruct (Rltb _ _); [lra|]. destruct (Rltb _ _); [lra|]. destruct (Z.eqb _ _); [lra|].
  pose proof (COS_bound (PI * (d - ri) / IZR rt)). lra.
Qed.

Lemma taper_mono ri rt d1 d2 : d1 <= d2 -> taper ri rt d2 <= taper ri rt d1.
Proof.
  intros H. pose proof (taper_range ri rt d1) as [R1 R1']. pose proof (taper_range ri rt d2) as [R2 R2'].
  unfold taper in *.
  destruct (Rltb_spec (ri + IZR rt) d2) as [A|A]; [lra|].
  destruct (Rltb_spec (ri + IZR rt) d1) as [B|B]; [lra|].
  destruct (Rltb_spec d1 ri) as [D|D]; [lra|].
  destruct (Rltb_spec d2 ri) as [E|E]; [lra|].
  destruct (Z.eqb_spec rt 0) as [Z0|Z0]; [lra|].
  assert (P : 0 <= IZR rt) by lra.
  assert (P' : 0 < IZR rt) by (destruct P as [P|P]; [exact P|]; exfalso; apply Z0; apply eq_IZR; lra).
  assert (HPI := PI_RGT_0).
  assert (Q : forall d, ri <= d <= ri + IZR rt -> 0 <= PI * (d - ri) / IZR rt <= PI).
  { intros d Hd. split.
    - apply Rmult_le_pos; [|left; now apply Rinv_0_lt_compat]. apply Rmult_le_pos; lra.
    - apply (Rmult_le_reg_r (IZR rt)); [exact P'|]. unfold Rdiv. rewrite Rmult_assoc, Rinv_l by lra.
      rewrite Rmult_1_r. apply Rmult_le_compat_l; lra. }
  destruct (Req_dec d1 d2) as [->|Hne]; [lra|].
  assert (C : cos (PI * (d2 - ri) / IZR rt) <= cos (PI * (d1 - ri) / IZR rt)); [|lra].
  apply cos_decr_1; try (apply Q; lra).
  unfold Rdiv. apply Rmult_le_compat_r; [left; now apply Rinv_0_lt_compat|]. apply Rmult_le_compat_l; lra.
Qed.

Lemma window_range w n0 n1 i j : 0 <= window_at w n0 n1 i j <= 1.
Proof. rewrite window_taper. apply taper_range. Qed.

Lemma window_mono w n0 n1 i j i' j' : centre_dist n0 n1 i j <= centre_dist n0 n1 i' j' ->
  window_at w n0 n1 i' j' <= window_at w n0 n1 i j.
Proof. intros H. rewrite !window_taper. now apply taper_mono. Qed.

Lemma window_radial w n0 n1 i j i' j' : centre_dist n0 n1 i j = centre_dist n0 n1 i' j' ->
  window_at w n0 n1 i j = window_at w n0 n1 i' j'.
Proof. intros H. now rewrite !window_taper, H. Qed.

Lemma Int_part_nonneg r : 0 <= r -> (0 <= Int_part r)%Z.
Proof.
  intros H. destruct (base_Int_part r) as [_ H2].
  assert (-1 < Int_part r)%Z; [|lia]. apply lt_IZR. change (IZR (-1)) with (-1). lra.
Qed.

Lemma half_width_nonneg n0 n1 : (0 < n0)%nat -> (0 < n1)%nat -> 0 <= half_width n0 n1.
Proof.
  intros. unfold half_width. assert (1 <= INR (Nat.min n0 n1)); [|lra].
  change 1 with (INR 1). apply le_INR. lia.
Qed.

Lemma window_inside w n0 n1 i j : (0 < n0)%nat -> (0 < n1)%nat -> 0 <= alpha w ->
  centre_dist n0 n1 i j < beta w * half_width n0 n1 -> window_at w n0 n1 i j = 1.
Proof.
  intros H0 H1 Ha Hd. rewrite window_taper. unfold taper.
  pose proof (half_width_nonneg n0 n1 H0 H1) as Hw.
  assert (P : (0 <= Int_part (alpha w * half_width n0 n1))%Z) by (apply Int_part_nonneg, Rmult_le_pos; lra).
  apply IZR_le in P.
  destruct (Rltb_spec (beta w * half_width n0 n1 + IZR (Int_part (alpha w * half_width n0 n1))) (centre_dist n0 n1 i j)); [lra|].
  destruct (Rltb_spec (centre_dist n0 n1 i j) (beta w * half_width n0 n1)); [reflexivity|lra].
Qed.

Lemma window_outside w n0 n1 i j :
  (beta w + alpha w) * half_width n0 n1 < centre_dist n0 n1 i j -> window_at w n0 n1 i j = 0.
Proof.
  intros Hd. rewrite window_taper. unfold taper.
  destruct (base_Int_part (alpha w * half_width n0 n1)) as [H _].
  destruct (Rltb_spec (beta w * half_width n0 n1 + IZR (Int_part (alpha w * half_width n0 n1))) (centre_dist n0 n1 i j)); [reflexivity|lra].
Qed.

(** Between the two radii the window is a half cosine over a whole number of
    pixels. *)
Lemma window_middle w n0 n1 i j m : IZR m <= alpha w * half_width n0 n1 < IZR m + 1 -> (1 <= m)%Z ->
  beta w * half_width n0 n1 <= centre_dist n0 n1 i j <= beta w * half_width n0 n1 + IZR m ->
  window_at w n0 n1 i j = (1 + cos (PI * (centre_dist n0 n1 i j - beta w * half_width n0 n1) / IZR m)) / 2.
Proof.
  intros Hm H1 Hd. rewrite window_taper.
  assert (E : Int_part (alpha w * half_width n0 n1) = m).
  { destruct (base_Int_part (alpha w * half_width n0 n1)) as [A B].
    assert (Int_part (alpha w * half_width n0 n1) < m + 1)%Z by (apply lt_IZR; rewrite plus_IZR; lra).
    assert (m < Int_part (alpha w * half_width n0 n1) + 1)%Z by (apply lt_IZR; rewrite plus_IZR; lra). lia. }
  rewrite E. unfold taper.
  destruct (Rltb_spec (beta w * half_width n0 n1 + IZR m) (centre_dist n0 n1 i j)); [lra|].
  destruct (Rltb_spec (centre_dist n0 n1 i j) (beta w * half_width n0 n1)); [lra|].
  destruct (Z.eqb_spec m 0); [lia|]. field.
Qed.

(** Tukey and Hanning windows are 0 from the nearest edge outwards. *)
Lemma edge_zero w n0 n1 i j : beta w + alpha w = 1 -> 1 <= alpha w * half_width n0 n1 ->
  half_width n0 n1 <= centre_dist n0 n1 i j -> window_at w n0 n1 i j = 0.
Proof.
  intros Hab H1 Hd. rewrite window_taper. unfold taper.
  destruct (base_Int_part (alpha w * half_width n0 n1)) as [A B].
  assert (P : (1 <= Int_part (alpha w * half_width n0 n1))%Z).
  { assert (0 < Int_part (alpha w * half_width n0 n1))%Z; [|lia]. apply lt_IZR. lra. }
  assert (Hb : beta w = 1 - alpha w) by lra.
  destruct (Rltb_spec (beta w * half_width n0 n1 + IZR (Int_part (alpha w * half_width n0 n1))) (centre_dist n0 n1 i j)) as [L|L]; [reflexivity|].
  assert (E1 : IZR (Int_part (alpha w * half_width n0 n1)) = alpha w * half_width n0 n1) by (rewrite Hb in L; lra).
  assert (E2 : centre_dist n0 n1 i j = half_width n0 n1) by (rewrite Hb, E1 in L; lra).
  rewrite E1, E2.
  destruct (Rltb_spec (half_width n0 n1) (beta w * half_width n0 n1)) as [M|M]; [rewrite Hb in M; lra|].
  destruct (Z.eqb_spec (Int_part (alpha w * half_width n0 n1)) 0); [lia|].
  replace (PI * (half_width n0 n1 - beta w * half_width n0 n1) / (alpha w * half_width n0 n1)) with PI
    by (rewrite Hb; field; split; intros Z; rewrite Z in H1; lra).
  rewrite cos_PI. lra.
Qed.

Lemma tukey_edge a n0 n1 i j : 1 <= a * half_width n0 n1 -> half_width n0 n1 <= centre_dist n0 n1 i j -> window_at (Tukey a) n0 n1 i j = 0.
Proof. intros H. apply edge_zero; [cbn; lra|exact H]. Qed.
Lemma hanning_edge n0 n1 i j : 1 <= half_width n0 n1 -> half_width n0 n1 <= centre_dist n0 n1 i j -> window_at Hanning n0 n1 i j = 0.
Proof. intros H. apply edge_zero; [cbn; lra|cbn; lra]. Qed.

(** With a taper thinner than a pixel the edge is not reached. *)
Lemma thin_tukey_edge n : (3 <= n)%nat -> Nat.odd n = true -> window_at (Tukey 0) n n ((n - 1) / 2) 0 = 1.
Proof.
  intros Hn Ho. apply Nat.odd_spec in Ho. destruct Ho as [k ->].
  replace ((2 * k + 1 - 1) / 2)%nat with k by (rewrite Nat.add_sub, Nat.mul_comm, Nat.div_mul; lia).
  assert (E : centre_dist (2 * k + 1) (2 * k + 1) k 0 = half_width (2 * k + 1) (2 * k + 1)).
  { unfold centre_dist, half_width. rewrite Nat.min_id, plus_INR, mult_INR. cbn [INR].
    replace (_ + _) with ((INR k)²) by (unfold Rsqr; field). rewrite sqrt_Rsqr by apply pos_INR. field. }
  rewrite window_taper, E. cbn [Tukey alpha beta]. unfold taper.
  rewrite Rmult_0_l. replace (Int_part 0) with 0%Z.
  - replace ((1 - 0) * half_width (2 * k + 1) (2 * k + 1)) with (half_width (2 * k + 1) (2 * k + 1)) by ring.
    destruct (Rltb_spec (half_width (2 * k + 1) (2 * k + 1) + 0) (half_width (2 * k + 1) (2 * k + 1))); [lra|].
    destruct (Rltb_spec (half_width (2 * k + 1) (2 * k + 1)) (half_width (2 * k + 1) (2 * k + 1))); [lra|reflexivity].
  - symmetry. unfold Int_part. rewrite <- (tech_up 0 1); [reflexivity|lra|lra].
Qed.

(** ** The kernel of a power-spectrum object *)

Definition window_of (kernel_type : string) (a b : R) : option window :=
  if String.eqb kernel_type "splitcosinebell" then Some (SplitCosineBell a b)
  else if String.eqb kernel_type "hanning" then Some Hanning
  else if String.eqb kernel_type "tukey" then Some (Tukey a)
  else if String.eqb kernel_type "cosinebell" then Some (CosineBell a) else None.

Lemma kernel_ok data centroid kt a b sh n0 n1 :
  (data = Some sh \/ (data = None /\ centroid = Some sh)) -> (sh = [n0; n1] \/ exists nv, sh = [nv; n0; n1]) ->
  apodizing_kernel data centroid kt a b =
  match window_of kt a b with Some w => Ok (tab2 n0 n1 (window_at w n0 n1)) | None => Err ValueError end.
Proof.
  intros Hs Hn. unfold apodizing_kernel, window_of.
  assert (E : forall k : list nat -> result (list (list R)), bind (match data with Some s => Ok s | None => match centroid with Some s => Ok s | None => Err AttributeError end end) k = k sh).
  { intros k. destruct Hs as [->|[-> ->]]; reflexivity. }
  rewrite E.
  assert (F : (if Nat.ltb 2 (length sh) then tl sh else sh) = [n0; n1]) by (destruct Hn as [->|[nv ->]]; reflexivity).
  cbv zeta. rewrite F.
  destruct (String.eqb kt "splitcosinebell"); [reflexivity|].
  destruct (String.eqb kt "hanning"); [reflexivity|].
  destruct (String.eqb kt "tukey"); [reflexivity|].
  destruct (String.eqb kt "cosinebell"); reflexivity.
Qed.

Lemma kernel_at data centroid kt a b sh n0 n1 K i j :
  (data = Some sh \/ (data = None /\ centroid = Some sh)) -> (sh = [n0; n1] \/ exists nv, sh = [nv; n0; n1]) ->
  apodizing_kernel data centroid kt a b = Ok K -> (i < n0)%nat -> (j < n1)%nat ->
  exists w, window_of kt a b = Some w /\ at2 0 K i j = window_at w n0 n1 i j.
Proof.
  intros Hs Hn HK Hi Hj. rewrite (kernel_ok _ _ _ _ _ _ n0 n1 Hs Hn) in HK.
  destruct (window_of kt a b) as [w|]; [|discriminate]. exists w. split; [reflexivity|].
  injection HK as <-. now apply at2_tab.
Qed.
