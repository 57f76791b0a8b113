(** Blank pixels around an image in the wavelet transform (C314). *)
From Coq Require Import Reals List Bool ZArith Arith Lra Lia Permutation.
From Verif Require Import Lib.PyBase Lib.RSum Lib.Fl Lib.Arr Spec.Blank Spec.MexHat Spec.DeltaVarFrame Model.StatsUtils Model.Psds Model.DeltaVar Model.ThreeD Model.Wavelet
  Proofs.Psds_Proofs Proofs.Wavelet_Proofs Proofs.Wavelet2_Proofs Proofs.DeltaVarFrame_Proofs.
From Verif Require Proofs.PspecFit_Proofs.
Import ListNotations.
Local Open Scope R_scope.

Lemma pixels_in k0 k1 p : In p (pixels k0 k1) <-> (fst p < k0 /\ snd p < k1)%nat.
Proof. destruct p as [y x]. unfold pixels. rewrite in_prod_iff, !in_seq. cbn. lia. Qed.
Section Framed.
  Variables (n0 n1 N0 N1 b0 b1 : nat).
  Hypotheses (H0 : (b0 + n0 <= N0)%nat) (H1 : (b1 + n1 <= N1)%nat).
  Lemma of_image_iff Y X : of_image n0 n1 b0 b1 Y X = true <-> (b0 <= Y < b0 + n0 /\ b1 <= X < b1 + n1)%nat.
  Proof. unfold of_image. rewrite !andb_true_iff, !Nat.leb_le, !Nat.ltb_lt. lia. Qed.
  Lemma plane_framed image Y X : plane N0 N1 (wavelet_data (framed n0 n1 b0 b1 (fun _ _ => NaN) image)) Y X = plane n0 n1 (wavelet_data image) (Y - Z.of_nat b0) (X - Z.of_nat b1).
  Proof.
    unfold plane. match goal with |- (if ?b then _ else _) = (if ?c then _ else _) => destruct b eqn:E, c eqn:F end; try reflexivity;
      rewrite ?andb_true_iff, ?andb_false_iff, ?Z.leb_le, ?Z.ltb_lt, ?Z.leb_gt, ?Z.ltb_ge in *; unfold wavelet_data, framed.
    - rewrite (proj2 (of_image_iff _ _)) by lia. do 3 f_equal; lia.
    - destruct (of_image n0 n1 b0 b1 (Z.to_nat Y) (Z.to_nat X)) eqn:O; [apply of_image_iff in O; lia|reflexivity].
    - lia.
  Qed.
  Lemma coef_framed image half norm an y x :
    wavelet_coef N0 N1 (wavelet_data (framed n0 n1 b0 b1 (fun _ _ => NaN) image)) half norm an (b0 + y) (b1 + x) = wavelet_coef n0 n1 (wavelet_data image) half norm an y x.
  Proof.
    unfold wavelet_coef. cbv zeta. f_equal. apply rsum_ext. intros a _. apply rsum_ext. intros b _. rewrite plane_framed. do 2 f_equal; lia.
  Qed.
  Lemma pixels_framed : Permutation (pixels N0 N1) (map (fun p => (b0 + fst p, b1 + snd p)%nat) (pixels n0 n1) ++ filter (fun p => negb (of_image n0 n1 b0 b1 (fst p) (snd p))) (pixels N0 N1)).
  Proof.
    etransitivity; [apply (filter_parts (fun p => of_image n0 n1 b0 b1 (fst p) (snd p)))|]. apply Permutation_app_tail. apply NoDup_Permutation.
    - apply NoDup_filter, NoDup_pixels.
    - apply PspecFit_Proofs.NoDup_map_in; [|apply NoDup_pixels]. intros [y x] [y' x'] _ _ E. cbn in E. injection E as E1 E2. f_equal; lia.
    - intros [Y X]. rewrite filter_In, pixels_in, in_map_iff. cbn [fst snd]. rewrite of_image_iff. split.
      + intros (_ & A & B). exists (Y - b0, X - b1)%nat. cbn [fst snd]. rewrite pixels_in. cbn [fst snd]. split; [f_equal; lia|lia].
      + intros ([y x] & E & I). apply pixels_in in I. cbn [fst snd] in *. injection E as <- <-. lia.
  Qed.
  Lemma positives_nil l : (forall c, In c l -> c <= 0) -> positives l = [].
  Proof. intros H. induction l as [|c l IH]; [reflexivity|]. cbn. destruct (Rlt_dec 0 c); [pose proof (H c (or_introl eq_refl)); lra|]. apply IH. intros d D. apply H. now right. Qed.
  Lemma mean_perm l l' : Permutation l l' -> ThreeD.np_mean l = ThreeD.np_mean l'.
  Proof.
    intros P. destruct l as [|a l]; [apply Permutation_nil in P; now subst|]. destruct l' as [|b l']; [apply Permutation_sym, Permutation_nil in P; discriminate|].
    rewrite !np_mean_rmean by discriminate. f_equal. now apply rmean_perm.
  Qed.
  Lemma value_framed image half norm an :
    (forall Y X, (Y < N0)%nat -> (X < N1)%nat -> of_image n0 n1 b0 b1 Y X = false -> wavelet_coef N0 N1 (wavelet_data (framed n0 n1 b0 b1 (fun _ _ => NaN) image)) half norm an Y X <= 0) ->
    fst (wavelet_value (map (fun p => wavelet_coef N0 N1 (wavelet_data (framed n0 n1 b0 b1 (fun _ _ => NaN) image)) half norm an (fst p) (snd p)) (pixels N0 N1)) an) =
    fst (wavelet_value (map (fun p => wavelet_coef n0 n1 (wavelet_data image) half norm an (fst p) (snd p)) (pixels n0 n1)) an).
  Proof.
    intros OUT. rewrite !wavelet_value_eq. cbn [fst]. apply mean_perm. etransitivity; [apply positives_perm, Permutation_map, pixels_framed|].
    rewrite map_app. unfold positives. rewrite filter_app. fold positives. match goal with |- Permutation (_ ++ filter ?f ?l) _ => change (filter f l) with (positives l) end. rewrite (positives_nil (map _ (filter _ _))).
    - rewrite app_nil_r, map_map. cbn [fst snd]. match goal with |- Permutation (filter _ ?l) (filter _ ?l') => replace l with l' end; [reflexivity|]. apply map_ext. intros p. symmetry. apply coef_framed.
    - intros c I. apply in_map_iff in I. destruct I as ([Y X] & <- & I). apply filter_In in I. destruct I as [I O]. apply pixels_in in I. apply negb_true_iff in O. cbn [fst snd] in *. now apply OUT.
  Qed.
  Lemma ricker_neg an v u : 0 < an -> 2 * an ^ 2 <= IZR v ^ 2 + IZR u ^ 2 -> ricker an v u <= 0.
  Proof.
    intros A D. unfold ricker. cbv zeta. set (r2 := (IZR v * IZR v + IZR u * IZR u) / (2 * an ^ 2)). assert (P : 0 < an ^ 2) by (apply pow_lt; lra).
    assert (1 <= r2). { unfold r2. apply Rmult_le_reg_r with (2 * an ^ 2); [lra|]. unfold Rdiv. rewrite Rmult_assoc, Rinv_l by lra. nra. }
    assert (0 < 1 / (PI * an ^ 4)). { apply Rdiv_lt_0_compat; [lra|]. apply Rmult_lt_0_compat; [apply PI_RGT_0|apply pow_lt; lra]. }
    pose proof (exp_pos (- r2)). assert (0 <= 1 / (PI * an ^ 4) * (r2 - 1)) by (apply Rmult_le_pos; lra). nra.
  Qed.
  Lemma rsum_nonpos n f : (forall i, (i < n)%nat -> f i <= 0) -> rsum n f <= 0.
  Proof. induction n as [|n IH]; intros H; cbn; [lra|]. pose proof (H n). pose proof (IH (fun i Hi => H i (Nat.lt_lt_succ_r _ _ Hi))). assert (n < S n)%nat by lia. intuition lra. Qed.
  Lemma coef_outside image half norm an Y X : 0 < an -> away_from_edge n0 n1 N0 N1 b0 b1 image (2 * an ^ 2) -> (Y < N0)%nat -> (X < N1)%nat -> of_image n0 n1 b0 b1 Y X = false ->
    wavelet_coef N0 N1 (wavelet_data (framed n0 n1 b0 b1 (fun _ _ => NaN) image)) half norm an Y X <= 0.
  Proof.
    intros A W HY HX O. unfold wavelet_coef. cbv zeta. assert (0 < an ^ (if norm then 2 else 4)) by (apply pow_lt; lra).
    match goal with |- ?s * _ <= 0 => assert (s <= 0); [|nra] end. apply rsum_nonpos. intros a _. apply rsum_nonpos. intros b _. rewrite plane_framed. unfold plane.
    set (v := (Z.of_nat a - Z.of_nat half)%Z). set (u := (Z.of_nat b - Z.of_nat half)%Z).
    match goal with |- _ * (if ?c then _ else _) <= 0 => destruct c eqn:E end; [|rewrite Rmult_0_r; lra].
    rewrite !andb_true_iff, !Z.leb_le, !Z.ltb_lt in E. set (y := Z.to_nat _). set (x := Z.to_nat _). unfold wavelet_data.
    destruct (W y x) as [-> | [-> | [(w & -> & P) D]]]; unfold y, x; try lia; cbn; try lra.
    assert (ricker an v u <= 0); [|nra]. apply ricker_neg; [exact A|]. eapply Rle_trans; [exact (D Y X HY HX O)|]. right. rewrite !INR_IZR_INZ, <- !minus_IZR. f_equal; [|]; f_equal; f_equal; unfold y, x; lia.
  Qed.
  Lemma transform_outside image half norm scales :
    (forall an, In an scales -> forall Y X, (Y < N0)%nat -> (X < N1)%nat -> of_image n0 n1 b0 b1 Y X = false -> wavelet_coef N0 N1 (wavelet_data (framed n0 n1 b0 b1 (fun _ _ => NaN) image)) (half an) norm an Y X <= 0) ->
    map fst (compute_transform half N0 N1 (framed n0 n1 b0 b1 (fun _ _ => NaN) image) norm scales) = map fst (compute_transform half n0 n1 image norm scales).
  Proof. intros H. unfold compute_transform. rewrite !map_map. apply map_ext_in. intros an I. apply value_framed. exact (H an I). Qed.
  Lemma transform_framed image half norm scales : (forall an, In an scales -> 0 < an /\ away_from_edge n0 n1 N0 N1 b0 b1 image (2 * an ^ 2)) ->
    map fst (compute_transform half N0 N1 (framed n0 n1 b0 b1 (fun _ _ => NaN) image) norm scales) = map fst (compute_transform half n0 n1 image norm scales).
  Proof. intros H. apply transform_outside. intros an I Y X HY HX O. destruct (H an I). now apply coef_outside. Qed.
End Framed.

(** ** One bright pixel at the edge *)
Definition corner (y x : nat) : fl := if ((y =? 0) && (x =? 3))%nat%bool then Fin 1 else Fin 0.
Definition ric (k : R) : R := 1 / (PI * 2 ^ 4) * (1 - k / 8) * exp (- (k / 8)).
Lemma ric_at v u k : IZR v * IZR v + IZR u * IZR u = k -> ricker 2 v u = ric k.
Proof. intros E. unfold ricker, ric. cbv zeta. rewrite E. replace (2 * 2 ^ 2) with 8 by ring. reflexivity. Qed.
Lemma ric_pos k : k < 8 -> 0 < ric k.
Proof.
  intros H. unfold ric. apply Rmult_lt_0_compat; [|apply exp_pos]. apply Rmult_lt_0_compat; [|lra]. apply Rdiv_lt_0_compat; [lra|]. apply Rmult_lt_0_compat; [apply PI_RGT_0|lra].
Qed.
Lemma ric_falls k l : 0 <= k -> k < l -> l < 8 -> ric l < ric k.
Proof.
  intros K L H. unfold ric. rewrite !Rmult_assoc. apply Rmult_lt_compat_l.
  - apply Rdiv_lt_0_compat; [lra|]. apply Rmult_lt_0_compat; [apply PI_RGT_0|lra].
  - assert (E : exp (- (l / 8)) < exp (- (k / 8))) by (apply exp_increasing; lra). pose proof (exp_pos (- (l / 8))). apply Rmult_gt_0_lt_compat; lra.
Qed.
(** The coefficients around the pixel, with a kernel of three by three pixels *)
Ltac decide_all := repeat match goal with |- context [if ?c then _ else _] => match type of c with bool => let v := eval vm_compute in c in change c with v; cbv iota end end.
Definition around_pixel (dy dx : Z) : R := if ((Z.abs dy <=? 1) && (Z.abs dx <=? 1))%Z%bool then ric (IZR (dy * dy + dx * dx)) else 0.
Lemma corner_coef y x : (y < 4)%nat -> (x < 5)%nat -> forall data k1, (k1 = 4 \/ k1 = 5)%nat -> (forall y x, (y < 4)%nat -> (x < k1)%nat -> wavelet_data data y x = if ((y =? 0) && (x =? 3))%nat%bool then 1 else 0) ->
  wavelet_coef 4 k1 (wavelet_data data) 1 true 2 y x = around_pixel (Z.of_nat y) (Z.of_nat x - 3) * 2 ^ 2.
Proof.
  intros HY HX data k1 K D. unfold wavelet_coef. cbv zeta. f_equal.
  assert (P : forall Y X, plane 4 k1 (wavelet_data data) Y X = if ((Y =? 0) && (X =? 3))%Z%bool then 1 else 0).
  { intros Y X. unfold plane. match goal with |- (if ?c then _ else _) = _ => destruct c eqn:E end.
    - rewrite !andb_true_iff, !Z.leb_le, !Z.ltb_lt in E. rewrite D by lia. destruct (Z.eqb_spec Y 0), (Z.eqb_spec X 3), (Nat.eqb_spec (Z.to_nat Y) 0), (Nat.eqb_spec (Z.to_nat X) 3); cbn; try reflexivity; lia.
    - rewrite !andb_false_iff, !Z.leb_gt, !Z.ltb_ge in E. destruct (Z.eqb_spec Y 0), (Z.eqb_spec X 3); cbn; try reflexivity; lia. }
  cbn [Nat.mul Nat.add rsum]. rewrite !P. clear P D.
  do 4 (destruct y as [|y]; [do 5 (destruct x as [|x]; [unfold around_pixel; decide_all;
    match goal with |- context [ricker 2 ?v ?u * 1] => transitivity (ricker 2 v u); [ring|apply ric_at; rewrite <- !mult_IZR, <- plus_IZR; apply f_equal; vm_compute; reflexivity] | _ => ring end|]); lia|]). lia.
Qed.
Lemma keep_pos (c : R) l : 0 < c -> positives (c :: l) = c :: positives l.
Proof. intros H. unfold positives. cbn. now destruct (Rlt_dec 0 c). Qed.
Lemma keep_zero l : positives (0 * 2 ^ 2 :: l) = positives l.
Proof. unfold positives. cbn [filter]. destruct (Rlt_dec 0 (0 * 2 ^ 2)); [exfalso; lra|reflexivity]. Qed.
Lemma corner_values data k1 : (k1 = 4 \/ k1 = 5)%nat -> (forall y x, (y < 4)%nat -> (x < k1)%nat -> wavelet_data data y x = if ((y =? 0) && (x =? 3))%nat%bool then 1 else 0) ->
  fst (wavelet_value (map (fun p => wavelet_coef 4 k1 (wavelet_data data) 1 true 2 (fst p) (snd p)) (pixels 4 k1)) 2) =
  Fin (if (k1 =? 4)%nat then (ric 1 + ric 0 + ric 2 + ric 1) else (ric 1 + ric 0 + ric 1 + ric 2 + ric 1 + ric 2) * 4 / 6).
Proof.
  intros K D. rewrite (map_ext_in _ (fun p => around_pixel (Z.of_nat (fst p)) (Z.of_nat (snd p) - 3) * 2 ^ 2)).
  2:{ intros [y x] I. apply pixels_in in I. cbn [fst snd] in *. apply (corner_coef y x) with (data := data) (k1 := k1); try assumption; lia. }
  rewrite wavelet_value_eq. cbn [fst]. pose proof (ric_pos 0). pose proof (ric_pos 1). pose proof (ric_pos 2).
  destruct K as [-> | ->]; unfold pixels; cbn [seq list_prod map app fst snd]; unfold around_pixel; decide_all;
    repeat (first [rewrite keep_zero | rewrite keep_pos by (apply Rmult_lt_0_compat; [apply ric_pos; apply IZR_lt; reflexivity|lra])]);
    repeat match goal with |- context [IZR (?a + ?b)] => let v := eval vm_compute in (a + b)%Z in change (IZR (a + b)) with (IZR v) end; cbn [positives filter];
    rewrite np_mean_rmean by discriminate; f_equal; unfold rmean; cbn [lsum fold_right length INR Nat.eqb]; unfold lsum; cbn [fold_right]; field.
Qed.
Lemma corner_refuted : exists image, map fst (compute_transform (fun _ => 1%nat) 4 5 (framed 4 4 0 0 (fun _ _ => NaN) image) true [2]) <> map fst (compute_transform (fun _ => 1%nat) 4 4 image true [2]).
Proof.
  exists corner. unfold compute_transform. cbn [map]. rewrite !corner_values.
  - cbn [Nat.eqb]. intros E. injection E as E. pose proof (ric_falls 0 2). lra.
  - now left.
  - intros y x _ _. unfold wavelet_data, corner. now destruct ((y =? 0) && (x =? 3))%nat%bool.
  - now right.
  - intros y x HY HX. unfold wavelet_data, framed, corner. destruct (of_image 4 4 0 0 y x) eqn:O.
    + rewrite !Nat.sub_0_r. now destruct ((y =? 0) && (x =? 3))%nat%bool.
    + destruct (Nat.eqb_spec x 3) as [->|N]; [|now rewrite andb_false_r]. assert (of_image 4 4 0 0 y 3 = true) by (unfold of_image; rewrite !andb_true_iff, !Nat.leb_le, !Nat.ltb_lt; lia). congruence.
Qed.
