(** C314: blank pixels around an image in the wavelet transform. *)
From Coq Require Import Reals List Bool ZArith Arith Lra Lia.
From Verif Require Import Lib.PyBase Lib.RSum Lib.Fl Spec.DeltaVarFrame Model.Wavelet Proofs.WaveletFrame_Proofs.
Import ListNotations.
Local Open Scope R_scope.

(** A column of blank pixels beside an image of 4 x 4 pixels changes the value at the scale of 2 pixels. *)
Theorem C314_near_refuted : exists image,
  map fst (compute_transform (fun _ => 1%nat) 4 5 (framed 4 4 0 0 (fun _ _ => NaN) image) true [2]) <> map fst (compute_transform (fun _ => 1%nat) 4 4 image true [2]).
Proof. exact corner_refuted. Qed.
Print Assumptions C314_near_refuted.
(** The coefficients at the pixels of the image are the same in every frame. *)
Theorem C314_coefficients_partial : forall n0 n1 N0 N1 b0 b1, (b0 + n0 <= N0)%nat -> (b1 + n1 <= N1)%nat -> forall image half norm scale y x,
  wavelet_coef N0 N1 (wavelet_data (framed n0 n1 b0 b1 (fun _ _ => NaN) image)) half norm scale (b0 + y) (b1 + x) = wavelet_coef n0 n1 (wavelet_data image) half norm scale y x.
Proof. exact coef_framed. Qed.
Print Assumptions C314_coefficients_partial.
(** The values are the same if no pixel of the surroundings has a positive coefficient; ... *)
Theorem C314_value_partial : forall n0 n1 N0 N1 b0 b1, (b0 + n0 <= N0)%nat -> (b1 + n1 <= N1)%nat -> forall image half norm scales,
  (forall scale, In scale scales -> forall Y X, (Y < N0)%nat -> (X < N1)%nat -> of_image n0 n1 b0 b1 Y X = false ->
    wavelet_coef N0 N1 (wavelet_data (framed n0 n1 b0 b1 (fun _ _ => NaN) image)) (half scale) norm scale Y X <= 0) ->
  map fst (compute_transform half N0 N1 (framed n0 n1 b0 b1 (fun _ _ => NaN) image) norm scales) = map fst (compute_transform half n0 n1 image norm scales).
Proof. exact transform_outside. Qed.
Print Assumptions C314_value_partial.
(** ... so they are for an image without negative pixels whose positive ones are at least sqrt(2) times the largest scale from the surroundings. *)
Theorem C314_margin_partial : forall n0 n1 N0 N1 b0 b1, (b0 + n0 <= N0)%nat -> (b1 + n1 <= N1)%nat -> forall image half norm scales,
  (forall scale, In scale scales -> 0 < scale /\ away_from_edge n0 n1 N0 N1 b0 b1 image (2 * scale ^ 2)) ->
  map fst (compute_transform half N0 N1 (framed n0 n1 b0 b1 (fun _ _ => NaN) image) norm scales) = map fst (compute_transform half n0 n1 image norm scales).
Proof. exact transform_framed. Qed.
Print Assumptions C314_margin_partial.
(** One bright pixel in the middle of 5 x 5, in an image of 9 x 9 pixels, at the scale of 2 pixels: 8 <= 9. *)
Example C314_case : away_from_edge 5 5 9 9 2 2 (fun y x => if ((y =? 2) && (x =? 2))%nat%bool then Fin 1 else Fin 0) (2 * 2 ^ 2).
Proof.
  intros y x HY HX. destruct (Nat.eqb_spec y 2) as [->|N]; [|right; left; reflexivity]. destruct (Nat.eqb_spec x 2) as [->|N]; [|right; left; reflexivity].
  right. right. split; [exists 1; split; [reflexivity|lra]|]. intros Y X _ _ O. change (2 + 2)%nat with 4%nat.
  assert (E : (Y <= 1 \/ 7 <= Y \/ X <= 1 \/ 7 <= X)%nat).
  { unfold of_image in O. rewrite !andb_false_iff, !Nat.leb_gt, !Nat.ltb_ge in O. lia. }
  assert (S : forall n, (n <= 1 \/ 7 <= n)%nat -> 9 <= (INR n - INR 4) ^ 2).
  { intros n H. change (INR 4) with (1 + 1 + 1 + 1). destruct H as [H|H]; apply le_INR in H; cbn [INR] in H; nra. }
  pose proof (pow2_ge_0 (INR Y - INR 4)). pose proof (pow2_ge_0 (INR X - INR 4)).
  destruct E as [E|[E|[E|E]]]; [pose proof (S Y (or_introl E))|pose proof (S Y (or_intror E))|pose proof (S X (or_introl E))|pose proof (S X (or_intror E))]; lra.
Qed.
