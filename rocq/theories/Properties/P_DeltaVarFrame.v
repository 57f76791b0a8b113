(** C313: blank pixels around an image in the delta variance. *)
From Coq Require Import Reals List Bool ZArith Arith Lra Lia.
From Verif Require Import Lib.PyBase Lib.RSum Lib.Fl Spec.Turned Spec.TurnedDeltaVar Spec.DeltaVarFrame Model.DeltaVar Proofs.DeltaVarFrame_Proofs.
Import ListNotations.
Local Open Scope R_scope.

(** One pixel without weight beside an image of two pixels is enough to change the result, whatever its value. *)
Theorem C313_near_refuted : forall v, exists core annulus image, even_kernel core /\ even_kernel annulus /\
  deltavar_lag (on_grid 3 core) (on_grid 3 annulus) (row_by_row 1 3 (framed 1 2 0 0 (fun _ _ => Fin v) image)) (row_by_row 1 3 (framed 1 2 0 0 (fun _ _ => 0) (fun _ _ => 1))) 1 (/ 100) false 1 <>
  deltavar_lag (on_grid 2 core) (on_grid 2 annulus) (row_by_row 1 2 image) (row_by_row 1 2 (fun _ _ => 1)) 1 (/ 100) false 1.
Proof. intros v. exists near_core, near_annulus, pair_image. exact (near_frame_refuted v). Qed.
Print Assumptions C313_near_refuted.
(** Where a kernel collects no more weight than the cutoff outside the image, what surrounds the image (without weight) has no effect,
    whatever its values and however wide it is. *)
Theorem C313_far_partial : forall n0 n1 N0 N1 b0 b1, (b0 + n0 <= N0)%nat -> (b1 + n1 <= N1)%nat ->
  forall core annulus around image weights wmax min_weight_frac preserve_nan lag,
  (forall Y X, (Y < N0)%nat -> (X < N1)%nat -> of_image n0 n1 b0 b1 Y X = false ->
    collected n0 n1 b0 b1 core weights Y X <= min_weight_frac * wmax \/ collected n0 n1 b0 b1 annulus weights Y X <= min_weight_frac * wmax) ->
  deltavar_lag (on_grid N1 core) (on_grid N1 annulus) (row_by_row N0 N1 (framed n0 n1 b0 b1 around image)) (row_by_row N0 N1 (framed n0 n1 b0 b1 (fun _ _ => 0) weights)) wmax min_weight_frac preserve_nan lag =
  deltavar_lag (on_grid n1 core) (on_grid n1 annulus) (row_by_row n0 n1 image) (row_by_row n0 n1 weights) wmax min_weight_frac preserve_nan lag.
Proof. exact deltavar_framed. Qed.
Print Assumptions C313_far_partial.
(** A 1 x 2 image in a 3 x 4 one; with a cutoff of all the weight of a pixel, the annulus of two neighbours collects no more outside. *)
Example C313_case : row_by_row 3 4 (framed 1 2 1 1 (fun _ _ => 9%nat) (fun _ x => S x)) = [9; 9; 9; 9; 9; 1; 2; 9; 9; 9; 9; 9]%nat /\
  (forall Y X, (Y < 3)%nat -> (X < 4)%nat -> of_image 1 2 1 1 Y X = false -> collected 1 2 1 1 near_annulus (fun _ _ => 1) Y X <= 1 * 1).
Proof.
  split; [reflexivity|]. intros Y X HY HX O. unfold collected. cbn [rsum].
  do 3 (destruct Y as [|Y]; [do 4 (destruct X as [|X]; [first [discriminate O | unfold near_annulus; cbn; lra]|]); lia|]). lia.
Qed.
