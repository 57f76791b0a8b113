(** C318: what blank surroundings do to the velocity coordinate spectrum of a cube. *)
From Coq Require Import Reals List Bool ZArith Arith Lra Lia.
From Verif Require Import Lib.PyBase Lib.Fl Model.Psds Spec.Cube Spec.MomentsFrame Spec.VcsFrame Proofs.VcsFrame_Proofs.
Import ListNotations.
Local Open Scope R_scope.

(** The spectrum is not that of the cube alone, *)
Theorem C318_blank_refuted : ~ (forall nz n0 n1 N0 N1 o0 o1 cube, (1 <= nz)%nat -> (1 <= n0)%nat -> (1 <= n1)%nat -> (o0 + n0 <= N0)%nat -> (o1 + n1 <= N1)%nat ->
  emission nz n0 n1 cube -> vcs_ps1D nz N0 N1 (in_field n0 n1 o0 o1 cube) = vcs_ps1D nz n0 n1 cube).
Proof. exact field_refuted. Qed.
Print Assumptions C318_blank_refuted.
(** but at every frequency as many times as large as the field is, wherever the cube lies in it. *)
Theorem C318_factor_partial : forall nz n0 n1 N0 N1 o0 o1 cube k, (1 <= nz)%nat -> (1 <= n0)%nat -> (1 <= n1)%nat -> (o0 + n0 <= N0)%nat -> (o1 + n1 <= N1)%nat -> (k < nz)%nat ->
  has_blank nz n0 n1 cube \/ emission nz n0 n1 cube ->
  nth k (vcs_ps1D nz N0 N1 (in_field n0 n1 o0 o1 cube)) NaN = fmul (Fin (larger n0 n1 N0 N1)) (nth k (vcs_ps1D nz n0 n1 cube) NaN).
Proof. exact field_factor. Qed.
Print Assumptions C318_factor_partial.
(** So the shape of the spectrum, on which the fitted slopes rest, is that of the cube alone. *)
Theorem C318_shape_partial : forall nz n0 n1 N0 N1 o0 o1 cube j k a b a' b', (1 <= nz)%nat -> (1 <= n0)%nat -> (1 <= n1)%nat -> (o0 + n0 <= N0)%nat -> (o1 + n1 <= N1)%nat -> (j < nz)%nat -> (k < nz)%nat ->
  has_blank nz n0 n1 cube \/ emission nz n0 n1 cube ->
  nth j (vcs_ps1D nz n0 n1 cube) NaN = Fin a -> nth k (vcs_ps1D nz n0 n1 cube) NaN = Fin b ->
  nth j (vcs_ps1D nz N0 N1 (in_field n0 n1 o0 o1 cube)) NaN = Fin a' -> nth k (vcs_ps1D nz N0 N1 (in_field n0 n1 o0 o1 cube)) NaN = Fin b' ->
  0 < a -> 0 < b -> ln a' - ln b' = ln a - ln b.
Proof. exact field_shape. Qed.
Print Assumptions C318_shape_partial.
(** Two channels of 2 x 2 pixels, one of them blank, in a field of 4 x 6 pixels; and a cube without blanks *)
Example C318_case : has_blank 2 2 2 (fun z y x => if (z + y + x =? 0)%nat then NaN else Fin (INR z - INR y)) /\
  emission 2 2 2 (fun z y x => Fin (INR (1 + z))) /\ larger 2 2 4 6 = 6 /\
  in_field 2 2 1 3 (fun z y x => Fin (INR (1 + z))) 1 2 4 = Fin 2 /\ in_field 2 2 1 3 (fun z y x => Fin (INR (1 + z))) 1 3 4 = NaN.
Proof.
  split; [exists 0%nat, 0%nat, 0%nat; repeat split; lia|]. split; [intros y x _ _; exists 0%nat, 1; repeat split; [lia|lra]|].
  split; [unfold larger; cbn [Nat.mul Nat.add INR]; lra|]. split; [cbn; f_equal; lra|reflexivity].
Qed.
