(** C311: masks of cubes. *)
From Coq Require Import Reals List Bool Arith Lra Lia.
From Verif Require Import Lib.PyBase Lib.RSum Lib.Fl Spec.Masking Model.Masking Proofs.Masking_Proofs.
Import ListNotations.
Local Open Scope R_scope.

(** The module does not define the name the function asks for first. *)
Theorem C311_masking_refuted : forall nz ny nx noise data kernel_size clip dilations, moment_masking nz ny nx signal_id_flag noise data kernel_size clip dilations = Err NameError.
Proof. exact (fun _ _ _ _ _ _ _ _ => eq_refl). Qed.
Print Assumptions C311_masking_refuted.
(** Where it is defined: the voxels no further than the given number of dilations from one whose smoothed value is above clip times
    the noise; with 0 dilations, every voxel as soon as there is one. *)
Theorem C311_mask_partial : forall nz ny nx noise data kernel_size clip dilations, (0 < kernel_size)%nat ->
  exists mask, moment_masking nz ny nx (Some true) noise data kernel_size clip dilations = Ok mask /\
  forall p, in_cube nz ny nx p -> at_voxel mask p = true <->
    exists q, in_cube nz ny nx q /\ (dilations = 0%nat \/ within dilations p q) /\
      fltb (Fin (clip * noise (smooth nz ny nx data kernel_size))) (at_voxel (smooth nz ny nx data kernel_size) q) = true.
Proof. exact (fun nz ny nx noise data size clip d _ => masking_iff nz ny nx noise data size clip d). Qed.
Print Assumptions C311_mask_partial.
(** A voxel is only in the mask if one of the cube itself is above the threshold no further away than kernel_size and the dilations
    together. *)
Theorem C311_signal_partial : forall nz ny nx noise data kernel_size clip dilations mask p, (0 < kernel_size)%nat ->
  (forall q, in_cube nz ny nx q -> at_voxel data q <> PInf) ->
  moment_masking nz ny nx (Some true) noise data kernel_size clip (S dilations) = Ok mask ->
  let threshold := clip * noise (smooth nz ny nx data kernel_size) in 0 <= threshold ->
  in_cube nz ny nx p -> at_voxel mask p = true ->
  exists q v, in_cube nz ny nx q /\ within (kernel_size + S dilations) p q /\ at_voxel data q = Fin v /\ threshold < v.
Proof. exact (fun nz ny nx noise data size clip d mask p _ => masking_far nz ny nx noise data size clip d mask p). Qed.
Print Assumptions C311_signal_partial.

(** and it is in the mask whenever all voxels no further than kernel_size from one within the dilations (and the kernel around that
    one inside the cube) are above the threshold. *)
Theorem C311_bright_partial : forall nz ny nx noise data kernel_size clip dilations mask z y x p, (0 < kernel_size)%nat ->
  moment_masking nz ny nx (Some true) noise data kernel_size clip dilations = Ok mask ->
  let threshold := clip * noise (smooth nz ny nx data kernel_size) in
  (kernel_size <= z)%nat -> (z + kernel_size < nz)%nat -> (kernel_size <= y)%nat -> (y + kernel_size < ny)%nat -> (kernel_size <= x)%nat -> (x + kernel_size < nx)%nat ->
  (forall q, in_cube nz ny nx q -> within kernel_size (z, y, x) q -> exists v, at_voxel data q = Fin v /\ threshold < v) ->
  in_cube nz ny nx p -> within dilations p (z, y, x) -> at_voxel mask p = true.
Proof. exact (fun nz ny nx noise data size clip d mask z y x p _ => masking_bright nz ny nx noise data size clip d mask z y x p). Qed.
Print Assumptions C311_bright_partial.

(** A cube of one channel and one row: a single bright voxel in the third column of nine; noise 0; with a
    kernel of size 1 and one dilation column 7 is too far away to be in the mask. *)
Definition bright : nat -> nat -> nat -> fl := fun _ _ x => if Nat.eqb x 2 then Fin 1 else Fin 0.
Example C311_case : (forall q, in_cube 1 1 9 q -> at_voxel bright q <> PInf) /\
  exists mask, moment_masking 1 1 9 (Some true) (fun _ => 0) bright 1 5 1 = Ok mask /\ 0 <= 5 * 0 /\ mask 0%nat 0%nat 7%nat = false.
Proof.
  assert (F : forall q, in_cube 1 1 9 q -> at_voxel bright q <> PInf) by (intros [[z y] x] _; cbn; unfold bright; destruct (Nat.eqb x 2); discriminate).
  split; [exact F|]. destruct (C311_mask_partial 1 1 9 (fun _ => 0) bright 1 5 1 ltac:(lia)) as (mask & E & _). exists mask. split; [exact E|]. split; [lra|].
  destruct (mask 0%nat 0%nat 7%nat) eqn:M; [exfalso|reflexivity].
  destruct (C311_signal_partial 1 1 9 (fun _ => 0) bright 1 5 0 mask (0, 0, 7)%nat ltac:(lia) F E ltac:(cbn; lra) ltac:(cbn; lia) M) as ([[z y] x] & v & _ & W & D & L).
  cbn in W, D. unfold bright in D. destruct (Nat.eqb_spec x 2); [lia|]. injection D as <-. lra.
Qed.
(** A cube of ones, 3 voxels along each axis: with a threshold of 0 and one dilation all of it is in the mask. *)
Example C311_bright_case : exists mask, moment_masking 3 3 3 (Some true) (fun _ => 0) (fun _ _ _ => Fin 1) 1 5 1 = Ok mask /\ mask 0%nat 2%nat 1%nat = true.
Proof.
  destruct (C311_mask_partial 3 3 3 (fun _ => 0) (fun _ _ _ => Fin 1) 1 5 1 ltac:(lia)) as (mask & E & _). exists mask. split; [exact E|].
  apply (C311_bright_partial 3 3 3 (fun _ => 0) (fun _ _ _ => Fin 1) 1 5 1 mask 1 1 1 (0, 2, 1)%nat ltac:(lia) E); try lia; [|cbn; lia|cbn; lia].
  intros [[a b] c] _ _. exists 1. split; [reflexivity|lra].
Qed.
