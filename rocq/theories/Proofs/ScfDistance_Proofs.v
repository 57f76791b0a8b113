(** Proofs about Model/ScfDistance.v. *)
From Coq Require Import Reals List Arith Bool.
From Verif Require Import Lib.PyBase Model.DeltaVar Model.ScfDistance Proofs.DeltaVar2_Proofs.
Import ListNotations.

Lemma lags_eqb_refl l : lags_eqb l l = true. Proof. now apply lags_eqb_spec. Qed.

Lemma scf_cubes default : scf_distance_lags default Cube Cube = Ok (default, default).
Proof. unfold scf_distance_lags, common_roll_lags. cbn [bind]. rewrite Nat.eqb_refl, lags_eqb_refl. reflexivity. Qed.

Lemma scf_cube_object default l : length l = length default -> scf_distance_lags default Cube (ScfObject l) = Ok (default, default).
Proof.
  intros E. unfold scf_distance_lags, common_roll_lags. cbn [bind]. rewrite Nat.eqb_refl, lags_eqb_refl. cbn [negb bind fst snd surface_lags].
  rewrite E, Nat.eqb_refl. cbn [negb]. destruct (lags_eqb default l) eqn:Q; [|reflexivity]. apply lags_eqb_spec in Q. now subst.
Qed.

Lemma scf_cube_object_other default l : length l <> length default -> scf_distance_lags default Cube (ScfObject l) = Ok (default, l).
Proof.
  intros E. unfold scf_distance_lags, common_roll_lags. cbn [bind]. rewrite Nat.eqb_refl, lags_eqb_refl. cbn [negb bind fst snd surface_lags].
  destruct (Nat.eqb_spec (length default) (length l)); [congruence|reflexivity].
Qed.

Lemma scf_object_cube default l : scf_distance_lags default (ScfObject l) Cube = Err AttributeError.
Proof. reflexivity. Qed.

Lemma scf_objects default l1 l2 : (l1 = l2 -> scf_distance_lags default (ScfObject l1) (ScfObject l2) = Ok (l1, l1)) /\
  (l1 <> l2 -> is_ok (scf_distance_lags default (ScfObject l1) (ScfObject l2)) = false).
Proof.
  split.
  - intros <-. unfold scf_distance_lags, common_roll_lags. cbn [bind]. rewrite Nat.eqb_refl, lags_eqb_refl. cbn [negb bind fst snd surface_lags].
    now rewrite Nat.eqb_refl, lags_eqb_refl.
  - intros N. unfold scf_distance_lags, common_roll_lags. cbn [bind]. destruct (Nat.eqb (length l1) (length l2)); [|reflexivity]. cbn [negb].
    destruct (lags_eqb l1 l2) eqn:E; [apply lags_eqb_spec in E; contradiction|reflexivity].
Qed.
