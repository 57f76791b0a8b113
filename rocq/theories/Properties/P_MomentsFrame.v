(** C317: what blank surroundings do to the moments of an image. *)
From Coq Require Import Reals List Bool ZArith Arith Lra Lia Permutation.
From Verif Require Import Lib.PyBase Lib.Fl Lib.Hist Spec.MomentsFrame Model.Units Model.StatMoments Proofs.MomentsFrame_Proofs.
Import ListNotations.
Local Open Scope R_scope.

(** Without weights the blank pixels have weight one: the moments of the whole image depend on how many
    blanks surround it. *)
Theorem C317_default_refuted : ~ (forall n0 n1 N0 N1 o0 o1 data, (o0 + n0 <= N0)%nat -> (o1 + n1 <= N1)%nat ->
  array_moments N0 N1 (placed n0 n1 o0 o1 data) None = array_moments n0 n1 data None).
Proof. exact frame_default_refuted. Qed.
Print Assumptions C317_default_refuted.
(** With weights that are blank on the surroundings too, the moments of the whole image are its own. *)
Theorem C317_whole_partial : forall n0 n1 N0 N1 o0 o1 data weights, (o0 + n0 <= N0)%nat -> (o1 + n1 <= N1)%nat ->
  array_moments N0 N1 (placed n0 n1 o0 o1 data) (Some (placed n0 n1 o0 o1 weights)) = array_moments n0 n1 data (Some weights).
Proof. exact frame_whole. Qed.
Print Assumptions C317_whole_partial.
(** So are the local moments at each of its pixels, whether boundaries wrap or not; an image whose
    surroundings are as wide as the radius gets, with wrapping, what it gets alone without. *)
Theorem C317_map_partial : forall p n0 n1 N0 N1 o0 o1 r min_frac data weights y x,
  apart p n0 N0 o0 r -> apart p n1 N1 o1 r -> (y < n0)%nat -> (x < n1)%nat ->
  local_moments N0 N1 r p min_frac (placed n0 n1 o0 o1 data) (placed n0 n1 o0 o1 weights) (o0 + y) (o1 + x) = local_moments n0 n1 r false min_frac data weights y x.
Proof. exact frame_moments. Qed.
Print Assumptions C317_map_partial.
(** Where half of a window or more must be valid, as in run, no pixel of the surroundings gets moments,
    whatever the weights. *)
Theorem C317_outside_partial : forall n0 n1 N0 N1 o0 o1 r min_frac data weights Y X, 1 / 2 <= min_frac ->
  ~ ((o0 <= Y < o0 + n0)%nat /\ (o1 <= X < o1 + n1)%nat) ->
  local_moments N0 N1 r false min_frac (placed n0 n1 o0 o1 data) weights Y X = (NaN, NaN, NaN, NaN).
Proof. exact frame_outside. Qed.
Print Assumptions C317_outside_partial.
(** So each of the four maps holds the same values, *)
Theorem C317_values_partial : forall k n0 n1 N0 N1 o0 o1 r min_frac data weights, (o0 + n0 <= N0)%nat -> (o1 + n1 <= N1)%nat -> 1 / 2 <= min_frac ->
  Permutation (nonnan (flat N0 N1 (fun y x => moment k (local_moments N0 N1 r false min_frac (placed n0 n1 o0 o1 data) (placed n0 n1 o0 o1 weights) y x))))
    (nonnan (flat n0 n1 (fun y x => moment k (local_moments n0 n1 r false min_frac data weights y x)))).
Proof. exact frame_map_values. Qed.
Print Assumptions C317_values_partial.
(** and with the same bins its histogram is the same. *)
Theorem C317_histograms_partial : forall k n0 n1 N0 N1 o0 o1 r min_frac data weights bins nbins, (o0 + n0 <= N0)%nat -> (o1 + n1 <= N1)%nat -> 1 / 2 <= min_frac ->
  spatial_histogram (flat N0 N1 (fun y x => moment k (local_moments N0 N1 r false min_frac (placed n0 n1 o0 o1 data) (placed n0 n1 o0 o1 weights) y x))) bins nbins =
  spatial_histogram (flat n0 n1 (fun y x => moment k (local_moments n0 n1 r false min_frac data weights y x))) bins nbins.
Proof. exact frame_histograms. Qed.
Print Assumptions C317_histograms_partial.
(** 8 x 8 pixels in 12 x 13 ones, radius 4: wrapping boundaries are far enough apart; the share that run
    requires is more than a half, and there are pixels on either side of the edge. *)
Example C317_case : apart true 8 12 1 4 /\ apart true 8 13 5 4 /\ 1 / 2 <= 8 / 10 /\ ~ ((1 <= 0 < 1 + 8)%nat /\ (5 <= 6 < 5 + 8)%nat) /\
  map (placed 8 8 1 5 (fun i j => Fin (INR (i + 2 * j))) 2) [4; 5; 7]%nat = [NaN; Fin (INR 1); Fin (INR 5)].
Proof. unfold apart. repeat split; try lia; try lra. Qed.
