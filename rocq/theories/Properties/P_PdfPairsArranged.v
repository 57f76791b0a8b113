(** C327: to the distances of two PDFs only the valid pixels matter, not where they are. *)
From Coq Require Import String Reals List Bool ZArith Arith Lra Lia Permutation.
From Verif Require Import Lib.PyBase Lib.Fl Spec.MomentsFrame Spec.Turned Spec.PdfArranged Spec.PdfPairs Spec.PdfPairsArranged Model.Pdf Model.PdfDistance Proofs.PdfPairsArranged_Proofs.
From Verif Require Model.StatMoments Proofs.PdfDistance4_Proofs.
Import ListNotations.
Local Open Scope R_scope.

(** Images with the same valid pixels have the same distances (or are refused both times), where the fit is
    one of the values and not of their order. *)
Theorem C327_distances : forall fit_lognorm img1 img2 img1' img2' w1 w2 w1' w2' o st,
  (po_do_fit o = true -> forall l l', Permutation l l' -> fit_lognorm l' = fit_lognorm l) ->
  same_pixels img1 w1 img1' w1' -> same_pixels img2 w2 img2' w2' ->
  forall r, distances fit_lognorm img1 img2 (with_weights o w1 w2) st = Ok r <-> distances fit_lognorm img1' img2' (with_weights o w1' w2') st = Ok r.
Proof. exact arranged. Qed.
Print Assumptions C327_distances.
(** Two images with the same valid pixels are at the distance 0. *)
Theorem C327_zero : forall fit_lognorm img img' o st r,
  (po_do_fit o = true -> forall l l', Permutation l l' -> fit_lognorm l' = fit_lognorm l) ->
  (forall d f, fit_lognorm d = Ok f -> exists p e, f = (Fin p, Fin e) /\ e <> 0) ->
  po_min1 o = po_min2 o -> same_pixels img (po_weights1 o) img' (po_weights2 o) ->
  distances fit_lognorm img img' o st = Ok r ->
  (forall v, out_hellinger r = Some v -> v = Fin 0) /\ (forall v, out_ks r = Some v -> v = 0) /\ (forall v, out_lognormal r = Some v -> v = Fin 0).
Proof. exact arranged_zero. Qed.
Print Assumptions C327_zero.
(** An image has the same valid pixels in blank surroundings, ... *)
Theorem C327_surroundings : forall n0 n1 N0 N1 o0 o1 data, (o0 + n0 <= N0)%nat -> (o1 + n1 <= N1)%nat ->
  same_pixels (StatMoments.flat N0 N1 (placed n0 n1 o0 o1 data)) None (StatMoments.flat n0 n1 data) None.
Proof. exact surroundings_pixels. Qed.
Print Assumptions C327_surroundings.
(** ... whatever the weights of the blank pixels are, ... *)
Theorem C327_surroundings_weighted : forall n0 n1 N0 N1 o0 o1 data w W, (o0 + n0 <= N0)%nat -> (o1 + n1 <= N1)%nat ->
  (forall y x, (y < n0)%nat -> (x < n1)%nat -> W (o0 + y)%nat (o1 + x)%nat = w y x) ->
  same_pixels (StatMoments.flat N0 N1 (placed n0 n1 o0 o1 data)) (Some (StatMoments.flat N0 N1 W)) (StatMoments.flat n0 n1 data) (Some (StatMoments.flat n0 n1 w)).
Proof. exact surroundings_weighted. Qed.
Print Assumptions C327_surroundings_weighted.
(** ... and seen from another side, with its weights. *)
Theorem C327_orientation : forall v n0 n1 (data : nat -> nat -> fl),
  same_pixels (StatMoments.flat (rows_seen v n0 n1) (columns_seen v n0 n1) (seen v n0 n1 data)) None (StatMoments.flat n0 n1 data) None.
Proof. exact orientation_pixels. Qed.
Print Assumptions C327_orientation.
Theorem C327_orientation_weighted : forall v n0 n1 (data w : nat -> nat -> fl),
  same_pixels (StatMoments.flat (rows_seen v n0 n1) (columns_seen v n0 n1) (seen v n0 n1 data)) (Some (StatMoments.flat (rows_seen v n0 n1) (columns_seen v n0 n1) (seen v n0 n1 w)))
    (StatMoments.flat n0 n1 data) (Some (StatMoments.flat n0 n1 w)).
Proof. exact orientation_weighted. Qed.
Print Assumptions C327_orientation_weighted.
Example C327_case : same_pixels [NaN; Fin 2; Fin 1] None [Fin 1; Fin 2; PInf; NaN] None /\
  same_pixels [Fin 1; Fin 2; Fin 5] (Some [Fin 3; Fin 4; NaN]) [NaN; Fin 2; Fin 1] (Some [Fin 7; Fin 4; Fin 3]) /\
  (forall d f, (fun d : list fl => Ok (Fin (INR (length d)), Fin 1)) d = Ok f -> exists p e, f = (Fin p, Fin e) /\ e <> 0) /\
  (forall l l' : list fl, Permutation l l' -> Ok (Fin (INR (length l')), Fin 1) = Ok (Fin (INR (length l)), Fin 1)) /\
  exists r, distances (fun d => Ok (Fin (INR (length d)), Fin 1)) (map Fin [1; 2; 3; 4]) (map Fin [2; 4; 1; 3]) plain (mk_str "all" true) = Ok r.
Proof.
  split; [apply perm_swap|]. split; [split; [reflexivity|split; [reflexivity|apply perm_swap]]|].
  split; [intros d f H; injection H as <-; exists (INR (length d)), 1; split; [reflexivity|lra]|].
  split; [intros l l' P; now rewrite (Permutation_length P)|].
  destruct (PdfDistance4_Proofs.dist_defined (fun d => Ok (Fin (INR (length d)), Fin 1)) (map Fin [1; 2; 3; 4]) (map Fin [2; 4; 1; 3]) plain [1; 2; 3; 4] [2; 4; 1; 3] 1 2) as (h & k & E & _); try reflexivity; try discriminate.
  - split; reflexivity.
  - cbn. tauto.
  - cbn. tauto.
  - lra.
  - cbn. lia.
  - eauto.
Qed.
