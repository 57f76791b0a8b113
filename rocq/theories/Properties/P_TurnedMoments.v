(** C308: moments of pictures seen from another side. *)
From Coq Require Import Reals List Bool ZArith Arith Lra Lia.
From Verif Require Import Lib.PyBase Lib.Fl Spec.Turned Spec.TurnedMoments Spec.Distrib Model.Units Model.StatsUtils Model.StatMoments Model.MomentsRun Spec.MomentsRun Proofs.MomentsRun_Proofs Proofs.MomentsRun2_Proofs Proofs.MomentsRun3_Proofs Proofs.TurnedMoments_Proofs.
Import ListNotations.
Local Open Scope R_scope.

(** One run of a new object, with any options: from another side the maps are seen from that side, and the exception, the
    moments of the whole picture and the four histograms are the same. *)
Theorem C308_run : forall memory memory' v p w q nb radius per mf b,
  match moments_init p w q nb, moments_init (seen_picture v p) (seen_weights v p w) q nb with
  | Ok o, Ok o' => same_moments v p (moments_run memory' o' radius per mf b) (moments_run memory o radius per mf b)
  | Err e, Err e' => e = e'
  | _, _ => False
  end.
Proof. exact seen_run. Qed.
Print Assumptions C308_run.
(** The distance of two pictures is the same from whatever side each of them is seen. *)
Theorem C308_distance : forall memory memory' tol v1 v2 p1 p2 w1 w2 a nbins, readable p1 -> readable p2 -> weighted p1 w1 -> weighted p2 w2 ->
  moments_distance memory' tol (Data (seen_picture v1 p1) (seen_weights v1 p1 w1)) (Data (seen_picture v2 p2) (seen_weights v2 p2 w2)) a nbins =
  moments_distance memory tol (Data p1 w1) (Data p2 w2) a nbins.
Proof. exact distance_seen. Qed.
Print Assumptions C308_distance.
(** A 4 x 4 picture that is brighter from pixel to pixel: an object is made, and from every side it looks different. *)
Definition brighter : picture := mk_picture 4 4 (fun y x => Fin (INR (4 * y + x))) (mk_stat None None) {| distorted := false; scale0 := 1; scale1 := 1 |}.
Example C308_case : (exists o, moments_init brighter None two_pix (Some 1%nat) = Ok o) /\ readable brighter /\ weighted brighter None /\
  forall v, exists y x, (y < 4)%nat /\ (x < 4)%nat /\ pic_data (seen_picture v brighter) y x <> pic_data brighter y x.
Proof.
  split; [|split; [|split; [exact I|]]].
  - unfold moments_init. destruct (set_acceptable brighter two_pix) as [[E _]|[_ A]]; [rewrite E; eexists; reflexivity|]. change (acceptable brighter two_pix) with (acceptable plain two_pix) in A. unfold two_pix in A. rewrite plain_accept in A by lra. discriminate.
  - intros i j _ _. exact I.
  - intros v. exists 0%nat, 1%nat. split; [lia|]. split; [lia|]. intros K. assert (H : forall a b, Fin (INR a) = Fin (INR b) -> a = b) by (intros a b E; inversion E as [E']; now apply INR_eq in E').
    destruct v; cbn [seen_picture pic_data seen brighter pic_n0 pic_n1] in K; unfold left_right, up_down, axes_swapped, quarter_turn in K; apply H in K; lia.
Qed.
