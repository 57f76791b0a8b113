(** Proofs about which results a Genus object has. *)
From Coq Require Import Reals List Bool ZArith Arith.
From Verif Require Import Lib.PyBase Lib.Fl Model.Units Model.StatsUtils Model.Genus Model.GenusRun.
Import ListNotations.

Definition keeps (c : call) : bool := match c with Run k => k_keep k | SetRadii _ => false end.
Lemma set_radii_images o a : g_images (fst (set_radii o a)) = g_images o.
Proof. unfold set_radii. destruct (radii_of _ _ _ _); reflexivity. Qed.
Lemma make_curve_images sm mem o k : k_keep k = false -> g_images (fst (make_curve sm mem o k)) = g_images o.
Proof.
  intros K. unfold make_curve. rewrite K. destruct (min_size_of _ _ _ _); [|reflexivity]. destruct (g_radii o); reflexivity.
Qed.
Lemma make_curve_kept sm mem o k : k_keep k = true -> g_images (fst (make_curve sm mem o k)) <> None.
Proof.
  intros K. unfold make_curve. rewrite K. destruct (min_size_of _ _ _ _); [|discriminate]. destruct (g_radii o); discriminate.
Qed.
Lemma images_call sm mem o c : g_images (fst (do_call sm mem o c)) = None <-> keeps c = false /\ g_images o = None.
Proof.
  destruct c as [k|a]; cbn [do_call keeps].
  - destruct (k_keep k) eqn:K.
    + split; [intros E; now apply make_curve_kept in E|intros []; discriminate].
    + rewrite make_curve_images by assumption. tauto.
  - rewrite set_radii_images. tauto.
Qed.
Lemma images_history sm mem h : forall o, g_images (history sm mem o h) = None <-> (forall c, In c h -> keeps c = false) /\ g_images o = None.
Proof.
  induction h as [|c h IH]; intros o; cbn [history fold_left].
  - split; [intros E; split; [intros ? []|exact E]|tauto].
  - fold (history sm mem (fst (do_call sm mem o c)) h). rewrite IH, images_call. split.
    + intros (A & B & C). split; [|exact C]. intros c' [<-|I]; auto.
    + intros (A & B). repeat split; auto; try (apply A; now left). intros c' I; apply A; now right.
Qed.
Lemma images_kept pc sm mem im st beam a o h : genus_init pc im st beam a = Ok o ->
  (smoothed_images (history sm mem o h) = Err ValueError <-> forall k, In (Run k) h -> k_keep k = false) /\
  ((exists k, In (Run k) h /\ k_keep k = true) -> exists imgs, smoothed_images (history sm mem o h) = Ok imgs).
Proof.
  intros I. assert (N : g_images o = None).
  { unfold genus_init in I. match type of I with (bind ?x _ = _) => destruct x; [|discriminate] end. cbn [bind] in I. now injection I as <-. }
  pose proof (images_history sm mem h o) as H. unfold smoothed_images. split.
  - split.
    + destruct (g_images (history sm mem o h)); [discriminate|]. intros _ k K. destruct (proj1 H eq_refl) as [A _]. exact (A _ K).
    + intros K. rewrite (proj2 H); [reflexivity|]. split; [|exact N]. intros [k|r] J; [exact (K k J)|reflexivity].
  - intros (k & K & T). destruct (g_images (history sm mem o h)); [eauto|]. destruct (proj1 H eq_refl) as [A _]. specialize (A _ K). cbn in A. congruence.
Qed.
Lemma curves_wait pc im st beam a o l sm mem : genus_init pc im st beam a = Ok o -> (forall k, ~ In (Run k) l) -> genus_stats (history sm mem o l) = Err AttributeError.
Proof.
  intros I N. assert (G : g_stats o = None).
  { unfold genus_init in I. match type of I with (bind ?x _ = _) => destruct x; [|discriminate] end. cbn [bind] in I. now injection I as <-. }
  clear I. unfold genus_stats. replace (g_stats (history sm mem o l)) with (@None (list (list fl))); [reflexivity|]. symmetry.
  revert o G. induction l as [|c l IH]; intros o G; [exact G|]. cbn [history fold_left]. apply IH.
  - intros k K. apply (N k). now right.
  - destruct c as [k|r]; [exfalso; apply (N k); now left|]. cbn [do_call]. unfold set_radii. destruct (radii_of _ _ _ _); exact G.
Qed.
