(** C321: orientation and blank surroundings of an image in Genus without smoothing. *)
From Coq Require Import Reals List Bool ZArith Arith Lra Lia Permutation.
From Verif Require Import Lib.PyBase Lib.Fl Spec.Regions Spec.MomentsFrame Spec.Turned Spec.GenusRun Spec.GenusFrame Model.Units Model.Genus Model.GenusRun Proofs.GenusFrame_Proofs.
Import ListNotations.
Local Open Scope R_scope.

(** An image in a blank field of any size, mirrored, transposed or turned, any number of times, is
    accepted as the image itself is, and after any runs and assignments the thresholds, the genus
    curves, the means and the standard deviations are the same; so is the exception of the next call. *)
Theorem C321_object : forall pc sm mem im im' st beam a o h c, placeless pc -> readable im -> same_picture im im' -> a_smoothing a = false -> genus_init pc im st beam a = Ok o ->
  exists o', genus_init pc im' st beam a = Ok o' /\ g_thresholds (history sm mem o' h) = g_thresholds (history sm mem o h) /\
    results (history sm mem o' h) = results (history sm mem o h) /\ snd (do_call sm mem (history sm mem o' h) c) = snd (do_call sm mem (history sm mem o h) c).
Proof. exact object_same. Qed.
Print Assumptions C321_object.
(** At one threshold, blank too, and for one step, whatever the values in the image *)
Theorem C321_threshold : forall im im' t rm m c, shows im im' -> number_or_nan t ->
  genus_at (i_n0 im') (i_n1 im') (i_pix im') t rm m c = genus_at (i_n0 im) (i_n1 im) (i_pix im) t rm m c.
Proof. exact shows_genus. Qed.
Print Assumptions C321_threshold.
Example C321_case : readable four /\ same_picture four (in_field 7 9 3 2 (turned QuarterTurn (in_field 3 4 1 0 four))) /\ placeless (fun l _ => nanmean l) /\
  (exists o, genus_init (fun l _ => nanmean l) four (mk_stat None None) None (mk_ga None None 10 100 20 None false None) = Ok o).
Proof. repeat split; [exact four_readable|exact four_picture|intros l l' q P; now apply mean_same|eexists; reflexivity]. Qed.
