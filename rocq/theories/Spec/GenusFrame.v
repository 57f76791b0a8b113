(** Vocabulary for Genus objects of images seen from another side or with blank surroundings (C321). *)
From Coq Require Import Reals List Arith Permutation Relation_Operators.
From Verif Require Import Lib.PyBase Lib.Fl Spec.Regions Spec.MomentsFrame Spec.Turned Model.GenusRun.
Import ListNotations.
Local Open Scope R_scope.

Definition rows_of (im : image) : nat -> nat -> fl := fun y x => i_pix im (y, x).
(** The image in a field of N0 x N1 pixels that are blank around it, from pixel (o0, o1) on *)
Definition in_field (N0 N1 o0 o1 : nat) (im : image) : image :=
  mk_im N0 N1 (fun p => placed (i_n0 im) (i_n1 im) o0 o1 (rows_of im) (fst p) (snd p)).
(** The image mirrored, with its axes exchanged or turned *)
Definition turned (v : view) (im : image) : image :=
  mk_im (rows_seen v (i_n0 im) (i_n1 im)) (columns_seen v (i_n0 im) (i_n1 im)) (fun p => seen v (i_n0 im) (i_n1 im) (rows_of im) (fst p) (snd p)).
(** One step from an image to another that shows the same *)
Inductive shows : image -> image -> Prop :=
| shows_field N0 N1 o0 o1 im : (o0 + i_n0 im <= N0)%nat -> (o1 + i_n1 im <= N1)%nat -> shows im (in_field N0 N1 o0 o1 im)
| shows_turned v im : shows im (turned v im).
(** Any number of such steps *)
Definition same_picture : image -> image -> Prop := clos_refl_trans_1n image shows.
(** The percentile of an image (np.nanpercentile) depends on the numbers in it, not on their places. *)
Definition placeless (pc : list fl -> R -> fl) : Prop := forall l l' q, Permutation (nonnan l) (nonnan l') -> pc l q = pc l' q.
(** A threshold: a number, or NaN as from a blank image *)
Definition number_or_nan (t : fl) : Prop := t = NaN \/ exists r, t = Fin r.
