(** C320: to a PDF only the valid pixels matter, not where they are. *)
From Coq Require Import String Reals List Bool ZArith Arith Lra Lia Permutation.
From Verif Require Import Lib.PyBase Lib.RSum Lib.Fl Lib.Hist Spec.MomentsFrame Spec.Turned Spec.PdfArranged Model.Pdf Model.PdfRun Proofs.PdfArranged_Proofs.
From Verif Require Model.StatMoments.
Import ListNotations.
Local Open Scope R_scope.

(** The same valid pixels give the same data, in an order of their own, whatever the lower limit and
    the normalization; *)
Theorem C320_data : forall img img' m t, same_valid img img' -> same_data (init_data img m None t) (init_data img' m None t).
Proof. exact data_same. Qed.
Print Assumptions C320_data.
(** so do the same valid pixels with the same valid weights. *)
Theorem C320_weighted : forall l l' m t, same_weighted l l' ->
  same_data (init_data (map fst l) m (Some (map snd l)) t) (init_data (map fst l') m (Some (map snd l')) t).
Proof. exact weighted_same. Qed.
Print Assumptions C320_weighted.
(** With the same data in any order an object holds the same after any calls, where the fits are those of
    the same likelihood, *)
Theorem C320_history : forall l l' nm bse emcee o calls, Permutation l l' -> history l nm bse emcee o calls = history l' nm bse emcee o calls.
Proof. exact history_same. Qed.
Print Assumptions C320_history.
(** as it is when the densities at the data come in another order; *)
Theorem C320_likelihood : forall logpdf logpdf' floc loc0 fscale scale0 params, (forall s a b, Permutation (logpdf s a b) (logpdf' s a b)) ->
  loglike logpdf floc loc0 fscale scale0 params = loglike logpdf' floc loc0 fscale scale0 params.
Proof. exact loglike_same. Qed.
Print Assumptions C320_likelihood.
(** percentiles are the same both ways. *)
Theorem C320_percentile : forall l l' o v, Permutation l l' -> do_percentile l o v = do_percentile l' o v.
Proof. exact percentile_perm. Qed.
Print Assumptions C320_percentile.
Theorem C320_at_percentile : forall l l' q, Permutation l l' -> find_at_percentile (fins l) q = find_at_percentile (fins l') q.
Proof. exact percentiles_same. Qed.
Print Assumptions C320_at_percentile.
(** Blank surroundings and the orientation of an image are such arrangements. *)
Theorem C320_surroundings : forall n0 n1 N0 N1 o0 o1 data, (o0 + n0 <= N0)%nat -> (o1 + n1 <= N1)%nat ->
  same_valid (StatMoments.flat N0 N1 (placed n0 n1 o0 o1 data)) (StatMoments.flat n0 n1 data).
Proof. exact surroundings_same. Qed.
Print Assumptions C320_surroundings.
Theorem C320_orientation : forall v n0 n1 (data : nat -> nat -> fl),
  same_valid (StatMoments.flat (rows_seen v n0 n1) (columns_seen v n0 n1) (seen v n0 n1 data)) (StatMoments.flat n0 n1 data).
Proof. exact orientation_same. Qed.
Print Assumptions C320_orientation.
Example C320_case : same_valid [NaN; Fin 2; PInf; Fin 1] [Fin 1; Fin 2; NaN] /\
  same_weighted [(Fin 2, NaN); (Fin 2, Fin 3); (Fin 1, Fin 1)] [(Fin 1, Fin 1); (NaN, Fin 1); (Fin 2, Fin 3)] /\
  same_data (init_data [NaN; Fin 2; PInf; Fin 1] NInf None None) (Ok [Fin 1; Fin 2]).
Proof. unfold same_valid, same_weighted. cbn. repeat split; apply perm_swap. Qed.
