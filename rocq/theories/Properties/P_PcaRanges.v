(** C261: error ranges of the size-line width fit. *)
From Coq Require Import Reals List Arith Lra.
From Verif Require Import Lib.RSum Model.FitUtils Model.PcaFit Spec.Quantile Proofs.PcaRanges_Proofs.
Import ListNotations.
Local Open Scope R_scope.

(** fit_method='odr' *)
Theorem C261_odr : forall slope icept slope_err icept_err, 0 <= slope_err -> 0 <= icept_err ->
  let f := odr_fitted slope icept slope_err icept_err in
  fst (f_index_range f) <= f_index f <= snd (f_index_range f) /\ f_index f - fst (f_index_range f) = slope_err /\ snd (f_index_range f) - f_index f = slope_err /\
  fst (f_intercept_range f) <= f_intercept f <= snd (f_intercept_range f) /\
  f_intercept f = fst (f_intercept_range f) * Rpower 10 icept_err /\ snd (f_intercept_range f) = f_intercept f * Rpower 10 icept_err.
Proof. exact odr_ranges. Qed.
Print Assumptions C261_odr.
Example C261_odr_case : let f := odr_fitted (1/2) 0 (1/10) 1 in f_index_range f = (1/2 - 1/10, 1/2 + 1/10) /\ f_intercept f = 1 /\ snd (f_intercept_range f) = 10.
Proof. cbn. split; [reflexivity|]. split; [apply Rpower_O; lra|]. rewrite Rplus_0_l. apply Rpower_1. lra. Qed.
(** fit_method='bayes' *)
Theorem C261_bayes : forall c1 c2 samps, samps <> [] -> 0 <= c1 <= 50 -> 50 <= c2 <= 100 ->
  let f := bayes_fitted (c1, c2) samps in
  let slopes := map fst samps in let intercepts := map (fun s => Rpower 10 (snd s)) samps in
  quantile slopes 50 (f_index f) /\ quantile slopes c1 (fst (f_index_range f)) /\ quantile slopes c2 (snd (f_index_range f)) /\
  quantile intercepts 50 (f_intercept f) /\ quantile intercepts c1 (fst (f_intercept_range f)) /\ quantile intercepts c2 (snd (f_intercept_range f)) /\
  fst (f_index_range f) <= f_index f <= snd (f_index_range f) /\ fst (f_intercept_range f) <= f_intercept f <= snd (f_intercept_range f).
Proof. exact bayes_ranges. Qed.
Print Assumptions C261_bayes.
Example C261_bayes_case : bayes_samples [(0, 0); (PI / 4, 1)] <> [] /\ 0 <= 159 / 10 <= 50 /\ 50 <= 841 / 10 <= 100 /\ quantile [0; 1; 2] 50 1 /\ ~ quantile [0; 1; 2] 50 2.
Proof.
  split; [discriminate|]. split; [lra|]. split; [lra|]. unfold quantile, at_or_below, at_or_above. cbn [filter length].
  repeat match goal with |- context [Rle_dec ?a ?b] => destruct (Rle_dec a b); try (exfalso; lra) end. cbn. lra.
Qed.
(** The sampler never leaves the angles of increasing lines, so the index of a decreasing relation
    is never found *)
Theorem C261_decreasing_refuted : forall chain pts c1 c2, chain <> [] -> 0 <= c1 <= 100 -> 0 <= c2 <= 100 ->
  (forall p, In p chain -> logprob (fst p) (snd p) pts <> None /\ fst p <> PI / 2) ->
  let f := bayes_fitted (c1, c2) (bayes_samples chain) in 0 <= f_index f /\ 0 <= fst (f_index_range f) /\ 0 <= snd (f_index_range f).
Proof. exact bayes_sign. Qed.
Print Assumptions C261_decreasing_refuted.
(** the line through (0, 1) and (1, 0) has no probability *)
Example C261_decreasing_case : logprob (- (PI / 4)) 1 [(0, 1, (1, 1)); (1, 0, (1, 1))] = None /\ logprob (PI / 8) 0 [(0, 1, (1, 1)); (1, 0, (1, 1))] <> None.
Proof.
  pose proof PI_RGT_0. unfold logprob. split.
  - destruct (Fl.Rltb_spec (PI / 4) (Rabs (- (PI / 4) - PI / 4))) as [|N]; [reflexivity|]. elim N. rewrite Rabs_left; lra.
  - destruct (Fl.Rltb_spec (PI / 4) (Rabs (PI / 8 - PI / 4))) as [L|]; [|discriminate]. rewrite Rabs_left in L; lra.
Qed.
