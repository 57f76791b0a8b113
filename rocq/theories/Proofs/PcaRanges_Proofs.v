(** The ranges of index and intercept of the PCA fit. *)
From Coq Require Import Reals List Arith Lia Lra.
From Verif Require Import Lib.PyBase Lib.RSum Lib.Fl Model.EllipPlaw Model.FitUtils Model.PcaFit Spec.Quantile Proofs.EllipFit_Proofs Proofs.Quantile_Proofs Proofs.Pdf_Proofs Proofs.PcaFit4_Proofs.
Import ListNotations.
Local Open Scope R_scope.

Lemma Rpower10_increasing : forall a b, a < b -> Rpower 10 a < Rpower 10 b.
Proof. intros a b H. apply Rpower_lt; lra. Qed.
Lemma odr_ranges slope icept es ei : 0 <= es -> 0 <= ei ->
  let f := odr_fitted slope icept es ei in
  fst (f_index_range f) <= f_index f <= snd (f_index_range f) /\ f_index f - fst (f_index_range f) = es /\ snd (f_index_range f) - f_index f = es /\
  fst (f_intercept_range f) <= f_intercept f <= snd (f_intercept_range f) /\
  f_intercept f = fst (f_intercept_range f) * Rpower 10 ei /\ snd (f_intercept_range f) = f_intercept f * Rpower 10 ei.
Proof.
  intros H1 H2. cbn. assert (M : forall a b, a <= b -> Rpower 10 a <= Rpower 10 b) by (intros a b [L| ->]; [left; now apply Rpower10_increasing|right; reflexivity]).
  split; [lra|]. split; [lra|]. split; [lra|]. split; [split; apply M; lra|]. split; rewrite <- Rpower_plus; f_equal; ring.
Qed.
Lemma bayes_ranges c1 c2 samps : samps <> [] -> 0 <= c1 <= 50 -> 50 <= c2 <= 100 ->
  let f := bayes_fitted (c1, c2) samps in
  let slopes := map fst samps in let intercepts := map (fun s => Rpower 10 (snd s)) samps in
  quantile slopes 50 (f_index f) /\ quantile slopes c1 (fst (f_index_range f)) /\ quantile slopes c2 (snd (f_index_range f)) /\
  quantile intercepts 50 (f_intercept f) /\ quantile intercepts c1 (fst (f_intercept_range f)) /\ quantile intercepts c2 (snd (f_intercept_range f)) /\
  fst (f_index_range f) <= f_index f <= snd (f_index_range f) /\ fst (f_intercept_range f) <= f_intercept f <= snd (f_intercept_range f).
Proof.
  intros Hs H1 H2. cbv zeta. unfold bayes_fitted. cbn [f_index f_index_range f_intercept f_intercept_range fst snd].
  assert (N1 : map fst samps <> []) by (destruct samps; [congruence|discriminate]). assert (N2 : map snd samps <> []) by (destruct samps; [congruence|discriminate]).
  assert (E : map (fun s : R * R => Rpower 10 (snd s)) samps = map (Rpower 10) (map snd samps)) by now rewrite map_map. rewrite E.
  assert (M : forall a b, a <= b -> Rpower 10 a <= Rpower 10 b) by (intros a b [L| ->]; [left; now apply Rpower10_increasing|right; reflexivity]).
  do 3 (split; [apply percentile_quantile; [assumption|lra]|]). do 3 (split; [apply quantile_map; [exact Rpower10_increasing|apply percentile_quantile; [assumption|lra]]|]).
  split; split; try apply M; apply percentile_mono; try apply sort_sorted; try (apply sort_ne; assumption); lra.
Qed.
(** The angles the sampler can visit *)
Lemma angle_domain theta b pts l : logprob theta b pts = Some l -> 0 <= theta <= PI / 2.
Proof. unfold logprob. destruct (Rltb_spec (PI / 4) (Rabs (theta - PI / 4))) as [H|H]; [discriminate|]. intros _. apply Rnot_lt_le in H. pose proof PI_RGT_0. revert H. unfold Rabs. destruct (Rcase_abs (theta - PI / 4)); lra. Qed.
Lemma tan_nonneg t : 0 <= t < PI / 2 -> 0 <= tan t.
Proof. intros [[H|<-] H2]; [left; now apply tan_gt_0|rewrite tan_0; lra]. Qed.
Lemma bayes_sign chain pts c1 c2 : chain <> [] -> 0 <= c1 <= 100 -> 0 <= c2 <= 100 -> (forall p, In p chain -> logprob (fst p) (snd p) pts <> None /\ fst p <> PI / 2) ->
  let f := bayes_fitted (c1, c2) (bayes_samples chain) in 0 <= f_index f /\ 0 <= fst (f_index_range f) /\ 0 <= snd (f_index_range f).
Proof.
  intros Hc H1 H2 D. cbv zeta. unfold bayes_fitted. cbn [f_index f_index_range fst snd].
  set (l := map fst (bayes_samples chain)). assert (N : l <> []) by (unfold l, bayes_samples; destruct chain; [congruence|discriminate]).
  assert (P : forall y, In y l -> 0 <= y).
  { intros y Hy. unfold l, bayes_samples in Hy. rewrite map_map in Hy. cbn in Hy. apply in_map_iff in Hy as (p & <- & Hp). destruct (D p Hp) as [D1 D2]. destruct (logprob (fst p) (snd p) pts) as [v|] eqn:L; [|congruence].
    apply angle_domain in L. apply tan_nonneg. lra. }
  assert (Q : forall q, 0 <= q <= 100 -> 0 <= percentile (sort_r l) q).
  { intros q Hq. destruct (percentile_bounds l q N Hq) as (lo & hi & [A _] & _ & C). specialize (P lo A). lra. }
  split; [apply Q; lra|]. split; apply Q; assumption.
Qed.
