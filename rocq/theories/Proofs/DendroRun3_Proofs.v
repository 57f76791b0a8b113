From Coq Require Import Reals List ZArith Arith Bool Lia Lra.
From Verif Require Import Lib.PyBase Lib.Fl Model.Dendro Model.DendroRun Spec.DendroRun Proofs.Dendro_Proofs Proofs.DendroRun_Proofs.
Import ListNotations.

Lemma run_counts {D} (e : dendro_env D) o a o' d0 r : do_run e o a = (o', None) -> d_deltas o = d0 :: r ->
  let start := match g_obj a with None => n_build e (g_periodic a) d0 | Some d => d end in
  let after k := fold_left (fun d x => n_prune e x d) (firstn k r) start in
  exists nums values, d_num o' = Some (map Some nums) /\ d_values o' = Some values /\ length nums = length (d_deltas o) /\ length values = length (d_deltas o) /\
    forall k, (k <= length r)%nat -> nth_error nums k = Some (n_num e (after k)) /\ nth_error values k = Some (n_vmax e (after k)).
Proof.
  intros H E. cbv zeta. unfold do_run, also in H. destruct (do_compute e o (g_periodic a) (g_obj a)) as [p [x|]] eqn:C; [discriminate|].
  destruct (fit_values e p (g_size a)) as (F1 & _ & F3). destruct (do_fit e p (g_size a)) as [q [x|]]; cbn [fst] in F1, F3; [discriminate|].
  assert (K : d_num o' = d_num p /\ d_values o' = d_values p).
  { destruct (g_hists a); [|injection H as <-; now split]. destruct (hists_keep q (g_min_number a) (g_bins a)) as [(K1 & K2 & _) _]. rewrite H in K1, K2. cbn [fst] in *. split; congruence. }
  destruct K as [-> ->]. unfold do_compute in C. cbn [set_counts d_deltas] in C. rewrite E in C.
  destruct (compute_dendro (n_build e (g_periodic a)) (n_prune e) (n_num e) (n_vmax e) (d0 :: r) (g_obj a)) as [[out last]|x] eqn:Q; [|discriminate].
  apply compute_spec in Q. cbv zeta in Q. destruct Q as (Q1 & _ & Q3). rewrite E. cbn [length].
  assert (N : d_num p = Some (map Some (map fst out)) /\ d_values p = Some (map snd out)).
  { rewrite map_map. destruct (g_obj a); [injection C as <-; now split|]. destruct (n_keys e); [injection C as <-; now split|discriminate]. }
  destruct N as [-> ->]. exists (map fst out), (map snd out). split; [reflexivity|]. split; [reflexivity|]. rewrite !map_length. split; [exact Q1|]. split; [exact Q1|].
  intros k Hk. assert (NE : exists v, nth_error out k = Some v). { destruct (nth_error out k) eqn:X; [eauto|]. apply nth_error_None in X. lia. }
  destruct NE as [v V]. pose proof (Q3 k v Hk) as W. apply nth_error_nth with (d := v) in V as V'. rewrite V' in W. subst v. split; [exact (map_nth_error fst _ _ V)|exact (map_nth_error snd _ _ V)].
Qed.

(** ** min_deltas=None (C164) *)
Theorem default_deltas : forall D (e : dendro_env D) o,
  (n_param e = None -> set_deltas e o DNone = (o, Some ValueError)) /\
  (forall d, n_param e = Some d -> exists o', set_deltas e o DNone = (o', None) /\ d_deltas o' = [d] /\
    (n_keys e = true -> forall periodic, exists o2, do_compute e o' periodic None = (o2, None) /\
      d_num o2 = Some [Some (n_num e (n_build e periodic d))] /\ d_values o2 = Some [n_vmax e (n_build e periodic d)])).
Proof.
  intros D e o. unfold set_deltas, set_min_deltas. split.
  - intros ->. reflexivity.
  - intros d ->. eexists. split; [reflexivity|]. split; [reflexivity|]. intros K periodic. unfold do_compute, compute_dendro. cbn. rewrite K. eexists. repeat split.
Qed.
