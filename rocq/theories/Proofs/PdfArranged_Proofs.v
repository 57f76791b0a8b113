(** Proofs for C320: the arrangement of the pixels does not matter to a PDF. *)
From Coq Require Import String Reals List Bool ZArith Arith Lra Lia Permutation Sorted.
From Verif Require Import Lib.PyBase Lib.RSum Lib.Fl Lib.Arr Lib.Hist Spec.Blank Spec.MomentsFrame Spec.Turned Spec.PdfArranged Model.StatsUtils Model.EllipPlaw Model.Pdf Model.PdfRun.
From Verif Require Import Proofs.Fl_Proofs Proofs.MomentsFrame_Proofs Proofs.ScfFrame_Proofs.
From Verif Require Model.StatMoments Proofs.Cov_Proofs Proofs.Orders_Proofs Proofs.TurnedMoments_Proofs Proofs.CramerDistance_Proofs Proofs.EllipFit_Proofs.
Import ListNotations.
Local Open Scope R_scope.

Lemma filter_two {A} (f g : A -> bool) l : filter (fun x => f x && g x) l = filter g (filter f l).
Proof. induction l as [|x l IH]; [reflexivity|]. cbn [filter]. destruct (f x) eqn:E; cbn [andb filter]; [destruct (g x); now rewrite IH|exact IH]. Qed.
Lemma filter_swap {A} (f g : A -> bool) l : filter f (filter g l) = filter g (filter f l).
Proof. rewrite <- !filter_two. apply filter_ext. intros x. apply andb_comm. Qed.
Lemma combine_back {A B} (l : list (A * B)) : combine (map fst l) (map snd l) = l.
Proof. induction l as [|[x y] l IH]; [reflexivity|]. cbn. now rewrite IH. Qed.
Lemma nanmin_perm l l' : Forall blankable l -> Permutation l l' -> nanmin l = nanmin l'.
Proof.
  intros B P. assert (B' : Forall blankable l').
  { apply Forall_forall. intros x Hx. rewrite Forall_forall in B. apply B. now apply (Permutation_in x (Permutation_sym P)). }
  assert (PF := Cov_Proofs.fins_perm _ _ P). destruct (fins l) as [|u r] eqn:E.
  - apply Permutation_nil in PF. unfold nanmin. rewrite !nonnan_fins by assumption. now rewrite E, PF.
  - assert (N : fins l <> []) by (rewrite E; discriminate).
    assert (N' : fins l' <> []) by (intros E'; rewrite E' in PF; symmetry in PF; now apply Permutation_nil_cons in PF).
    destruct (nanmin_spec l B N) as [m [-> [I1 M1]]]. destruct (nanmin_spec l' B' N') as [m' [-> [I2 M2]]]. f_equal. rewrite E in I1, M1.
    apply Rle_antisym.
    + apply M1. now apply (Permutation_in m' (Permutation_sym PF)).
    + apply M2. now apply (Permutation_in m PF).
Qed.
Lemma nanstd_perm l l' : Permutation l l' -> nanstd l = nanstd l'.
Proof. intros P. unfold nanstd. f_equal. rewrite (Orders_Proofs.nanmean_perm _ _ P). now apply Orders_Proofs.nanmean_perm, Permutation_map. Qed.
Lemma normalization_perm l l' t : Forall blankable l -> Permutation l l' -> same_data (data_normalization l t) (data_normalization l' t).
Proof.
  intros B P. unfold data_normalization, standardize, center, normalize, normalize_by_mean.
  rewrite (Orders_Proofs.nanmean_perm _ _ P), (nanstd_perm _ _ P), (nanmin_perm _ _ B P), (CramerDistance_Proofs.nanmax_perm _ _ B P).
  destruct (String.eqb t "standardize"); [now apply Permutation_map|]. destruct (String.eqb t "center"); [now apply Permutation_map|].
  destruct (String.eqb t "normalize"); [now apply Permutation_map|]. destruct (String.eqb t "normalize_by_mean"); [now apply Permutation_map|reflexivity].
Qed.
Lemma fin_blankable v : is_fin v = true -> blankable v.
Proof. now destruct v. Qed.
Lemma end_same l l' (t : option string) : Forall blankable l -> Permutation l l' ->
  same_data (match t with None => Ok l | Some s => data_normalization l s end) (match t with None => Ok l' | Some s => data_normalization l' s end).
Proof. intros B P. destruct t as [s|]; [now apply normalization_perm|exact P]. Qed.
Theorem data_same : forall img img' m t, same_valid img img' -> same_data (init_data img m None t) (init_data img' m None t).
Proof.
  intros img img' m t H. unfold init_data. cbv zeta. rewrite !filter_two. apply end_same; [|now apply TurnedMoments_Proofs.perm_filter].
  apply Forall_forall. intros x Hx. apply filter_In in Hx. destruct Hx as [Hx _]. apply filter_In in Hx. now apply fin_blankable.
Qed.
Theorem weighted_same : forall l l' m t, same_weighted l l' -> same_data (init_data (map fst l) m (Some (map snd l)) t) (init_data (map fst l') m (Some (map snd l')) t).
Proof.
  intros l l' m t H. unfold init_data. cbv zeta. rewrite !combine_back.
  assert (E : forall k : list (fl * fl), filter (fun p => is_fin (snd p)) (filter (fun p => is_fin (fst p) && fltb m (fst p)) k) = filter (fun p => fltb m (fst p)) (filter (fun p => is_fin (fst p) && is_fin (snd p)) k)).
  { intros k. rewrite (filter_two (fun p => is_fin (fst p)) (fun p => fltb m (fst p))), (filter_two (fun p => is_fin (fst p)) (fun p => is_fin (snd p))). apply filter_swap. }
  rewrite !E. apply end_same; [|now apply Permutation_map, TurnedMoments_Proofs.perm_filter].
  apply Forall_forall. intros x Hx. apply in_map_iff in Hx. destruct Hx as [[a w] [<- Hx]]. apply filter_In in Hx. destruct Hx as [Hx _]. apply filter_In in Hx. destruct Hx as [_ Hx].
  cbn [fst snd] in *. destruct a, w; try discriminate. exact I.
Qed.

(** ** What is made of the data *)
Lemma hist_perm l l' b : Permutation l l' -> histogram_fl l b = histogram_fl l' b.
Proof.
  intros P. unfold histogram_fl. rewrite (TurnedMoments_Proofs.forallb_perm is_fin _ _ P), (TurnedMoments_Proofs.bins_perm _ _ b (Cov_Proofs.fins_perm _ _ P)). reflexivity.
Qed.
Lemma ecdf_perm l l' v : Permutation l l' -> ecdf l v = ecdf l' v.
Proof. intros P. unfold ecdf, count_le. now rewrite (Permutation_length P), (Permutation_length (TurnedMoments_Proofs.perm_filter _ _ _ P)). Qed.
Lemma make_perm l l' o b : Permutation l l' -> do_make_pdf l o b = do_make_pdf l' o b.
Proof. intros P. unfold do_make_pdf. rewrite (Permutation_length P). cbv zeta. now rewrite (hist_perm _ _ _ P). Qed.
Lemma ecdf_call_perm l l' o : Permutation l l' -> do_make_ecdf l o = do_make_ecdf l' o.
Proof.
  intros P. unfold do_make_ecdf. rewrite (make_perm l l' o None P). destruct (match o_pdf o with None => do_make_pdf l' o None | Some _ => (o, None) end) as [o' [e|]]; [reflexivity|].
  assert (Q := Cov_Proofs.fins_perm _ _ P).
  destruct l as [|x l]; [apply Permutation_nil in P; now subst|]. destruct l' as [|y l']; [symmetry in P; apply Permutation_nil in P; discriminate|].
  do 2 f_equal. f_equal. apply map_ext. intros v. now apply ecdf_perm.
Qed.
Lemma percentile_perm l l' o v : Permutation l l' -> do_percentile l o v = do_percentile l' o v.
Proof.
  intros P. unfold do_percentile. rewrite (ecdf_call_perm l l' o P). destruct (match o_ecdf o with None => do_make_ecdf l' o | Some _ => (o, None) end) as [o' [e|]]; [reflexivity|].
  unfold Pdf.find_percentile. now rewrite (ecdf_perm _ _ v (Cov_Proofs.fins_perm _ _ P)).
Qed.
Theorem history_same : forall l l' nm bse emcee o calls, Permutation l l' -> history l nm bse emcee o calls = history l' nm bse emcee o calls.
Proof.
  intros l l' nm bse emcee o calls P. unfold history. revert o. induction calls as [|c calls IH]; intros o; [reflexivity|]. cbn [fold_left]. rewrite IH. f_equal.
  destruct c as [b| |v|m t x|b f]; cbn [do_call].
  - now rewrite (make_perm l l' o b P).
  - now rewrite (ecdf_call_perm l l' o P).
  - now rewrite (percentile_perm l l' o v P).
  - reflexivity.
  - unfold do_run. rewrite (make_perm l l' o b P). destruct (do_make_pdf l' o b) as [o1 [e|]]; [reflexivity|]. now rewrite (ecdf_call_perm l l' o1 P).
Qed.
Lemma sorted_same l l' : StronglySorted Rle l -> StronglySorted Rle l' -> Permutation l l' -> l = l'.
Proof.
  intros S. revert l'. induction S as [|x l S IH F]; intros l' S' P; [apply Permutation_nil in P; now subst|].
  destruct l' as [|y l']; [symmetry in P; apply Permutation_nil in P; discriminate|]. inversion S' as [|? ? S'' F']; subst. rewrite Forall_forall in F, F'.
  assert (E : x = y).
  { assert (A : In y (x :: l)) by (apply (Permutation_in _ (Permutation_sym P)); now left). assert (B : In x (y :: l')) by (apply (Permutation_in _ P); now left).
    destruct A as [A|A]; [exact A|]. destruct B as [B|B]; [now symmetry|]. apply Rle_antisym; [now apply F|now apply F']. }
  subst y. f_equal. apply IH; [exact S''|]. now apply Permutation_cons_inv in P.
Qed.
Theorem percentiles_same : forall l l' q, Permutation l l' -> find_at_percentile (fins l) q = find_at_percentile (fins l') q.
Proof.
  intros l l' q P. unfold find_at_percentile. replace (sort_r (fins l)) with (sort_r (fins l')); [reflexivity|].
  apply sorted_same; try apply EllipFit_Proofs.sort_sorted. rewrite !EllipFit_Proofs.sort_perm. symmetry. now apply Cov_Proofs.fins_perm.
Qed.
Theorem loglike_same : forall logpdf logpdf' fl_ loc0 fs scale0 params, (forall s a b, Permutation (logpdf s a b) (logpdf' s a b)) ->
  loglike logpdf fl_ loc0 fs scale0 params = loglike logpdf' fl_ loc0 fs scale0 params.
Proof.
  intros g g' a loc0 b scale0 params H. unfold loglike. cbv zeta.
  assert (K : forall l l', Permutation l l' -> (if forallb is_fin l then Ok (fsum l) else Ok NInf) = (if forallb is_fin l' then Ok (fsum l') else Ok NInf)).
  { intros l l' P. now rewrite (TurnedMoments_Proofs.forallb_perm is_fin _ _ P), (Orders_Proofs.fsum_perm _ _ P). }
  destruct (negb a && negb b); cbn [bind]; [now apply K|]. destruct (negb a); cbn [bind]; [now apply K|]. destruct (negb b); cbn [bind]; [now apply K|reflexivity].
Qed.

(** ** Images *)
Theorem surroundings_same : forall n0 n1 N0 N1 o0 o1 data, (o0 + n0 <= N0)%nat -> (o1 + n1 <= N1)%nat ->
  same_valid (StatMoments.flat N0 N1 (placed n0 n1 o0 o1 data)) (StatMoments.flat n0 n1 data).
Proof.
  intros n0 n1 N0 N1 o0 o1 data H0 H1. unfold same_valid, StatMoments.flat.
  set (f := fun p : nat * nat => placed n0 n1 o0 o1 data (fst p) (snd p)). set (b := fun q : nat * nat => inbox n0 o0 (fst q) && inbox n1 o1 (snd q)).
  assert (E : forall l, filter is_fin (map f l) = filter is_fin (map f (filter b l))).
  { induction l as [|q l IH]; [reflexivity|]. cbn [map filter]. destruct (b q) eqn:B; cbn [map filter]; [now rewrite IH|]. unfold f at 1. rewrite placed_box. fold (b q). rewrite B. exact IH. }
  rewrite E. apply TurnedMoments_Proofs.perm_filter. unfold b. rewrite (box_perm n0 n1 N0 N1 o0 o1 H0 H1), map_map. apply Permutation_refl', map_ext_in.
  intros [y x] H. apply in_prod_iff in H. rewrite !in_seq in H. unfold f. cbn [fst snd]. rewrite placed_box.
  replace (inbox n0 o0 (o0 + y) && inbox n1 o1 (o1 + x)) with true by (symmetry; rewrite andb_true_iff, !inbox_spec; lia). f_equal; lia.
Qed.
Theorem orientation_same : forall v n0 n1 (data : nat -> nat -> fl),
  same_valid (StatMoments.flat (rows_seen v n0 n1) (columns_seen v n0 n1) (seen v n0 n1 data)) (StatMoments.flat n0 n1 data).
Proof. intros v n0 n1 data. unfold same_valid, StatMoments.flat. apply TurnedMoments_Proofs.perm_filter. apply TurnedMoments_Proofs.pixels_seen. reflexivity. Qed.
