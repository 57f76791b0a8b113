(** Proofs for C327: to the PDF distances only the valid pixels matter. *)
From Coq Require Import String Reals List Bool ZArith Arith Lra Lia Permutation.
From Verif Require Import Lib.PyBase Lib.RSum Lib.Fl Lib.Hist Spec.MomentsFrame Spec.Turned Spec.PdfArranged Spec.PdfPairs Spec.PdfPairsArranged Model.Pdf Model.PdfDistance.
From Verif Require Import Proofs.MomentsFrame_Proofs Proofs.ScfFrame_Proofs Proofs.PdfArranged_Proofs Proofs.PdfDistance_Proofs Proofs.PdfDistance2_Proofs Proofs.PdfDistance3_Proofs Proofs.PdfDistance4_Proofs.
From Verif Require Model.StatMoments Proofs.TurnedMoments_Proofs.
Import ListNotations.
Local Open Scope R_scope.

Definition both (p : fl * fl) : bool := is_fin (fst p) && is_fin (snd p).
Definition kept_img (img : list fl) (w : option (list fl)) : list fl :=
  match w with None => filter is_fin img | Some w => map fst (filter both (combine img w)) end.
Definition kept_w (img : list fl) (w : option (list fl)) : option (list fl) :=
  match w with None => None | Some w => Some (map snd (filter both (combine img w))) end.
Lemma filter_idem {A} (f : A -> bool) l : filter f (filter f l) = filter f l.
Proof. induction l as [|x l IH]; [reflexivity|]. cbn [filter]. destruct (f x) eqn:E; cbn [filter]; [rewrite E; now rewrite IH|exact IH]. Qed.
Lemma kept_data img w m t : init_data (kept_img img w) m (kept_w img w) t = init_data img m w t.
Proof.
  unfold init_data, kept_img, kept_w. cbv zeta. destruct w as [w|].
  - rewrite combine_back.
    assert (E : forall k : list (fl * fl), filter (fun p => is_fin (snd p)) (filter (fun p => is_fin (fst p) && fltb m (fst p)) k) = filter (fun p => fltb m (fst p)) (filter both k)).
    { intros k. unfold both. rewrite (filter_two (fun p => is_fin (fst p)) (fun p => fltb m (fst p))), (filter_two (fun p => is_fin (fst p)) (fun p => is_fin (snd p))). apply filter_swap. }
    rewrite !E, filter_idem. reflexivity.
  - rewrite !filter_two, filter_idem. reflexivity.
Qed.
Lemma kept_reshuffled img w img' w' : same_pixels img w img' w' -> reshuffled (kept_img img w) (kept_w img w) (kept_img img' w') (kept_w img' w').
Proof.
  destruct w as [w|], w' as [w'|]; cbn [same_pixels reshuffled kept_img kept_w]; try contradiction; [|intros H; exact H].
  intros (_ & _ & P). rewrite !map_length, !combine_back. split; [reflexivity|]. split; [reflexivity|exact P].
Qed.
Lemma same_sym img w img' w' : same_pixels img w img' w' -> same_pixels img' w' img w.
Proof.
  destruct w as [w|], w' as [w'|]; cbn [same_pixels]; try contradiction; [|apply Permutation_sym].
  intros (A & B & P). split; [exact B|]. split; [exact A|]. unfold same_weighted in *. now apply Permutation_sym.
Qed.
Lemma with_same o : with_weights o (po_weights1 o) (po_weights2 o) = o.
Proof. now destruct o. Qed.

Section Fit.
Variable fit_lognorm : list fl -> result (fl * fl).
Lemma kept_dist img1 img2 w1 w2 o st :
  distances fit_lognorm (kept_img img1 w1) (kept_img img2 w2) (with_weights o (kept_w img1 w1) (kept_w img2 w2)) st = distances fit_lognorm img1 img2 (with_weights o w1 w2) st.
Proof.
  unfold distances, init. cbn [with_weights po_do_fit po_norm po_nbins po_weights1 po_weights2 po_bin_min po_bin_max po_min1 po_min2].
  now rewrite !kept_data.
Qed.
Lemma arranged_one img1 img2 img1' img2' w1 w2 w1' w2' o st r :
  (po_do_fit o = true -> forall l l', Permutation l l' -> fit_lognorm l' = fit_lognorm l) ->
  same_pixels img1 w1 img1' w1' -> same_pixels img2 w2 img2' w2' ->
  distances fit_lognorm img1 img2 (with_weights o w1 w2) st = Ok r -> distances fit_lognorm img1' img2' (with_weights o w1' w2') st = Ok r.
Proof.
  intros Hf S1 S2 H. rewrite <- kept_dist in H. rewrite <- kept_dist.
  exact (dist_pixels fit_lognorm _ _ (kept_img img1' w1') (kept_img img2' w2') (kept_w img1' w1') (kept_w img2' w2') (with_weights o (kept_w img1 w1) (kept_w img2 w2)) st r
    Hf (kept_reshuffled _ _ _ _ S1) (kept_reshuffled _ _ _ _ S2) H).
Qed.
Theorem arranged : forall img1 img2 img1' img2' w1 w2 w1' w2' o st,
  (po_do_fit o = true -> forall l l', Permutation l l' -> fit_lognorm l' = fit_lognorm l) ->
  same_pixels img1 w1 img1' w1' -> same_pixels img2 w2 img2' w2' ->
  forall r, distances fit_lognorm img1 img2 (with_weights o w1 w2) st = Ok r <-> distances fit_lognorm img1' img2' (with_weights o w1' w2') st = Ok r.
Proof.
  intros img1 img2 img1' img2' w1 w2 w1' w2' o st Hf S1 S2 r. split; intros H.
  - exact (arranged_one _ _ _ _ _ _ _ _ _ _ _ Hf S1 S2 H).
  - exact (arranged_one _ _ _ _ _ _ _ _ _ _ _ Hf (same_sym _ _ _ _ S1) (same_sym _ _ _ _ S2) H).
Qed.
Lemma same_refl img w : (forall v, w = Some v -> length v = length img) -> same_pixels img w img w.
Proof. destruct w as [v|]; cbn [same_pixels]; intros H; [|apply Permutation_refl]. split; [now apply H|]. split; [now apply H|apply Permutation_refl]. Qed.
Theorem arranged_zero : forall img img' o st r,
  (po_do_fit o = true -> forall l l', Permutation l l' -> fit_lognorm l' = fit_lognorm l) ->
  (forall d f, fit_lognorm d = Ok f -> exists p e, f = (Fin p, Fin e) /\ e <> 0) ->
  po_min1 o = po_min2 o -> same_pixels img (po_weights1 o) img' (po_weights2 o) ->
  distances fit_lognorm img img' o st = Ok r ->
  (forall v, out_hellinger r = Some v -> v = Fin 0) /\ (forall v, out_ks r = Some v -> v = 0) /\ (forall v, out_lognormal r = Some v -> v = Fin 0).
Proof.
  intros img img' o st r Hf He M S H. rewrite <- (with_same o) in H.
  apply (arranged_one img img' img img _ _ (po_weights1 o) (po_weights1 o) o st r Hf) in H.
  - refine (dist_same fit_lognorm img (with_weights o (po_weights1 o) (po_weights1 o)) st r M eq_refl He H).
  - apply same_refl. intros v E. rewrite E in S. cbn [same_pixels] in S. destruct (po_weights2 o); [apply S|contradiction].
  - now apply same_sym.
Qed.
End Fit.

(** ** Images *)
Lemma combine_flat n0 n1 (a b : nat -> nat -> fl) : combine (StatMoments.flat n0 n1 a) (StatMoments.flat n0 n1 b) = map (fun p => (a (fst p) (snd p), b (fst p) (snd p))) (list_prod (seq 0 n0) (seq 0 n1)).
Proof. unfold StatMoments.flat. induction (list_prod (seq 0 n0) (seq 0 n1)) as [|p l IH]; [reflexivity|]. cbn [map combine]. now rewrite IH. Qed.
Lemma flat_length n0 n1 (a b : nat -> nat -> fl) : length (StatMoments.flat n0 n1 a) = length (StatMoments.flat n0 n1 b).
Proof. unfold StatMoments.flat. now rewrite !map_length. Qed.
Theorem surroundings_pixels : forall n0 n1 N0 N1 o0 o1 data, (o0 + n0 <= N0)%nat -> (o1 + n1 <= N1)%nat ->
  same_pixels (StatMoments.flat N0 N1 (placed n0 n1 o0 o1 data)) None (StatMoments.flat n0 n1 data) None.
Proof. exact surroundings_same. Qed.
Theorem surroundings_weighted : forall n0 n1 N0 N1 o0 o1 data w W, (o0 + n0 <= N0)%nat -> (o1 + n1 <= N1)%nat ->
  (forall y x, (y < n0)%nat -> (x < n1)%nat -> W (o0 + y)%nat (o1 + x)%nat = w y x) ->
  same_pixels (StatMoments.flat N0 N1 (placed n0 n1 o0 o1 data)) (Some (StatMoments.flat N0 N1 W)) (StatMoments.flat n0 n1 data) (Some (StatMoments.flat n0 n1 w)).
Proof.
  intros n0 n1 N0 N1 o0 o1 data w W H0 H1 HW. cbn [same_pixels]. split; [apply flat_length|]. split; [apply flat_length|]. rewrite !combine_flat. unfold same_weighted.
  set (f := fun p : nat * nat => (placed n0 n1 o0 o1 data (fst p) (snd p), W (fst p) (snd p))). set (b := fun q : nat * nat => inbox n0 o0 (fst q) && inbox n1 o1 (snd q)).
  fold both.
  assert (E : forall l, filter both (map f l) = filter both (map f (filter b l))).
  { induction l as [|q l IH]; [reflexivity|]. cbn [map filter]. destruct (b q) eqn:B; cbn [map filter]; [now rewrite IH|]. unfold f at 1. unfold both at 1. cbn [fst snd]. rewrite placed_box. fold (b q). rewrite B. exact IH. }
  change (Permutation (filter both (map f (list_prod (seq 0 N0) (seq 0 N1)))) (filter both (map (fun p => (data (fst p) (snd p), w (fst p) (snd p))) (list_prod (seq 0 n0) (seq 0 n1))))).
  rewrite E. apply TurnedMoments_Proofs.perm_filter. unfold b. rewrite (box_perm n0 n1 N0 N1 o0 o1 H0 H1), map_map. apply Permutation_refl', map_ext_in.
  intros [y x] H. apply in_prod_iff in H. rewrite !in_seq in H. unfold f. cbn [fst snd]. rewrite placed_box.
  replace (inbox n0 o0 (o0 + y) && inbox n1 o1 (o1 + x)) with true by (symmetry; rewrite andb_true_iff, !inbox_spec; lia). rewrite HW by lia. do 2 f_equal; lia.
Qed.
Theorem orientation_pixels : forall v n0 n1 (data : nat -> nat -> fl),
  same_pixels (StatMoments.flat (rows_seen v n0 n1) (columns_seen v n0 n1) (seen v n0 n1 data)) None (StatMoments.flat n0 n1 data) None.
Proof. exact orientation_same. Qed.
Theorem orientation_weighted : forall v n0 n1 (data w : nat -> nat -> fl),
  same_pixels (StatMoments.flat (rows_seen v n0 n1) (columns_seen v n0 n1) (seen v n0 n1 data)) (Some (StatMoments.flat (rows_seen v n0 n1) (columns_seen v n0 n1) (seen v n0 n1 w)))
    (StatMoments.flat n0 n1 data) (Some (StatMoments.flat n0 n1 w)).
Proof.
  intros v n0 n1 data w. cbn [same_pixels]. split; [apply flat_length|]. split; [apply flat_length|]. rewrite !combine_flat. unfold same_weighted. apply TurnedMoments_Proofs.perm_filter.
  apply (TurnedMoments_Proofs.pixels_seen v n0 n1 (fun y x => (data y x, w y x)) (fun y x => (seen v n0 n1 data y x, seen v n0 n1 w y x))).
  intros y x _ _. now destruct v.
Qed.
