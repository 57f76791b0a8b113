(** Proofs about Model/PdfDistance.v: units of each image, order of the pixels, symmetry. *)
From Coq Require Import String Reals List Bool Arith ZArith Lia Lra Permutation.
From Verif Require Import Lib.PyBase Lib.RSum Lib.Fl Lib.Arr Lib.Hist Spec.Blank Spec.Bins Spec.Distrib Spec.PdfPairs Model.StatsUtils Model.Pdf Model.PdfDistance
  Proofs.Fl_Proofs Proofs.StatsUtils_Proofs Proofs.Wavelet2_Proofs Proofs.Pdf_Proofs Proofs.CramerDistance_Proofs Proofs.PdfDistance_Proofs.
Import ListNotations.
Local Open Scope R_scope.

(** ** Each image in its own units, with a normalisation *)
Lemma norm_stage img mn w t l : init_data img mn w None = Ok (map Fin l) -> init_data img mn w (Some t) = data_normalization (map Fin l) t.
Proof. unfold init_data. intros H. injection H as H. now rewrite H. Qed.
Lemma mean_real l : l <> [] -> nanmean (map Fin l) = Fin (rmean l).
Proof. intros H. rewrite nanmean_rmean; rewrite ?fins_Fin; auto using blank_Fin. Qed.
Lemma std_real l : l <> [] -> nanstd (map Fin l) = Fin (sqrt (rvar l)).
Proof. intros H. rewrite nanstd_rvar; rewrite ?fins_Fin; auto using blank_Fin. Qed.
Lemma len_pos (l : list R) : l <> [] -> 0 < INR (length l).
Proof. intros H. apply lt_0_INR. destruct l; [contradiction|cbn; lia]. Qed.
Lemma lsum_affine a b l : lsum (map (fun x => a * x + b) l) = a * lsum l + INR (length l) * b.
Proof. induction l as [|x l IH]; [cbn; ring|]. change (lsum (map (fun x => a * x + b) (x :: l))) with ((a * x + b) + lsum (map (fun x => a * x + b) l)). change (lsum (x :: l)) with (x + lsum l). rewrite IH. cbn [length]. rewrite S_INR. ring. Qed.
Lemma rmean_affine a b l : l <> [] -> rmean (map (fun x => a * x + b) l) = a * rmean l + b.
Proof. intros H. assert (P := len_pos l H). unfold rmean. rewrite map_length, lsum_affine. field. lra. Qed.
Lemma rvar_affine a b l : l <> [] -> rvar (map (fun x => a * x + b) l) = a * a * rvar l.
Proof.
  intros H. unfold rvar. rewrite rmean_affine by exact H. rewrite map_map.
  rewrite (map_ext (fun x => (a * x + b - (a * rmean l + b)) * (a * x + b - (a * rmean l + b))) (fun x => a * a * ((x - rmean l) * (x - rmean l)) + 0)) by (intros; ring).
  rewrite <- (map_map (fun x => (x - rmean l) * (x - rmean l)) (fun y => a * a * y + 0)). rewrite rmean_affine by (destruct l; [contradiction|discriminate]). ring.
Qed.
Lemma norm_units t a b l : 0 < a -> takes_out t a b -> data_normalization (map Fin (map (fun x => a * x + b) l)) t = data_normalization (map Fin l) t.
Proof.
  intros Pos H. destruct l as [|x0 l0] eqn:El; [reflexivity|]. rewrite <- El in *. assert (N : l <> []) by (rewrite El; discriminate). clear El.
  assert (N' : map (fun x => a * x + b) l <> []) by (destruct l; [contradiction|discriminate]).
  destruct H as [-> | [-> | [[-> Hb] | [-> Ha]]]]; unfold data_normalization; cbn [String.eqb Ascii.eqb Bool.eqb]; f_equal.
  - unfold standardize. rewrite !mean_real, !std_real, rmean_affine, rvar_affine by assumption. rewrite !map_map. apply map_ext. intros x.
    replace (sqrt (a * a * rvar l)) with (a * sqrt (rvar l)).
    2: { rewrite sqrt_mult; [|nra|apply rvar_nonneg]. now rewrite sqrt_square by lra. }
    unfold fsub. cbn [fneg fadd]. replace (a * x + b + - (a * rmean l + b)) with (a * (x + - rmean l)) by ring. exact (sc_div a Pos _ (Fin (sqrt (rvar l)))).
  - unfold normalize. destruct (nanmin_real l N) as [m [E M]]. destruct (nanmax_real l N) as [mx [F X]].
    rewrite (g_nanmin a b Pos _ _ N E), (g_nanmax a b Pos _ _ N F), E, F. rewrite !map_map. apply map_ext. intros x. unfold fsub. cbn [fneg fadd].
    replace (a * x + b + - (a * m + b)) with (a * (x + - m)) by ring. replace (a * mx + b + - (a * m + b)) with (a * (mx + - m)) by ring.
    exact (sc_div a Pos _ (Fin (mx + - m))).
  - unfold normalize_by_mean. rewrite !mean_real, rmean_affine by assumption. rewrite !map_map. apply map_ext. intros x. rewrite Hb, !Rplus_0_r. exact (sc_div a Pos x (Fin (rmean l))).
  - unfold center. rewrite !mean_real, rmean_affine by assumption. rewrite !map_map. apply map_ext. intros x. unfold fsub. cbn [fneg fadd]. f_equal. rewrite Ha. ring.
Qed.

Section Distances.
Variable fit_lognorm : list fl -> result (fl * fl).
Let dist := distances fit_lognorm.
Lemma dist_own_units a1 b1 a2 b2 img1 img2 o t st : 0 < a1 -> 0 < a2 -> po_norm o = Some t -> takes_out t a1 b1 -> takes_out t a2 b2 ->
  (po_weights1 o = None \/ b1 = 0) -> (po_weights2 o = None \/ b2 = 0) ->
  dist (map (restated a1 b1) img1) (map (restated a2 b2) img2) (own_limits a1 b1 a2 b2 o) st = dist img1 img2 o st.
Proof.
  intros P1 P2 Hn T1 T2 W1 W2. unfold dist, distances, init. cbn [own_limits po_do_fit po_norm po_nbins po_weights1 po_weights2 po_bin_min po_bin_max po_min1 po_min2].
  rewrite Hn. destruct (kept_real img1 (po_min1 o) (po_weights1 o)) as [l1 E1]. destruct (kept_real img2 (po_min2 o) (po_weights2 o)) as [l2 E2].
  rewrite (norm_stage _ _ _ t _ (kept_units a1 b1 _ _ _ _ P1 W1 E1)), (norm_stage _ _ _ t _ (kept_units a2 b2 _ _ _ _ P2 W2 E2)), (norm_stage _ _ _ t _ E1), (norm_stage _ _ _ t _ E2).
  now rewrite !norm_units.
Qed.

(** ** Order of the pixels *)
Lemma perm_filter {A} (p : A -> bool) l l' : Permutation l l' -> Permutation (filter p l) (filter p l').
Proof. induction 1; cbn; try destruct (p x); try destruct (p y); auto; try constructor; auto. now apply perm_trans with (filter p l'). Qed.
Lemma kept_perm img w img' w' mn l : reshuffled img w img' w' -> init_data img mn w None = Ok (map Fin l) ->
  exists l', init_data img' mn w' None = Ok (map Fin l') /\ Permutation l l'.
Proof.
  intros R H. destruct (kept_real img' mn w') as [l' E']. exists l'. split; [exact E'|].
  enough (P : Permutation (map Fin l) (map Fin l')) by (apply (Permutation_flat_map (fun x => match x with Fin r => [r] | _ => [] end)) in P; fold (fins (map Fin l)) (fins (map Fin l')) in P; now rewrite !fins_Fin in P).
  unfold init_data in *. injection H as <-. injection E' as <-. destruct w as [w|], w' as [w'|]; cbn in R; try contradiction.
  - destruct R as [_ [_ P]]. apply Permutation_map. now do 2 apply perm_filter.
  - now apply perm_filter.
Qed.
Lemma norm_perm l l' t d : Permutation l l' -> data_normalization (map Fin l) t = Ok d -> exists d', data_normalization (map Fin l') t = Ok d' /\ Permutation d d'.
Proof.
  intros P H. destruct l as [|x0 l0] eqn:El.
  { apply Permutation_nil in P. subst l'. eauto. }
  rewrite <- El in *. assert (N : l <> []) by (rewrite El; discriminate). clear El x0 l0.
  assert (N' : l' <> []) by (intros ->; symmetry in P; apply Permutation_nil in P; contradiction).
  assert (PF : Permutation (map Fin l) (map Fin l')) by now apply Permutation_map.
  assert (M : nanmean (map Fin l') = nanmean (map Fin l)) by (rewrite !mean_real by assumption; f_equal; symmetry; now apply rmean_perm).
  assert (S1 : nanstd (map Fin l') = nanstd (map Fin l)) by (rewrite !std_real by assumption; do 2 f_equal; symmetry; now apply rvar_perm).
  assert (MI : nanmin (map Fin l') = nanmin (map Fin l)).
  { destruct (nanmin_real l N) as [m [-> [I1 M1]]]. destruct (nanmin_real l' N') as [m' [-> [I2 M2]]]. f_equal. apply Rle_antisym; [apply M2; now apply (Permutation_in _ P)|].
    apply M1. now apply (Permutation_in _ (Permutation_sym P)). }
  assert (MA : nanmax (map Fin l') = nanmax (map Fin l)).
  { destruct (nanmax_real l N) as [m [-> [I1 M1]]]. destruct (nanmax_real l' N') as [m' [-> [I2 M2]]]. f_equal. apply Rle_antisym; [|apply M2; now apply (Permutation_in _ P)].
    apply M1. now apply (Permutation_in _ (Permutation_sym P)). }
  unfold data_normalization in *.
  destruct (String.eqb t "standardize"); [injection H as <-; eexists; split; [reflexivity|]; unfold standardize; rewrite M, S1; now apply Permutation_map|].
  destruct (String.eqb t "center"); [injection H as <-; eexists; split; [reflexivity|]; unfold center; rewrite M; now apply Permutation_map|].
  destruct (String.eqb t "normalize"); [injection H as <-; eexists; split; [reflexivity|]; unfold normalize; rewrite MI, MA; now apply Permutation_map|].
  destruct (String.eqb t "normalize_by_mean"); [injection H as <-; eexists; split; [reflexivity|]; unfold normalize_by_mean; rewrite M; now apply Permutation_map|]. discriminate.
Qed.
Lemma data_perm img w img' w' mn nt d : reshuffled img w img' w' -> init_data img mn w nt = Ok d ->
  exists d', init_data img' mn w' nt = Ok d' /\ Permutation d d'.
Proof.
  intros R H. destruct (kept_real img mn w) as [l E]. destruct (kept_perm _ _ _ _ _ _ R E) as [l' [E' P]]. destruct nt as [t|].
  - rewrite (norm_stage _ _ _ t _ E) in H. rewrite (norm_stage _ _ _ t _ E'). now apply norm_perm with l.
  - exists (map Fin l'). split; [exact E'|]. assert (d = map Fin l) as -> by congruence. now apply Permutation_map.
Qed.
Lemma count_le_perm l l' e : Permutation l l' -> count_le l e = count_le l' e.
Proof. intros P. unfold count_le. now apply Permutation_length, perm_filter. Qed.
Lemma count_lt_perm l l' e : Permutation l l' -> count_lt l e = count_lt l' e.
Proof. intros P. unfold count_lt. now apply Permutation_length, perm_filter. Qed.
Lemma density_perm l l' e : Permutation l l' -> density l e = density l' e.
Proof.
  intros P. assert (C : counts l e = counts l' e).
  { unfold counts. apply tab1_ext. intros i _. unfold cum_n. now rewrite !(count_le_perm _ _ _ P), !(count_lt_perm _ _ _ P). }
  unfold density. now rewrite C.
Qed.
Lemma ks_perm l1 l1' l2 l2' : l1 <> [] -> l2 <> [] -> Permutation l1 l1' -> Permutation l2 l2' -> ks_distance l1' l2' = ks_distance l1 l2.
Proof.
  intros N1 N2 P1 P2. assert (N1' : l1' <> []) by (intros ->; symmetry in P1; apply Permutation_nil in P1; contradiction).
  assert (N2' : l2' <> []) by (intros ->; symmetry in P2; apply Permutation_nil in P2; contradiction).
  destruct (ks_sup l1 l2 N1 N2) as [D [E [B [x A]]]]. destruct (ks_sup l1' l2' N1' N2') as [D' [E' _]]. rewrite E, E'. f_equal.
  apply (ks_unique l1' l2' D' D N1' N2' E').
  - intros y. now rewrite <- (share_perm _ _ y P1), <- (share_perm _ _ y P2).
  - exists x. now rewrite <- (share_perm _ _ x P1), <- (share_perm _ _ x P2).
Qed.
Lemma run_perm l l' e do_fit : Permutation l l' -> (do_fit = true -> fit_lognorm (map Fin l') = fit_lognorm (map Fin l)) ->
  match pdf_run fit_lognorm (map Fin l) e do_fit, pdf_run fit_lognorm (map Fin l') e do_fit with
  | Ok p, Ok p' => ob_data p = map Fin l /\ ob_data p' = map Fin l' /\ ob_pdf p' = ob_pdf p /\ ob_fit p' = ob_fit p
  | Err x, Err x' => x = x'
  | _, _ => False
  end.
Proof.
  intros P Hf. unfold pdf_run, make_pdf, histogram_fl, histogram, bin_edges, make_ecdf. cbn [p_data p_bins p_pdf bind]. rewrite !fins_Fin.
  destruct (nondecreasing e); [|reflexivity]. cbn [bind fst snd p_data p_bins p_pdf]. destruct do_fit.
  - rewrite (Hf eq_refl). destruct (fit_lognorm (map Fin l)) as [f|x]; cbn [bind]; [|reflexivity].
    cbn. split; [reflexivity|]. split; [reflexivity|]. split; [symmetry; now apply density_perm|reflexivity].
  - cbn. split; [reflexivity|]. split; [reflexivity|]. split; [symmetry; now apply density_perm|reflexivity].
Qed.
Lemma perm_reals d d' l : d = map Fin l -> Permutation d d' -> exists l', d' = map Fin l' /\ Permutation l l'.
Proof.
  intros -> P. destruct (Permutation_map_inv Fin l (Permutation_sym P)) as [l' [E P']]. exists l'. split; [exact E|exact P'].
Qed.
Lemma bins_perm l1 l1' l2 l2' nb mn mx : l1 <> [] -> l2 <> [] -> Permutation l1 l1' -> Permutation l2 l2' ->
  common_histogram_bins 1 1 (map Fin l1') (map Fin l2') nb false mn mx = common_histogram_bins 1 1 (map Fin l1) (map Fin l2) nb false mn mx.
Proof.
  intros N1 N2 P1 P2.
  assert (G : forall l l', l <> [] -> Permutation l l' -> nanmin (map Fin l') = nanmin (map Fin l) /\ nanmax (map Fin l') = nanmax (map Fin l)).
  { intros l l' N P. assert (N' : l' <> []) by (intros ->; symmetry in P; apply Permutation_nil in P; contradiction). split.
    - destruct (nanmin_real l N) as [m [-> [I1 M1]]]. destruct (nanmin_real l' N') as [m' [-> [I2 M2]]]. f_equal. apply Rle_antisym; [apply M2; now apply (Permutation_in _ P)|].
      apply M1. now apply (Permutation_in _ (Permutation_sym P)).
    - destruct (nanmax_real l N) as [m [-> [I1 M1]]]. destruct (nanmax_real l' N') as [m' [-> [I2 M2]]]. f_equal. apply Rle_antisym; [|apply M2; now apply (Permutation_in _ P)].
      apply M1. now apply (Permutation_in _ (Permutation_sym P)). }
  destruct (G _ _ N1 P1) as [A1 B1]. destruct (G _ _ N2 P2) as [A2 B2]. unfold common_histogram_bins.
  rewrite A1, A2, B1, B2, !map_length, (Permutation_length P1), (Permutation_length P2). reflexivity.
Qed.
Lemma dist_pixels img1 img2 img1' img2' w1' w2' o st r :
  (po_do_fit o = true -> forall l l', Permutation l l' -> fit_lognorm l' = fit_lognorm l) ->
  reshuffled img1 (po_weights1 o) img1' w1' -> reshuffled img2 (po_weights2 o) img2' w2' ->
  dist img1 img2 o st = Ok r -> dist img1' img2' (with_weights o w1' w2') st = Ok r.
Proof.
  intros Hf R1 R2 H. unfold dist, distances, init in *. cbn [with_weights po_do_fit po_norm po_nbins po_weights1 po_weights2 po_bin_min po_bin_max po_min1 po_min2].
  apply bind_inv in H as [d [H HM]]. apply bind_inv in H as [u [Hu H]]. rewrite Hu. cbn [bind].
  apply bind_inv in H as [d1 [E1 H]]. apply bind_inv in H as [d2 [E2 H]].
  destruct (data_perm _ _ _ _ _ _ _ R1 E1) as [d1' [E1' P1]]. destruct (data_perm _ _ _ _ _ _ _ R2 E2) as [d2' [E2' P2]]. rewrite E1', E2'. cbn [bind].
  destruct (Nat.eqb_spec (length d1) 0) as [Z1|Z1]; [discriminate|]. destruct (Nat.eqb_spec (length d2) 0) as [Z2|Z2]; [discriminate|]. cbn [orb] in H.
  destruct (forallb is_fin d1) eqn:F1; [|discriminate]. destruct (forallb is_fin d2) eqn:F2; [|discriminate]. cbn [andb negb] in H.
  destruct (all_Fin _ F1) as [l1 L1]. destruct (all_Fin _ F2) as [l2 L2]. destruct (perm_reals _ _ _ L1 P1) as [l1' [L1' Q1]]. destruct (perm_reals _ _ _ L2 P2) as [l2' [L2' Q2]].
  assert (N1 : l1 <> []) by (intros ->; subst d1; now apply Z1). assert (N2 : l2 <> []) by (intros ->; subst d2; now apply Z2).
  rewrite <- (Permutation_length P1), <- (Permutation_length P2). apply Nat.eqb_neq in Z1, Z2. rewrite Z1, Z2. cbn [orb]. subst d1 d2 d1' d2'.
  rewrite !all_Fin_map. cbn [andb negb]. rewrite (bins_perm _ _ _ _ _ _ _ N1 N2 Q1 Q2).
  apply bind_inv in H as [b [Hb H]]. rewrite Hb. cbn [bind]. destruct b as [[e c]|]; [|discriminate].
  apply bind_inv in H as [p1 [G1 H]]. apply bind_inv in H as [p2 [G2 H]].
  assert (T1 := run_perm l1 l1' e (po_do_fit o) Q1 (fun h => Hf h _ _ P1)). assert (T2 := run_perm l2 l2' e (po_do_fit o) Q2 (fun h => Hf h _ _ P2)). rewrite G1 in T1. rewrite G2 in T2.
  destruct (pdf_run fit_lognorm (map Fin l1') e (po_do_fit o)) as [p1'|]; [|contradiction]. destruct (pdf_run fit_lognorm (map Fin l2') e (po_do_fit o)) as [p2'|]; [|contradiction].
  destruct T1 as (A1 & B1 & C1 & D1), T2 as (A2 & B2 & C2 & D2). cbn [bind]. assert (d = mk_dist (po_do_fit o) e c p1 p2) as -> by congruence.
  rewrite <- HM.
  assert (HH : forall r, compute_hellinger (mk_dist (po_do_fit o) e c p1' p2') r = compute_hellinger (mk_dist (po_do_fit o) e c p1 p2) r) by (intros; unfold compute_hellinger; cbn; now rewrite C1, C2).
  assert (HK : forall r, compute_ks (mk_dist (po_do_fit o) e c p1' p2') r = compute_ks (mk_dist (po_do_fit o) e c p1 p2) r).
  { intros. unfold compute_ks. cbn [pd_1 pd_2]. rewrite A1, A2, B1, B2, !fins_Fin. now rewrite (ks_perm _ _ _ _ N1 N2 Q1 Q2). }
  assert (HL : forall r, compute_lognormal (mk_dist (po_do_fit o) e c p1' p2') r = compute_lognormal (mk_dist (po_do_fit o) e c p1 p2) r) by (intros; unfold compute_lognormal; cbn; now rewrite D1, D2).
  unfold metric. cbn [pd_do_fit]. rewrite HH, HK, HL. destruct (is_literal st "all"); [|reflexivity].
  destruct (compute_hellinger (mk_dist (po_do_fit o) e c p1 p2) nothing) as [r1|]; [|reflexivity]. cbn [bind]. rewrite HK.
  destruct (compute_ks (mk_dist (po_do_fit o) e c p1 p2) r1) as [r2|]; [|reflexivity]. cbn [bind]. now rewrite HL.
Qed.
End Distances.
