(** Proofs about Model/PdfDistance.v: symmetry, zero, range, choice of the statistic. *)
From Coq Require Import String Reals List Bool Arith ZArith Lia Lra Permutation.
From Verif Require Import Lib.PyBase Lib.RSum Lib.Fl Lib.Arr Lib.Hist Spec.Blank Spec.Bins Spec.Distrib Spec.PdfPairs Model.StatsUtils Model.Pdf Model.PdfDistance
  Proofs.Fl_Proofs Proofs.StatsUtils_Proofs Proofs.Pdf_Proofs Proofs.PdfDistance_Proofs Proofs.PdfDistance2_Proofs.
Import ListNotations.
Local Open Scope R_scope.

Lemma fsqr_sub_sym x y : fsqr (fsub x y) = fsqr (fsub y x).
Proof. unfold fsqr, fsub. destruct x as [x| | |], y as [y| | |]; cbn; try reflexivity. f_equal. ring. Qed.
Lemma map2_sym {A B} (f : A -> A -> B) l l' : (forall x y, f x y = f y x) -> map2 f l l' = map2 f l' l.
Proof. intros H. revert l'. induction l as [|x l IH]; intros [|y l']; cbn; try reflexivity. now rewrite IH, H. Qed.
Lemma hell_sym p q : hellinger_distance p q = hellinger_distance q p.
Proof. unfold hellinger_distance, hellinger. rewrite map2_sym; [reflexivity|]. intros. apply fsqr_sub_sym. Qed.
Lemma fabs_sub_sym x y : fabs (fsub x y) = fabs (fsub y x).
Proof. unfold fsub. destruct x as [x| | |], y as [y| | |]; cbn; try reflexivity. f_equal. rewrite <- Rabs_Ropp. f_equal. ring. Qed.
Lemma fadd_comm' x y : fadd x y = fadd y x.
Proof. destruct x as [x| | |], y as [y| | |]; cbn; try reflexivity. f_equal. ring. Qed.
Lemma hell_self p : hellinger_distance p p = Fin 0.
Proof.
  unfold hellinger_distance, hellinger. set (q := map _ p). clearbody q.
  assert (E : nansum (map2 (fun a b => fsqr (fsub (fsqrt a) (fsqrt b))) q q) = Fin 0).
  { assert (G : forall m, (forall x, In x m -> x = Fin 0 \/ x = NaN) -> nansum m = Fin 0).
    { unfold nansum, nonnan, fsum. induction m as [|x m IH]; intros Hm; [reflexivity|]. assert (IH' := IH (fun y h => Hm y (or_intror h))).
      destruct (Hm x (or_introl eq_refl)) as [-> | ->]; cbn [filter is_nan negb fold_right]; rewrite IH'; [cbn; f_equal; ring|reflexivity]. }
    apply G. induction q as [|x q IH]; [intros y []|]. cbn [map2]. intros y [<-|H]; [|now apply IH].
    destruct (fsqrt x) as [v| | |]; cbn; auto. left. f_equal. ring. }
  rewrite E. cbn. destruct (Rltb_spec 0 0); [lra|]. rewrite sqrt_0. cbn. f_equal. ring.
Qed.

Section Distances.
Variable fit_lognorm : list fl -> result (fl * fl).
Let dist := distances fit_lognorm.

(** What [init] did when it succeeded *)
Lemma init_ok img1 img2 o d : init fit_lognorm img1 img2 o = Ok d -> exists l1 l2 c p1 p2,
  l1 <> [] /\ l2 <> [] /\ init_data img1 (po_min1 o) (po_weights1 o) (po_norm o) = Ok (map Fin l1) /\ init_data img2 (po_min2 o) (po_weights2 o) (po_norm o) = Ok (map Fin l2) /\
  common_histogram_bins 1 1 (map Fin l1) (map Fin l2) (po_nbins o) false (po_bin_min o) (po_bin_max o) = Ok (Some (pd_edges d, c)) /\
  pdf_run fit_lognorm (map Fin l1) (pd_edges d) (po_do_fit o) = Ok p1 /\ pdf_run fit_lognorm (map Fin l2) (pd_edges d) (po_do_fit o) = Ok p2 /\
  d = mk_dist (po_do_fit o) (pd_edges d) c p1 p2 /\ distance_init (po_do_fit o) (po_norm o) = Ok tt.
Proof.
  unfold init. intros H. apply bind_inv in H as [u [Hu H]]. apply bind_inv in H as [d1 [E1 H]]. apply bind_inv in H as [d2 [E2 H]].
  destruct (Nat.eqb_spec (length d1) 0) as [Z1|Z1]; [discriminate|]. destruct (Nat.eqb_spec (length d2) 0) as [Z2|Z2]; [discriminate|]. cbn [orb] in H.
  destruct (forallb is_fin d1) eqn:F1; [|discriminate]. destruct (forallb is_fin d2) eqn:F2; [|discriminate]. cbn [andb negb] in H.
  destruct (all_Fin _ F1) as [l1 L1]. destruct (all_Fin _ F2) as [l2 L2].
  assert (N1 : l1 <> []) by (intros ->; subst d1; now apply Z1). assert (N2 : l2 <> []) by (intros ->; subst d2; now apply Z2). subst d1 d2.
  apply bind_inv in H as [b [Hb H]]. destruct b as [[e c]|]; [|discriminate].
  apply bind_inv in H as [p1 [G1 H]]. apply bind_inv in H as [p2 [G2 H]]. assert (d = mk_dist (po_do_fit o) e c p1 p2) as -> by congruence. cbn [pd_edges].
  exists l1, l2, c, p1, p2. destruct u. auto 12.
Qed.
Lemma init_intro img1 img2 o l1 l2 e c p1 p2 : l1 <> [] -> l2 <> [] -> distance_init (po_do_fit o) (po_norm o) = Ok tt ->
  init_data img1 (po_min1 o) (po_weights1 o) (po_norm o) = Ok (map Fin l1) -> init_data img2 (po_min2 o) (po_weights2 o) (po_norm o) = Ok (map Fin l2) ->
  common_histogram_bins 1 1 (map Fin l1) (map Fin l2) (po_nbins o) false (po_bin_min o) (po_bin_max o) = Ok (Some (e, c)) ->
  pdf_run fit_lognorm (map Fin l1) e (po_do_fit o) = Ok p1 -> pdf_run fit_lognorm (map Fin l2) e (po_do_fit o) = Ok p2 ->
  init fit_lognorm img1 img2 o = Ok (mk_dist (po_do_fit o) e c p1 p2).
Proof.
  intros N1 N2 U E1 E2 B G1 G2. unfold init. rewrite U, E1, E2. cbn [bind]. rewrite !map_length.
  destruct (Nat.eqb_spec (length l1) 0) as [Z1|_]; [apply length_zero_iff_nil in Z1; contradiction|].
  destruct (Nat.eqb_spec (length l2) 0) as [Z2|_]; [apply length_zero_iff_nil in Z2; contradiction|]. cbn [orb]. rewrite !all_Fin_map. cbn [andb negb].
  rewrite B. cbn [bind]. rewrite G1. cbn [bind]. now rewrite G2.
Qed.
Lemma bins_sym l1 l2 nb mn mx : l1 <> [] -> l2 <> [] ->
  common_histogram_bins 1 1 (map Fin l2) (map Fin l1) nb false mn mx = common_histogram_bins 1 1 (map Fin l1) (map Fin l2) nb false mn mx.
Proof.
  intros N1 N2. unfold common_histogram_bins. cbn [Nat.ltb Nat.leb orb]. cbv zeta.
  destruct (nanmin_real l1 N1) as [m1 [-> _]]. destruct (nanmin_real l2 N2) as [m2 [-> _]].
  destruct (nanmax_real l1 N1) as [x1 [-> _]]. destruct (nanmax_real l2 N2) as [x2 [-> _]].
  rewrite (Nat.add_comm (length (map Fin l2))).
  assert (A : fmin2 (Fin m2) (Fin m1) = fmin2 (Fin m1) (Fin m2)).
  { unfold fmin2. cbn [fltb]. destruct (Rltb_spec m1 m2), (Rltb_spec m2 m1); try reflexivity; try lra. f_equal. lra. }
  assert (B : fmax2 (Fin x2) (Fin x1) = fmax2 (Fin x1) (Fin x2)).
  { unfold fmax2. cbn [fltb]. destruct (Rltb_spec x1 x2), (Rltb_spec x2 x1); try reflexivity; try lra. f_equal. lra. }
  now rewrite A, B.
Qed.
Lemma run_data l e df p : pdf_run fit_lognorm (map Fin l) e df = Ok p -> ob_data p = map Fin l /\ ob_pdf p = density l e /\ (df = true -> exists f, ob_fit p = Some f /\ fit_lognorm (map Fin l) = Ok f) /\ (df = false -> ob_fit p = None) /\ nondecreasing e = true.
Proof.
  unfold pdf_run, make_pdf, histogram_fl, histogram, bin_edges, make_ecdf. cbn [p_data p_bins p_pdf bind]. rewrite !fins_Fin.
  destruct (nondecreasing e); [|discriminate]. cbn [bind fst snd p_data p_bins p_pdf]. intros H. destruct df.
  - destruct (fit_lognorm (map Fin l)) as [f|x] eqn:E; cbn [bind] in H; [|discriminate]. injection H as <-. cbn.
    split; [reflexivity|]. split; [reflexivity|]. split; [eauto|]. split; [discriminate|reflexivity].
  - cbn [bind] in H. injection H as <-. cbn. split; [reflexivity|]. split; [reflexivity|]. split; [discriminate|]. split; reflexivity.
Qed.
Lemma dist_swap img1 img2 o st r : dist img1 img2 o st = Ok r -> dist img2 img1 (swapped o) st = Ok r.
Proof.
  intros H. unfold dist, distances in *. apply bind_inv in H as [d [H HM]].
  destruct (init_ok _ _ _ _ H) as (l1 & l2 & c & p1 & p2 & N1 & N2 & E1 & E2 & B & G1 & G2 & Ed & U).
  rewrite (init_intro img2 img1 (swapped o) l2 l1 (pd_edges d) c p2 p1 N2 N1 U E2 E1); [|now rewrite bins_sym|exact G2|exact G1]. cbn [bind]. rewrite <- HM, Ed. cbn [swapped po_do_fit pd_edges].
  destruct (run_data _ _ _ _ G1) as (A1 & _). destruct (run_data _ _ _ _ G2) as (A2 & _). set (e := pd_edges d).
  set (d1 := mk_dist (po_do_fit o) e c p2 p1). set (d2 := mk_dist (po_do_fit o) e c p1 p2).
  assert (HH : forall r, compute_hellinger d1 r = compute_hellinger d2 r) by (intros; unfold compute_hellinger, d1, d2; cbn [pd_1 pd_2]; now rewrite (hell_sym (ob_pdf p2) (ob_pdf p1))).
  assert (HK : forall r, compute_ks d1 r = compute_ks d2 r).
  { intros. unfold compute_ks. cbn [pd_1 pd_2 d1 d2]. rewrite A1, A2, !fins_Fin. now rewrite (ks_sym _ _ N1 N2). }
  assert (HL : forall r, compute_lognormal d1 r = compute_lognormal d2 r).
  { intros. unfold compute_lognormal. cbn [pd_1 pd_2 d1 d2]. destruct (ob_fit p1) as [[]|], (ob_fit p2) as [[]|]; try reflexivity. now rewrite fabs_sub_sym, fadd_comm'. }
  unfold metric. change (pd_do_fit d1) with (po_do_fit o). change (pd_do_fit d2) with (po_do_fit o). rewrite HH, HK, HL. destruct (is_literal st "all"); [|reflexivity].
  destruct (compute_hellinger d2 nothing) as [r1|]; [|reflexivity]. cbn [bind]. rewrite HK. destruct (compute_ks d2 r1) as [r2|]; [|reflexivity]. cbn [bind]. now rewrite HL.
Qed.
Definition zero_or_none (r : pdf_values_out) : Prop :=
  (forall v, out_hellinger r = Some v -> v = Fin 0) /\ (forall v, out_ks r = Some v -> v = 0) /\ (forall v, out_lognormal r = Some v -> v = Fin 0).
Lemma dist_same img o st r : po_min1 o = po_min2 o -> po_weights1 o = po_weights2 o ->
  (forall d f, fit_lognorm d = Ok f -> exists p e, f = (Fin p, Fin e) /\ e <> 0) -> dist img img o st = Ok r -> zero_or_none r.
Proof.
  intros Hm Hw Hf H. unfold dist, distances in *. apply bind_inv in H as [d [H HM]].
  destruct (init_ok _ _ _ _ H) as (l1 & l2 & c & p1 & p2 & N1 & N2 & E1 & E2 & B & G1 & G2 & Ed & U).
  rewrite Hm, Hw in E1. assert (EL : map Fin l1 = map Fin l2) by congruence. assert (l1 = l2) as -> by (rewrite <- (fins_Fin l1), EL; apply fins_Fin).
  assert (p2 = p1) as -> by congruence. destruct (run_data _ _ _ _ G1) as (A1 & _ & F1 & F0 & _).
  assert (HH : forall r r', zero_or_none r -> compute_hellinger d r = Ok r' -> zero_or_none r').
  { intros r0 r' (Z1 & Z2 & Z3) Hr. unfold compute_hellinger in Hr. rewrite Ed in Hr. cbn [pd_1 pd_2] in Hr. rewrite hell_self in Hr. injection Hr as <-.
    split; [|split]; cbn; auto. congruence. }
  assert (HK : forall r r', zero_or_none r -> compute_ks d r = Ok r' -> zero_or_none r').
  { intros r0 r' (Z1 & Z2 & Z3) Hr. unfold compute_ks in Hr. rewrite Ed in Hr. cbn [pd_1 pd_2] in Hr. rewrite A1, fins_Fin, ks_zero in Hr by auto. cbn [bind] in Hr. injection Hr as <-.
    split; [|split]; cbn; auto. congruence. }
  assert (HL : forall r r', zero_or_none r -> compute_lognormal d r = Ok r' -> zero_or_none r').
  { intros r0 r' (Z1 & Z2 & Z3) Hr. unfold compute_lognormal in Hr. rewrite Ed in Hr. cbn [pd_1 pd_2] in Hr. destruct (ob_fit p1) as [[p e]|] eqn:F; [|discriminate].
    destruct (po_do_fit o) eqn:Df; [|specialize (F0 eq_refl); congruence]. destruct (F1 eq_refl) as [f [F2 F3]]. destruct (Hf _ _ F3) as (q & s & Q & Hs). subst f. injection F2 as -> ->.
    injection Hr as <-. split; [|split]; cbn [out_hellinger out_ks out_lognormal]; auto. intros v Hv. injection Hv as <-. unfold fsqr, fsub. cbn.
    assert (P : 0 < s * s + s * s) by nra. destruct (Rltb_spec (s * s + s * s) 0); [lra|]. cbn. assert (P2 := sqrt_lt_R0 _ P). destruct (Reqb_spec (sqrt (s * s + s * s)) 0); [lra|].
    f_equal. replace (q + - q) with 0 by ring. rewrite Rabs_R0. field. lra. }
  assert (Z : zero_or_none nothing) by (split; [|split]; discriminate).
  unfold metric in HM. destruct (is_literal st "all").
  - apply bind_inv in HM as [r1 [M1 HM]]. apply bind_inv in HM as [r2 [M2 HM]]. assert (Z2 := HK _ _ (HH _ _ Z M1) M2). destruct (pd_do_fit d); [now apply (HL r2)|]. congruence.
  - destruct (is_literal st "hellinger"); [now apply (HH nothing)|]. destruct (is_literal st "ks"); [now apply (HK nothing)|].
    destruct (is_literal st "lognormal"); [|discriminate]. destruct (negb (pd_do_fit d)); [discriminate|]. now apply (HL nothing).
Qed.
(** *** The choice of the statistic *)
Lemma metric_dynamic d v r : metric d (mk_str v false) r = Err TypeError.
Proof. reflexivity. Qed.
Lemma metric_unknown d v i r : ~ In v ["all"; "hellinger"; "ks"; "lognormal"]%string -> metric d (mk_str v i) r = Err TypeError.
Proof.
  intros H. unfold metric, is_literal. cbn [str_value str_interned].
  assert (N : forall s, In s ["all"; "hellinger"; "ks"; "lognormal"]%string -> (i && String.eqb v s)%bool = false).
  { intros s Hs. destruct (String.eqb_spec v s); [subst; contradiction|]. apply andb_false_r. }
  now rewrite !N by (cbn; tauto).
Qed.
Lemma metric_all img1 img2 o d : init fit_lognorm img1 img2 o = Ok d -> exists h k,
  metric d (mk_str "hellinger" true) nothing = Ok (mk_out (Some h) None None) /\
  metric d (mk_str "ks" true) nothing = Ok (mk_out None (Some k) None) /\
  (po_do_fit o = false -> metric d (mk_str "all" true) nothing = Ok (mk_out (Some h) (Some k) None) /\ metric d (mk_str "lognormal" true) nothing = Err OtherError) /\
  (po_do_fit o = true -> exists w, metric d (mk_str "lognormal" true) nothing = Ok (mk_out None None (Some w)) /\ metric d (mk_str "all" true) nothing = Ok (mk_out (Some h) (Some k) (Some w))).
Proof.
  intros H. destruct (init_ok _ _ _ _ H) as (l1 & l2 & c & p1 & p2 & N1 & N2 & E1 & E2 & B & G1 & G2 & Ed & U).
  destruct (run_data _ _ _ _ G1) as (A1 & _ & F1 & _). destruct (run_data _ _ _ _ G2) as (A2 & _ & F2 & _).
  destruct (ks_range l1 l2 N1 N2) as [k [K _]]. exists (hellinger_distance (ob_pdf p1) (ob_pdf p2)), k.
  assert (HK : forall r, compute_ks d r = Ok (mk_out (out_hellinger r) (Some k) (out_lognormal r))) by (intros; unfold compute_ks; rewrite Ed; cbn [pd_1 pd_2]; now rewrite A1, A2, !fins_Fin, K).
  assert (HH : forall r, compute_hellinger d r = Ok (mk_out (Some (hellinger_distance (ob_pdf p1) (ob_pdf p2))) (out_ks r) (out_lognormal r))) by (intros; unfold compute_hellinger; rewrite Ed; reflexivity).
  assert (PF : pd_do_fit d = po_do_fit o) by (rewrite Ed; reflexivity).
  unfold metric. cbn [is_literal str_value str_interned andb String.eqb Ascii.eqb Bool.eqb]. rewrite !HH, PF. cbn [bind]. rewrite !HK. cbn [bind out_hellinger out_ks out_lognormal nothing].
  split; [reflexivity|]. split; [reflexivity|]. split; [intros ->; split; reflexivity|]. intros Df. rewrite Df. cbn [negb].
  destruct (F1 Df) as [[q1 s1] [Q1 _]]. destruct (F2 Df) as [[q2 s2] [Q2 _]]. unfold compute_lognormal. rewrite Ed. cbn [pd_1 pd_2]. rewrite Q1, Q2. cbn. eauto.
Qed.
(** *** The number of bins *)
Lemma linspace_length x y n : length (linspace x y n) = n.
Proof. unfold linspace. destruct n as [|n]; [reflexivity|]. destruct n as [|n]; [reflexivity|]. unfold tab1. now rewrite map_length, seq_length. Qed.
Lemma one_less img1 img2 o d k : po_nbins o = Some k -> init fit_lognorm img1 img2 o = Ok d ->
  length (pd_edges d) = k /\ length (ob_pdf (pd_1 d)) = (k - 1)%nat /\ length (ob_pdf (pd_2 d)) = (k - 1)%nat.
Proof.
  intros Hk H. destruct (init_ok _ _ _ _ H) as (l1 & l2 & c & p1 & p2 & N1 & N2 & E1 & E2 & B & G1 & G2 & Ed & U).
  destruct (run_data _ _ _ _ G1) as (_ & D1 & _). destruct (run_data _ _ _ _ G2) as (_ & D2 & _).
  assert (L : length (pd_edges d) = k).
  { unfold common_histogram_bins in B. cbn [Nat.ltb Nat.leb orb] in B. rewrite Hk in B. cbv zeta in B.
    match type of B with match ?m with _ => _ end = _ => destruct m; try discriminate end. match type of B with match ?m with _ => _ end = _ => destruct m; try discriminate end.
    assert (E : pd_edges d = linspace r r0 k) by congruence. rewrite E. apply linspace_length. }
  split; [exact L|]. rewrite Ed. cbn [pd_1 pd_2]. rewrite D1, D2. unfold density, tab1. rewrite !map_length, !seq_length, L. auto.
Qed.
End Distances.
