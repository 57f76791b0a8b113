(** Proofs about Model/PdfDistance.v: a change of units common to both images. *)
From Coq Require Import String Reals List Bool Arith ZArith Lia Lra Permutation.
From Verif Require Import Lib.PyBase Lib.RSum Lib.Fl Lib.Arr Lib.Hist Spec.Blank Spec.PdfPairs Model.StatsUtils Model.Pdf Model.PdfDistance
  Proofs.Fl_Proofs Proofs.Pdf_Proofs.
Import ListNotations.
Local Open Scope R_scope.

Lemma bind_inv {A B} (r : result A) (k : A -> result B) b : bind r k = Ok b -> exists x, r = Ok x /\ k x = Ok b.
Proof. destruct r; cbn; intros H; [now exists a|discriminate]. Qed.
Lemma all_Fin d : forallb is_fin d = true -> exists l, d = map Fin l.
Proof.
  induction d as [|x d IH]; cbn; intros H; [now exists []|]. apply andb_prop in H as [Hx H]. destruct (IH H) as [l ->].
  destruct x as [x| | |]; try discriminate. now exists (x :: l).
Qed.
Lemma all_Fin_map l : forallb is_fin (map Fin l) = true.
Proof. induction l; [reflexivity|cbn; auto]. Qed.
Lemma fins_Fin l : fins (map Fin l) = l.
Proof. induction l as [|x l IH]; [reflexivity|]. cbn. now rewrite <- IH at 2. Qed.
Lemma blank_Fin l : Forall blankable (map Fin l).
Proof. apply Forall_forall. intros x H. apply in_map_iff in H as [y [<- _]]. exact I. Qed.
Lemma tab1_ext {A} n (f h : nat -> A) : (forall i, (i < n)%nat -> f i = h i) -> tab1 n f = tab1 n h.
Proof. intros H. unfold tab1. apply map_ext_in. intros i Hi. apply in_seq in Hi. apply H. lia. Qed.
Lemma tab1_map {A B} (k : A -> B) n f : map k (tab1 n f) = tab1 n (fun i => k (f i)).
Proof. unfold tab1. apply map_map. Qed.

(** ** Histograms in other units *)
Section Units.
Variables a b : R.
Hypothesis Pos : 0 < a.
Let g := fun x => a * x + b.
Lemma g_lt x y : g x < g y <-> x < y.
Proof. unfold g. split; intros H; [apply Rmult_lt_reg_l with a; lra|apply Rplus_lt_compat_r, Rmult_lt_compat_l; assumption]. Qed.
Lemma g_ltb x y : Rltb (g x) (g y) = Rltb x y.
Proof. destruct (Rltb_spec (g x) (g y)) as [H|H], (Rltb_spec x y) as [G|G]; try reflexivity; exfalso; rewrite g_lt in H; contradiction. Qed.
Lemma g_leb x y : Rleb (g x) (g y) = Rleb x y.
Proof. destruct (Rleb_spec (g x) (g y)) as [H|H], (Rleb_spec x y) as [G|G]; try reflexivity; exfalso; assert (L := g_lt y x); lra. Qed.
Lemma g_count_lt l e : count_lt (map g l) (g e) = count_lt l e.
Proof. unfold count_lt. induction l as [|x l IH]; [reflexivity|]. cbn [map filter]. rewrite g_ltb. destruct (Rltb x e); cbn; now rewrite IH. Qed.
Lemma g_count_le l e : count_le (map g l) (g e) = count_le l e.
Proof. unfold count_le. induction l as [|x l IH]; [reflexivity|]. cbn [map filter]. rewrite g_leb. destruct (Rleb x e); cbn; now rewrite IH. Qed.
Lemma g_nth e i : (i < length e)%nat -> nth i (map g e) 0 = g (nth i e 0).
Proof. intros H. rewrite (nth_indep _ 0 (g 0)) by (rewrite map_length; exact H). apply map_nth. Qed.
Lemma g_cum l e i : (i < length e)%nat -> cum_n (map g l) (map g e) i = cum_n l e i.
Proof. intros H. unfold cum_n. rewrite map_length, g_nth, g_count_le, g_count_lt by exact H. reflexivity. Qed.
Lemma g_counts l e : counts (map g l) (map g e) = counts l e.
Proof. unfold counts. rewrite map_length. apply tab1_ext. intros i Hi. now rewrite !g_cum by lia. Qed.
Lemma sinf_div x : sinf (x / a) = sinf x.
Proof.
  assert (I := Rinv_0_lt_compat a Pos). unfold sinf, Rdiv.
  destruct (Rltb_spec 0 (x * / a)), (Rltb_spec 0 x), (Rltb_spec (x * / a) 0), (Rltb_spec x 0); try reflexivity; exfalso; nra.
Qed.
Lemma sinf_cases x : sinf x = PInf \/ sinf x = NInf \/ sinf x = NaN.
Proof. unfold sinf. destruct (Rltb 0 x); [auto|]. destruct (Rltb x 0); auto. Qed.
(** dividing by [a] *)
Let D := fun v => fdiv v (Fin a).
Lemma D_fin x : D (Fin x) = Fin (x / a).
Proof. unfold D. cbn. destruct (Reqb_spec a 0); [lra|reflexivity]. Qed.
Lemma D_inf : D PInf = PInf /\ D NInf = NInf /\ D NaN = NaN.
Proof. unfold D. cbn. destruct (Rltb_spec a 0); [lra|auto]. Qed.
Lemma D_sinf x : D (sinf x) = sinf x.
Proof. destruct D_inf as [P [N Z]]. destruct (sinf_cases x) as [-> | [-> | ->]]; assumption. Qed.
Lemma density_bin c w s : fdiv (fdiv (Fin c) (Fin (a * w))) (Fin s) = D (fdiv (fdiv (Fin c) (Fin w)) (Fin s)).
Proof.
  destruct D_inf as [P [N Z]]. cbn [fdiv]. destruct (Reqb_spec w 0) as [->|Hw].
  - rewrite Rmult_0_r. destruct (Reqb_spec 0 0) as [_|n]; [|contradiction].
    destruct (sinf_cases c) as [-> | [-> | ->]]; cbn [fdiv]; try (destruct (Rltb s 0)); congruence.
  - destruct (Reqb_spec (a * w) 0) as [H|_]; [apply Rmult_integral in H; lra|]. cbn [fdiv]. destruct (Reqb_spec s 0) as [->|Hs].
    + rewrite D_sinf. replace (c / (a * w)) with (c / w / a) by (field; lra). apply sinf_div.
    + rewrite D_fin. f_equal. field. lra.
Qed.
Lemma g_density l e : density (map g l) (map g e) = map D (density l e).
Proof.
  unfold density. cbv zeta. rewrite g_counts, map_length, tab1_map. apply tab1_ext. intros i Hi.
  rewrite !g_nth by lia. replace (g (nth (S i) e 0) - g (nth i e 0)) with (a * (nth (S i) e 0 - nth i e 0)) by (unfold g; ring). apply density_bin.
Qed.
Lemma g_nondec e : nondecreasing (map g e) = nondecreasing e.
Proof.
  induction e as [|x e IH]; [reflexivity|]. destruct e as [|y e]; [reflexivity|]. cbn [map nondecreasing] in *. now rewrite g_leb, IH.
Qed.
Lemma D_add x y : D (fadd x y) = fadd (D x) (D y).
Proof.
  destruct D_inf as [P [N Z]]. destruct x, y; cbn [fadd]; rewrite ?D_fin, ?P, ?N, ?Z; cbn [fadd]; try reflexivity. f_equal. field. lra.
Qed.
Lemma D_sum l : fsum (map D l) = D (fsum l).
Proof.
  unfold fsum. induction l as [|x l IH]; cbn [map fold_right]; [rewrite D_fin; f_equal; field; lra|]. now rewrite IH, D_add.
Qed.
Lemma D_ratio v s : fdiv (D v) (D s) = fdiv v s.
Proof.
  assert (Ia := Rinv_0_lt_compat a Pos).
  destruct D_inf as [P [N Z]]. destruct v as [v| | |], s as [s| | |]; rewrite ?D_fin, ?P, ?N, ?Z; cbn [fdiv]; try reflexivity.
  - destruct (Reqb_spec (s / a) 0) as [H|H], (Reqb_spec s 0) as [G|G].
    + apply sinf_div.
    + exfalso. unfold Rdiv in H. apply Rmult_integral in H. lra.
    + exfalso. apply H. rewrite G. field. lra.
    + f_equal. field. lra.
  - destruct (Rltb_spec (s / a) 0), (Rltb_spec s 0); try reflexivity; exfalso; unfold Rdiv in *; nra.
  - destruct (Rltb_spec (s / a) 0), (Rltb_spec s 0); try reflexivity; exfalso; unfold Rdiv in *; nra.
Qed.
Lemma D_hellinger p q : hellinger_distance (map D p) (map D q) = hellinger_distance p q.
Proof.
  unfold hellinger_distance. rewrite !D_sum, !map_map. f_equal; apply map_ext; intros; apply D_ratio.
Qed.
(** *** Bins *)
Lemma g_min l m : is_min m l -> is_min (g m) (map g l).
Proof.
  intros [I M]. split; [now apply in_map|]. intros y H. apply in_map_iff in H as [x [<- H]]. specialize (M x H).
  unfold g. apply Rplus_le_compat_r, Rmult_le_compat_l; lra.
Qed.
Lemma g_max l m : is_max m l -> is_max (g m) (map g l).
Proof.
  intros [I M]. split; [now apply in_map|]. intros y H. apply in_map_iff in H as [x [<- H]]. specialize (M x H).
  unfold g. apply Rplus_le_compat_r, Rmult_le_compat_l; lra.
Qed.
Lemma min_unique m m' l : is_min m l -> is_min m' l -> m = m'.
Proof. intros [I M] [I' M']. apply Rle_antisym; auto. Qed.
Lemma max_unique m m' l : is_max m l -> is_max m' l -> m = m'.
Proof. intros [I M] [I' M']. apply Rle_antisym; auto. Qed.
Lemma nanmin_real l : l <> [] -> exists m, nanmin (map Fin l) = Fin m /\ is_min m l.
Proof. intros H. destruct (nanmin_spec (map Fin l) (blank_Fin l)) as [m M]; rewrite fins_Fin in *; [exact H|eauto]. Qed.
Lemma nanmax_real l : l <> [] -> exists m, nanmax (map Fin l) = Fin m /\ is_max m l.
Proof. intros H. destruct (nanmax_spec (map Fin l) (blank_Fin l)) as [m M]; rewrite fins_Fin in *; [exact H|eauto]. Qed.
Lemma g_nanmin l m : l <> [] -> nanmin (map Fin l) = Fin m -> nanmin (map Fin (map g l)) = Fin (g m).
Proof.
  intros H E. destruct (nanmin_real l H) as [m1 [E1 M1]]. assert (m1 = m) as -> by congruence.
  destruct (nanmin_real (map g l)) as [m2 [E2 M2]]; [destruct l; [contradiction|discriminate]|]. rewrite E2. f_equal.
  exact (min_unique _ _ _ M2 (g_min _ _ M1)).
Qed.
Lemma g_nanmax l m : l <> [] -> nanmax (map Fin l) = Fin m -> nanmax (map Fin (map g l)) = Fin (g m).
Proof.
  intros H E. destruct (nanmax_real l H) as [m1 [E1 M1]]. assert (m1 = m) as -> by congruence.
  destruct (nanmax_real (map g l)) as [m2 [E2 M2]]; [destruct l; [contradiction|discriminate]|]. rewrite E2. f_equal.
  exact (max_unique _ _ _ M2 (g_max _ _ M1)).
Qed.
Lemma g_fmin x y : fmin2 (Fin (g x)) (Fin (g y)) = match fmin2 (Fin x) (Fin y) with Fin m => Fin (g m) | v => v end.
Proof. unfold fmin2. cbn [fltb]. rewrite g_ltb. now destruct (Rltb y x). Qed.
Lemma g_fmax x y : fmax2 (Fin (g x)) (Fin (g y)) = match fmax2 (Fin x) (Fin y) with Fin m => Fin (g m) | v => v end.
Proof. unfold fmax2. cbn [fltb]. rewrite g_ltb. now destruct (Rltb x y). Qed.
Lemma fmin_fin x y : exists m, fmin2 (Fin x) (Fin y) = Fin m.
Proof. unfold fmin2. destruct (fltb _ _); eauto. Qed.
Lemma fmax_fin x y : exists m, fmax2 (Fin x) (Fin y) = Fin m.
Proof. unfold fmax2. destruct (fltb _ _); eauto. Qed.
Lemma g_linspace x y n : linspace (g x) (g y) n = map g (linspace x y n).
Proof.
  unfold linspace. destruct n as [|n]; [reflexivity|]. destruct n as [|n]; [reflexivity|]. rewrite tab1_map. apply tab1_ext. intros i _. unfold g, Rdiv. ring.
Qed.
Lemma bins_units l1 l2 nb mn mx : l1 <> [] -> l2 <> [] -> exists e c c',
  common_histogram_bins 1 1 (map Fin l1) (map Fin l2) nb false mn mx = Ok (Some (e, c)) /\
  common_histogram_bins 1 1 (map Fin (map g l1)) (map Fin (map g l2)) nb false (option_map g mn) (option_map g mx) = Ok (Some (map g e, c')).
Proof.
  intros H1 H2. unfold common_histogram_bins. cbn [Nat.ltb Nat.leb orb]. cbv zeta.
  destruct (nanmin_real l1 H1) as [m1 [E1 _]]. destruct (nanmin_real l2 H2) as [m2 [E2 _]].
  destruct (nanmax_real l1 H1) as [x1 [F1 _]]. destruct (nanmax_real l2 H2) as [x2 [F2 _]].
  rewrite (g_nanmin _ _ H1 E1), (g_nanmin _ _ H2 E2), (g_nanmax _ _ H1 F1), (g_nanmax _ _ H2 F2), E1, E2, F1, F2, !map_length.
  rewrite g_fmin, g_fmax. destruct (fmin_fin m1 m2) as [lo ->]. destruct (fmax_fin x1 x2) as [hi ->].
  assert (L : exists lo', match mn with Some v => fmax2 (Fin lo) (Fin v) | None => Fin lo end = Fin lo' /\
     match option_map g mn with Some v => fmax2 (Fin (g lo)) (Fin v) | None => Fin (g lo) end = Fin (g lo')).
  { destruct mn as [v|]; cbn [option_map]; [|eauto]. rewrite g_fmax. destruct (fmax_fin lo v) as [m ->]. eauto. }
  assert (M : exists hi', match mx with Some v => fmin2 (Fin hi) (Fin v) | None => Fin hi end = Fin hi' /\
     match option_map g mx with Some v => fmin2 (Fin (g hi)) (Fin v) | None => Fin (g hi) end = Fin (g hi')).
  { destruct mx as [v|]; cbn [option_map]; [|eauto]. rewrite g_fmin. destruct (fmin_fin hi v) as [m ->]. eauto. }
  destruct L as [lo' [-> ->]]. destruct M as [hi' [-> ->]]. rewrite g_linspace. eauto.
Qed.
(** *** One PDF object, and the distances *)
Section Objects.
Variable fit_lognorm : list fl -> result (fl * fl).
Definition same_fit (do_fit : bool) (l : list R) : Prop := do_fit = true -> fit_lognorm (map Fin (map g l)) = fit_lognorm (map Fin l).
Lemma run_units l e do_fit : same_fit do_fit l ->
  match pdf_run fit_lognorm (map Fin l) e do_fit, pdf_run fit_lognorm (map Fin (map g l)) (map g e) do_fit with
  | Ok p, Ok p' => ob_data p = map Fin l /\ ob_data p' = map Fin (map g l) /\ ob_pdf p' = map D (ob_pdf p) /\ ob_fit p' = ob_fit p
  | Err x, Err x' => x = x'
  | _, _ => False
  end.
Proof.
  intros Hf. unfold pdf_run, make_pdf, histogram_fl, histogram, bin_edges, make_ecdf. cbn [p_data p_bins p_pdf bind]. rewrite !fins_Fin, g_nondec.
  destruct (nondecreasing e); [|reflexivity]. cbn [bind fst snd p_data p_bins p_pdf]. destruct do_fit.
  - rewrite (Hf eq_refl). destruct (fit_lognorm (map Fin l)) as [f|x]; cbn [bind]; [|reflexivity].
    cbn. split; [reflexivity|]. split; [reflexivity|]. split; [apply g_density|reflexivity].
  - cbn. split; [reflexivity|]. split; [reflexivity|]. split; [apply g_density|reflexivity].
Qed.
Lemma metric_units d d' st r l1 l2 : l1 <> [] -> l2 <> [] -> pd_do_fit d' = pd_do_fit d ->
  ob_data (pd_1 d) = map Fin l1 -> ob_data (pd_1 d') = map Fin (map g l1) -> ob_pdf (pd_1 d') = map D (ob_pdf (pd_1 d)) -> ob_fit (pd_1 d') = ob_fit (pd_1 d) ->
  ob_data (pd_2 d) = map Fin l2 -> ob_data (pd_2 d') = map Fin (map g l2) -> ob_pdf (pd_2 d') = map D (ob_pdf (pd_2 d)) -> ob_fit (pd_2 d') = ob_fit (pd_2 d) ->
  metric d' st r = metric d st r.
Proof.
  intros N1 N2 F A1 B1 C1 E1 A2 B2 C2 E2.
  assert (HH : forall r, compute_hellinger d' r = compute_hellinger d r) by (intros; unfold compute_hellinger; now rewrite C1, C2, D_hellinger).
  assert (HK : forall r, compute_ks d' r = compute_ks d r).
  { intros. unfold compute_ks. rewrite A1, A2, B1, B2, !fins_Fin. now rewrite (ks_monotone g l1 l2 N1 N2) by (intros; now apply g_lt). }
  assert (HL : forall r, compute_lognormal d' r = compute_lognormal d r) by (intros; unfold compute_lognormal; now rewrite E1, E2).
  unfold metric. rewrite F. rewrite HH, HK, HL. destruct (is_literal st "all"); [|reflexivity].
  destruct (compute_hellinger d r) as [r1|]; [|reflexivity]. cbn [bind]. rewrite HK. destruct (compute_ks d r1) as [r2|]; [|reflexivity]. cbn [bind]. now rewrite HL.
Qed.
End Objects.
End Units.

(** ** The data kept, in other units *)
Lemma restated_fin a b x : restated a b (Fin x) = Fin (a * x + b).
Proof. reflexivity. Qed.
Lemma restated_isfin a b x : is_fin (restated a b x) = is_fin x.
Proof. unfold restated. destruct x; cbn; try reflexivity; unfold sinf; destruct (Rltb 0 a); try reflexivity; destruct (Rltb a 0); reflexivity. Qed.
Lemma restated_ltb a b x y : 0 < a -> fltb (restated a b x) (restated a b y) = fltb x y.
Proof.
  intros Pos. assert (P1 : forall v, v = PInf \/ v = NInf \/ v = NaN -> restated a b v = v).
  { intros v [-> | [-> | ->]]; unfold restated; cbn [fmul]; unfold sinf; destruct (Rltb_spec 0 a); try reflexivity; lra. }
  destruct x as [x| | |], y as [y| | |]; rewrite ?(P1 PInf), ?(P1 NInf), ?(P1 NaN) by auto; rewrite ?restated_fin; cbn [fltb]; try reflexivity.
  destruct (Rltb_spec (a * x + b) (a * y + b)) as [H|H], (Rltb_spec x y) as [G|G]; try reflexivity; exfalso.
  - apply G. apply Rmult_lt_reg_l with a; lra.
  - apply H. apply Rplus_lt_compat_r, Rmult_lt_compat_l; assumption.
Qed.
Lemma kept_real img mn w : exists l, init_data img mn w None = Ok (map Fin l).
Proof.
  unfold init_data. destruct w as [w|].
  - assert (H : forallb is_fin (map (fun p => fmul (fst p) (snd p)) (filter (fun p => is_fin (snd p)) (filter (fun p => is_fin (fst p) && fltb mn (fst p)) (combine img w)))) = true).
    { apply forallb_forall. intros x H. apply in_map_iff in H as [[u v] [<- H]]. apply filter_In in H as [H Hv]. apply filter_In in H as [_ Hu]. cbn in *.
      apply andb_prop in Hu as [Hu _]. destruct u, v; try discriminate. reflexivity. }
    destruct (all_Fin _ H) as [l ->]. now exists l.
  - assert (H : forallb is_fin (filter (fun x => is_fin x && fltb mn x) img) = true).
    { apply forallb_forall. intros x H. apply filter_In in H as [_ H]. now apply andb_prop in H. }
    destruct (all_Fin _ H) as [l ->]. now exists l.
Qed.
Lemma filter_map {A B} (f : A -> B) p l : filter p (map f l) = map f (filter (fun x => p (f x)) l).
Proof. induction l as [|x l IH]; [reflexivity|]. cbn. destruct (p (f x)); cbn; now rewrite IH. Qed.
Lemma combine_map_l {A B C} (f : A -> B) (l : list A) (l' : list C) : combine (map f l) l' = map (fun p => (f (fst p), snd p)) (combine l l').
Proof. revert l'. induction l as [|x l IH]; intros [|y l']; cbn; try reflexivity. now rewrite IH. Qed.
Lemma restated_map a b l : map (restated a b) (map Fin l) = map Fin (map (fun x => a * x + b) l).
Proof. rewrite !map_map. apply map_ext. reflexivity. Qed.
Lemma kept_units a b img mn w l : 0 < a -> (w = None \/ b = 0) -> init_data img mn w None = Ok (map Fin l) ->
  init_data (map (restated a b) img) (restated a b mn) w None = Ok (map Fin (map (fun x => a * x + b) l)).
Proof.
  intros Pos Hw H. rewrite <- restated_map. unfold init_data in *. injection H as H. rewrite <- H. f_equal. destruct w as [w|].
  - destruct Hw as [Hw| ->]; [discriminate|]. rewrite combine_map_l, filter_map. cbn [fst snd]. rewrite filter_map. cbn [snd]. rewrite map_map, map_map. cbn [fst snd].
    rewrite (filter_ext (fun x => is_fin (restated a 0 (fst x)) && fltb (restated a 0 mn) (restated a 0 (fst x))) (fun x => is_fin (fst x) && fltb mn (fst x)))
      by (intros; now rewrite restated_isfin, restated_ltb).
    apply map_ext_in. intros [u v] Hu. apply filter_In in Hu as [Hu Hv]. apply filter_In in Hu as [_ Hu]. cbn in *. apply andb_prop in Hu as [Hu _].
    destruct u as [u| | |], v as [v| | |]; try discriminate. cbn. f_equal. ring.
  - rewrite filter_map. f_equal. apply filter_ext. intros x. now rewrite restated_isfin, restated_ltb.
Qed.

(** ** The distances, in other units *)
Section Distances.
Variable fit_lognorm : list fl -> result (fl * fl).
Let dist := distances fit_lognorm.
Lemma dist_units a b img1 img2 o st : 0 < a -> po_norm o = None -> (unweighted o \/ b = 0) ->
  (po_do_fit o = true -> b = 0 /\ forall l, fit_lognorm (map (fmul (Fin a)) l) = fit_lognorm l) ->
  dist (map (restated a b) img1) (map (restated a b) img2) (restated_opts a b o) st = dist img1 img2 o st.
Proof.
  intros Pos Hn Hw Hf. unfold dist, distances, init. cbn [restated_opts po_do_fit po_norm po_nbins po_weights1 po_weights2 po_bin_min po_bin_max po_min1 po_min2].
  destruct (distance_init (po_do_fit o) (po_norm o)) as [[]|]; cbn [bind]; [|reflexivity]. rewrite Hn.
  destruct (kept_real img1 (po_min1 o) (po_weights1 o)) as [l1 E1]. destruct (kept_real img2 (po_min2 o) (po_weights2 o)) as [l2 E2].
  assert (W1 : po_weights1 o = None \/ b = 0) by (destruct Hw as [[Hw _]|Hw]; auto). assert (W2 : po_weights2 o = None \/ b = 0) by (destruct Hw as [[_ Hw]|Hw]; auto).
  rewrite (kept_units a b _ _ _ _ Pos W1 E1), (kept_units a b _ _ _ _ Pos W2 E2), E1, E2.
  cbn [bind]. rewrite !map_length. destruct (Nat.eqb_spec (length l1) 0) as [Z1|Z1]; [reflexivity|]. destruct (Nat.eqb_spec (length l2) 0) as [Z2|Z2]; [reflexivity|].
  cbn [orb]. rewrite !all_Fin_map. cbn [andb negb]. assert (N1 : l1 <> []) by (now intros ->). assert (N2 : l2 <> []) by (now intros ->).
  destruct (bins_units a b Pos l1 l2 (po_nbins o) (po_bin_min o) (po_bin_max o) N1 N2) as (e & c & c' & -> & ->). cbn [bind].
  assert (SF : forall l, same_fit a b fit_lognorm (po_do_fit o) l).
  { intros l Hd. destruct (Hf Hd) as [-> Hl]. rewrite <- (Hl (map Fin l)). f_equal. rewrite !map_map. apply map_ext. intros x. cbn. f_equal. ring. }
  assert (R1 := run_units a b Pos fit_lognorm l1 e (po_do_fit o) (SF l1)). assert (R2 := run_units a b Pos fit_lognorm l2 e (po_do_fit o) (SF l2)). 
  destruct (pdf_run fit_lognorm (map Fin l1) e (po_do_fit o)) as [p1|x1], (pdf_run fit_lognorm (map Fin (map (fun x => a * x + b) l1)) (map (fun x => a * x + b) e) (po_do_fit o)) as [p1'|x1'];
    try contradiction; cbn [bind]; [|now rewrite R1].
  destruct (pdf_run fit_lognorm (map Fin l2) e (po_do_fit o)) as [p2|x2], (pdf_run fit_lognorm (map Fin (map (fun x => a * x + b) l2)) (map (fun x => a * x + b) e) (po_do_fit o)) as [p2'|x2'];
    try contradiction; cbn [bind]; [|now rewrite R2].
  destruct R1 as (A1 & B1 & C1 & F1), R2 as (A2 & B2 & C2 & F2). apply (metric_units a b Pos _ _ st nothing l1 l2 N1 N2); cbn; auto.
Qed.
End Distances.
