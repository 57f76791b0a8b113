From Coq Require Import String Reals List ZArith Arith Bool Lia Lra Permutation.
From Coquelicot Require Import Complex.
From Verif Require Import Lib.PyBase Lib.Arr Lib.DFT Lib.Fl Lib.RSum Lib.Bins Spec.Bins Spec.Blank Spec.Freq Spec.Velocity Spec.ScfSpectrum Spec.PspecFit
  Model.StatsUtils Model.Psds Model.EllipPlaw Model.FitState Model.ScfSpectrum Model.PspecFit
  Proofs.Fl_Proofs Proofs.StatsUtils2_Proofs Proofs.Psds_Proofs Proofs.Psds2_Proofs Proofs.Beam_Proofs Proofs.ScfSpectrum2_Proofs Proofs.PspecFit_Proofs Proofs.PspecFit2_Proofs Proofs.PspecFit3_Proofs Proofs.PspecFit4_Proofs.
Import ListNotations.
Local Open Scope R_scope.

(** ** A positive factor passes through the radial spectrum *)
Section Homogeneous.
Variable k : R.
Hypothesis Hk : 0 < k.
Local Notation "'K' x" := (fmul (Fin k) x) (at level 30).

Lemma sinf_k a : sinf (k * a) = sinf a.
Proof.
  unfold sinf. destruct (Rltb_spec 0 a) as [P|P]; [destruct (Rltb_spec 0 (k * a)) as [|N]; [reflexivity|exfalso; apply N; nra]|].
  destruct (Rltb_spec 0 (k * a)) as [N|N]; [exfalso; nra|]. destruct (Rltb_spec a 0) as [Q|Q]; destruct (Rltb_spec (k * a) 0) as [Q'|Q']; try reflexivity; exfalso; nra.
Qed.
Lemma sinf_pos : sinf k = PInf.
Proof. unfold sinf. destruct (Rltb_spec 0 k); [reflexivity|contradiction]. Qed.
Ltac kk := cbn [fmul fneg fadd]; rewrite ?sinf_pos; cbn [fneg].
Lemma K_sinf a : K (sinf a) = sinf a.
Proof. unfold sinf at 1 2. destruct (Rltb 0 a); [kk; now rewrite ?sinf_pos|]. destruct (Rltb a 0); [kk; reflexivity|reflexivity]. Qed.
Lemma K_nan x : is_nan (K x) = is_nan x.
Proof. destruct x; kk; reflexivity. Qed.
Lemma K_fin x : is_fin (K x) = is_fin x.
Proof. destruct x; kk; reflexivity. Qed.
Lemma K_add x y : K (fadd x y) = fadd (K x) (K y).
Proof. destruct x, y; kk; try reflexivity. f_equal. ring. Qed.
Lemma K_neg x : K (fneg x) = fneg (K x).
Proof. destruct x; kk; try reflexivity. f_equal. ring. Qed.
Lemma K_sub x y : K (fsub x y) = fsub (K x) (K y).
Proof. unfold fsub. now rewrite K_add, K_neg. Qed.
Lemma K_div x n : K (fdiv x (Fin n)) = fdiv (K x) (Fin n).
Proof.
  assert (P1 : fmul (Fin k) PInf = PInf) by (kk; reflexivity). assert (P2 : fmul (Fin k) NInf = NInf) by (kk; reflexivity).
  destruct x as [a| | |]; rewrite ?P1, ?P2; unfold fdiv.
  - change (K (Fin a)) with (Fin (k * a)). cbv iota beta. destruct (Reqb_spec n 0); [rewrite sinf_k; apply K_sinf|]. change (Fin (k * (a / n)) = Fin (k * a / n)). f_equal. field. assumption.
  - destruct (Rltb n 0); assumption.
  - destruct (Rltb n 0); assumption.
  - reflexivity.
Qed.
Lemma K_mul x y : K (fmul x y) = fmul (K x) y.
Proof.
  assert (N : forall r, K (fneg (sinf r)) = fneg (sinf r)) by (intros r; rewrite K_neg, K_sinf; reflexivity).
  assert (P1 : fmul (Fin k) PInf = PInf) by (kk; reflexivity). assert (P2 : fmul (Fin k) NInf = NInf) by (kk; reflexivity).
  destruct x as [a| | |], y as [b| | |]; rewrite ?P1, ?P2;
    repeat match goal with
    | |- context [fmul (Fin ?r) (Fin ?t)] => change (fmul (Fin r) (Fin t)) with (Fin (r * t))
    | |- context [fmul (Fin a) PInf] => change (fmul (Fin a) PInf) with (sinf a)
    | |- context [fmul (Fin a) NInf] => change (fmul (Fin a) NInf) with (fneg (sinf a))
    | |- context [fmul (Fin (k * a)) PInf] => change (fmul (Fin (k * a)) PInf) with (sinf (k * a))
    | |- context [fmul (Fin (k * a)) NInf] => change (fmul (Fin (k * a)) NInf) with (fneg (sinf (k * a)))
    | |- context [fmul PInf (Fin b)] => change (fmul PInf (Fin b)) with (sinf b)
    | |- context [fmul NInf (Fin b)] => change (fmul NInf (Fin b)) with (fneg (sinf b))
    end; rewrite ?sinf_k, ?N, ?K_sinf; try reflexivity; try (kk; reflexivity).
  f_equal. ring.
Qed.
Lemma K_eq0 x : feqb (K x) (Fin 0) = feqb x (Fin 0).
Proof. destruct x as [a| | |]; kk; cbn [feqb]; try reflexivity. destruct (Reqb_spec (k * a) 0), (Reqb_spec a 0); try reflexivity; exfalso; nra. Qed.
Lemma K_quot x y : fdiv (K x) (K y) = fdiv x y.
Proof.
  destruct x as [a| | |], y as [b| | |]; kk; cbn [fdiv]; try reflexivity.
  - assert (E : Reqb (k * b) 0 = Reqb b 0) by (destruct (Reqb_spec (k * b) 0), (Reqb_spec b 0); try reflexivity; exfalso; nra). rewrite E. destruct (Reqb_spec b 0); [apply sinf_k|]. f_equal. field. split; lra.
  - assert (E : Rltb (k * b) 0 = Rltb b 0) by (destruct (Rltb_spec (k * b) 0), (Rltb_spec b 0); try reflexivity; exfalso; nra). now rewrite E.
  - assert (E : Rltb (k * b) 0 = Rltb b 0) by (destruct (Rltb_spec (k * b) 0), (Rltb_spec b 0); try reflexivity; exfalso; nra). now rewrite E.
Qed.
Lemma nonnan_K l : nonnan (map (fmul (Fin k)) l) = map (fmul (Fin k)) (nonnan l).
Proof. induction l as [|x l IH]; [reflexivity|]. unfold nonnan in *. cbn [map filter]. rewrite K_nan. destruct (is_nan x); cbn [negb map]; now rewrite IH. Qed.
Lemma nansum_K l : nansum (map (fmul (Fin k)) l) = K (nansum l).
Proof. unfold nansum. rewrite nonnan_K. unfold fsum. induction (nonnan l) as [|x l' IH]; cbn [map fold_right]; [kk; f_equal; ring|]. now rewrite IH, K_add. Qed.
Lemma nancount_K l : nancount (map (fmul (Fin k)) l) = nancount l.
Proof. unfold nancount. now rewrite nonnan_K, map_length. Qed.
Lemma nanmean_K l : nanmean (map (fmul (Fin k)) l) = K (nanmean l).
Proof. unfold nanmean. now rewrite nansum_K, nancount_K, K_div. Qed.
End Homogeneous.

Lemma K_sqr k x : 0 < k -> fsqr (fmul (Fin k) x) = fmul (Fin (k * k)) (fsqr x).
Proof.
  intros Hk. assert (Hkk : 0 < k * k) by nra. unfold fsqr. destruct x as [a| | |]; cbn [fmul]; rewrite ?(sinf_pos k Hk), ?(sinf_pos _ Hkk); cbn [fneg fmul]; rewrite ?(sinf_pos _ Hkk); try reflexivity. f_equal. ring.
Qed.
Lemma K_sqrt k x : 0 < k -> fsqrt (fmul (Fin (k * k)) x) = fmul (Fin k) (fsqrt x).
Proof.
  intros Hk. assert (Hkk : 0 < k * k) by nra. destruct x as [a| | |]; cbn [fmul fsqrt]; rewrite ?(sinf_pos k Hk), ?(sinf_pos _ Hkk); cbn [fneg fmul fsqrt]; try reflexivity.
  - destruct (Rltb_spec a 0), (Rltb_spec (k * k * a) 0); cbn [fmul]; try reflexivity; try (exfalso; nra). f_equal. rewrite sqrt_mult by nra. rewrite sqrt_square by lra. reflexivity.
Qed.
Lemma nanstd1_K k l : 0 < k -> nanstd1 (map (fmul (Fin k)) l) = fmul (Fin k) (nanstd1 l).
Proof.
  intros Hk. assert (Hkk : 0 < k * k) by nra. unfold nanstd1. cbv zeta. rewrite nonnan_K, map_length by assumption. destruct (Nat.leb _ 1); [reflexivity|].
  rewrite <- K_sqrt by assumption. f_equal. rewrite K_div by assumption. f_equal. rewrite <- nansum_K by assumption. f_equal. rewrite !map_map. apply map_ext. intros v.
  rewrite nanmean_K, <- K_sub, K_sqr by assumption. reflexivity.
Qed.

Lemma in_bin_values_K {V W} (f : V -> W) edges (sample : list R) (vals : list V) b : in_bin_values edges sample (map f vals) b = map f (in_bin_values edges sample vals b).
Proof.
  unfold in_bin_values. revert vals. induction sample as [|x sample IH]; intros vals; [reflexivity|]. destruct vals as [|v vals]; [reflexivity|].
  cbn [map combine filter fst snd]. destruct (opt_eqb _ _); cbn [map snd]; now rewrite IH.
Qed.
Lemma map_tab1 {A B} (f : A -> B) n g : map f (tab1 n g) = tab1 n (fun i => f (g i)).
Proof. unfold tab1. now rewrite map_map. Qed.
Lemma at2_map k ps i j : at2 NaN (map (map (fmul (Fin k))) ps) i j = fmul (Fin k) (at2 NaN ps i j).
Proof.
  unfold at2. replace (nth i (map (map (fmul (Fin k))) ps) []) with (map (fmul (Fin k)) (nth i ps [])) by (symmetry; apply (map_nth (map (fmul (Fin k))) ps [])).
  exact (map_nth (fmul (Fin k)) (nth i ps []) NaN j).
Qed.
Lemma map2_map_l {A B C D} (f : A -> B) (h : B -> C -> D) l1 l2 : map2 h (map f l1) l2 = map2 (fun a c => h (f a) c) l1 l2.
Proof. revert l2. induction l1 as [|x l IH]; intros [|y l2]; cbn; [reflexivity..|]. now rewrite IH. Qed.
Lemma map_map2 {A B C D} (f : C -> D) (h : A -> B -> C) l1 l2 : map f (map2 h l1 l2) = map2 (fun a b => f (h a b)) l1 l2.
Proof. revert l2. induction l1 as [|x l IH]; intros [|y l2]; cbn; [reflexivity..|]. now rewrite IH. Qed.
Lemma map2_ext {A B C} (f g : A -> B -> C) l1 l2 : (forall a b, f a b = g a b) -> map2 f l1 l2 = map2 g l1 l2.
Proof. intros H. revert l2. induction l1 as [|x l IH]; intros [|y l2]; cbn; [reflexivity..|]. now rewrite H, IH. Qed.

Definition scale_profile (k : R) (p : radial_profile) : radial_profile :=
  {| prof_edges := prof_edges p; prof_bins := prof_bins p; prof_ps1D := map (fmul (Fin k)) (prof_ps1D p);
     prof_stddev := match prof_stddev p with Some s => Some (map (fmul (Fin k)) s) | None => None end; prof_mask := prof_mask p |}.
Lemma pspec_K tppf ps nbins sd binsize logs maxb minb rf t0 dt k : 0 < k ->
  pspec tppf (map (map (fmul (Fin k))) ps) nbins sd binsize logs maxb minb rf t0 dt nanmean =
  (p <- pspec tppf ps nbins sd binsize logs maxb minb rf t0 dt nanmean ;; Ok (scale_profile k p)).
Proof.
  intros Hk. unfold pspec. rewrite map_length.
  assert (EH : length (hd [] (map (map (fmul (Fin k))) ps)) = length (hd [] ps)) by (destruct ps as [|r ps]; [reflexivity|apply map_length]). rewrite EH. cbv zeta.
  match goal with |- bind ?m _ = _ => destruct m as [mask|e]; [|reflexivity] end. cbn [bind].
  match goal with |- (if ?c then _ else _) = _ => destruct c; [reflexivity|] end.
  match goal with |- (if ?c then _ else _) = _ => destruct c; [reflexivity|] end.
  rewrite (filter_ext (fun p => is_fin (at2 NaN (map (map (fmul (Fin k))) ps) (fst p) (snd p)) && match mask with Some m => m (fst p) (snd p) | None => true end)
             (fun p => is_fin (at2 NaN ps (fst p) (snd p)) && match mask with Some m => m (fst p) (snd p) | None => true end))
    by (intros p; now rewrite at2_map, K_fin by assumption).
  match goal with |- context [filter ?f (pixels ?a ?b)] => set (sel := filter f (pixels a b)) end.
  rewrite (map_ext (fun p => at2 NaN (map (map (fmul (Fin k))) ps) (fst p) (snd p)) (fun p => fmul (Fin k) (at2 NaN ps (fst p) (snd p)))) by (intros; apply at2_map).
  rewrite <- (map_map (fun p => at2 NaN ps (fst p) (snd p)) (fmul (Fin k))). set (vals := map (fun p => at2 NaN ps (fst p) (snd p)) sel).
  match goal with |- context [binned_statistic _ ?e ?s _] => set (edges := e); set (sample := s) end.
  assert (EM : binned_statistic nanmean edges sample (map (fmul (Fin k)) vals) = map (fmul (Fin k)) (binned_statistic nanmean edges sample vals)).
  { unfold binned_statistic. rewrite map_tab1. apply tab1_ext. intros i _. now rewrite in_bin_values_K, nanmean_K. }
  assert (ES : binned_statistic nanstd1 edges sample (map (fmul (Fin k)) vals) = map (fmul (Fin k)) (binned_statistic nanstd1 edges sample vals)).
  { unfold binned_statistic. rewrite map_tab1. apply tab1_ext. intros i _. now rewrite in_bin_values_K, nanstd1_K. }
  assert (EC : binned_statistic (@length fl) edges sample (map (fmul (Fin k)) vals) = binned_statistic (@length fl) edges sample vals).
  { unfold binned_statistic. apply tab1_ext. intros i _. now rewrite in_bin_values_K, map_length. }
  rewrite EM, ES, EC. destruct sd; cbn [negb bind]; [|reflexivity]. unfold scale_profile. cbn [prof_edges prof_bins prof_ps1D prof_stddev prof_mask].
  rewrite !map2_map_l, !map_map2. f_equal. f_equal.
  - apply map2_ext. intros v c. now destruct (Nat.leb c 1).
  - f_equal. set (cts := binned_statistic (@length fl) edges sample vals). set (sds := binned_statistic nanstd1 edges sample vals).
    rewrite <- (map2_map_l (fmul (Fin k)) (fun s c => if fltb (Fin 1) (fdiv (tppf c) (fsqrt (Fin (INR c)))) then fmul s (fdiv (tppf c) (fsqrt (Fin (INR c)))) else s) sds cts).
    assert (EI : map2 (fun s c => if fltb (Fin 1) (fdiv (tppf c) (fsqrt (Fin (INR c)))) then fmul s (fdiv (tppf c) (fsqrt (Fin (INR c)))) else s) (map (fmul (Fin k)) sds) cts =
                 map (fmul (Fin k)) (map2 (fun s c => if fltb (Fin 1) (fdiv (tppf c) (fsqrt (Fin (INR c)))) then fmul s (fdiv (tppf c) (fsqrt (Fin (INR c)))) else s) sds cts)).
    { rewrite map2_map_l, map_map2. apply map2_ext. intros s c. destruct (fltb _ _); [now rewrite <- K_mul|reflexivity]. }
    rewrite EI, map2_map_l. apply map2_ext. intros s c. now destruct (Nat.leb c 1).
Qed.

Lemma power_scaled ny nx c image : (1 <= ny)%nat -> (1 <= nx)%nat ->
  map (map Fin) (power_ps2D ny nx (scaled c image)) = map (map (fmul (Fin (c ^ 2)))) (map (map Fin) (power_ps2D ny nx image)).
Proof.
  intros Hy Hx. rewrite !power_tab by assumption. rewrite !map_tab2. apply tab2_ext. intros i j _ _. cbn [fmul]. f_equal. apply mode_power_scaled.
Qed.

(** ** Binned fits of the scaled image *)
Lemma bin_row_K weighted k b p : 0 < k -> snd (fst b) = Fin p -> 0 < p -> bin_row weighted (fst (fst b), fmul (Fin k) (snd (fst b)), fmul (Fin k) (snd b)) =
  (flog10 (Fin (fst (fst b))), Fin (log10 p + log10 k), weight_of weighted (snd (fst b)) (snd b)).
Proof.
  intros Hk E Hp. destruct b as [[f v] s]. cbn [fst snd] in *. subst v. unfold bin_row. change (fmul (Fin k) (Fin p)) with (Fin (k * p)). rewrite (flog10_pos (k * p)) by (apply Rmult_lt_0_compat; assumption). rewrite log10_mult by assumption. f_equal; [f_equal; f_equal; ring|].
  unfold weight_of. destruct weighted; [|reflexivity]. cbv zeta. rewrite K_eq0 by assumption. f_equal. f_equal.
  change (Fin (k * p)) with (fmul (Fin k) (Fin p)). destruct (feqb s (Fin 0)).
  - reflexivity.
  - rewrite <- (K_quot k Hk (fmul (Fin (434 / 1000)) s) (Fin p)). f_equal.
    assert (CM : forall x y, fmul x y = fmul y x) by (intros [a| | |] [b| | |]; cbn; try reflexivity; now rewrite Rmult_comm).
    rewrite (CM (Fin (434/1000)) (fmul (Fin k) s)), (CM (Fin (434/1000)) s). now rewrite <- K_mul.
Qed.

Lemma bins_of_K k freqs ps1D sd : bins_of freqs (map (fmul (Fin k)) ps1D) (map (fmul (Fin k)) sd) =
  map (fun b => (fst (fst b), fmul (Fin k) (snd (fst b)), fmul (Fin k) (snd b))) (bins_of freqs ps1D sd).
Proof.
  unfold bins_of. revert ps1D sd. induction freqs as [|f freqs IH]; intros ps1D sd; [reflexivity|]. destruct ps1D as [|v ps1D]; [reflexivity|]. destruct sd as [|s sd]; [reflexivity|].
  cbn [map combine fst snd]. now rewrite IH.
Qed.
Lemma left_out_K weighted k b : 0 < k -> left_out weighted b -> left_out weighted (fst (fst b), fmul (Fin k) (snd (fst b)), fmul (Fin k) (snd b)).
Proof.
  intros Hk. destruct b as [[f v] s]. cbn [fst snd left_out]. intros [->|[W [->| ->]]]; [now left|right; split; [exact W|now left]|right; split; [exact W|right]].
  cbn [fmul]. f_equal. ring.
Qed.
Lemma filter_shift weighted k bins : 0 < k -> (forall b, In b bins -> 0 < fst (fst b)) ->
  (forall b, In b bins -> left_out weighted b \/ (counted weighted b /\ exists p, power_is p b /\ 0 < p)) -> forall rr,
  filter row_ok (map (bin_row weighted) bins) = map as_row rr ->
  filter row_ok (map (bin_row weighted) (map (fun b => (fst (fst b), fmul (Fin k) (snd (fst b)), fmul (Fin k) (snd b))) bins)) = map as_row (map (shift_y (log10 k)) rr).
Proof.
  intros Hk. induction bins as [|b bins IH]; intros Hf Hb rr E.
  - destruct rr; [reflexivity|discriminate].
  - assert (Hfb : 0 < fst (fst b)) by (apply Hf; now left).
    assert (IH' : forall rr, filter row_ok (map (bin_row weighted) bins) = map as_row rr ->
      filter row_ok (map (bin_row weighted) (map (fun b => (fst (fst b), fmul (Fin k) (snd (fst b)), fmul (Fin k) (snd b))) bins)) = map as_row (map (shift_y (log10 k)) rr)).
    { apply IH; intros; [apply Hf|apply Hb]; now right. } clear IH.
    cbn [map filter] in *. destruct (Hb b (or_introl eq_refl)) as [L|[C [p [P Hp]]]].
    + rewrite (left_out_row _ _ L) in E. rewrite (left_out_row _ _ (left_out_K weighted k b Hk L)). now apply IH'.
    + unfold power_is in P. rewrite (bin_row_K weighted k b p Hk P Hp). destruct b as [[f v] s]. cbn [fst snd] in *. subst v.
      destruct (counted_row weighted f (Fin p) s p Hfb C eq_refl Hp) as [w [Ew Hw]]. rewrite Ew, row_ok_as_row in E. destruct rr as [|r rr]; [discriminate|]. cbn [map] in E |- *.
      assert (E0 : as_row (log10 f, log10 p, w) = as_row r) by congruence. assert (E1 : filter row_ok (map (bin_row weighted) bins) = map as_row rr) by congruence.
      assert (EW : weight_of weighted (Fin p) s = Fin w) by (unfold bin_row in Ew; cbn [as_row] in Ew; congruence).
      rewrite flog10_pos by assumption. rewrite EW. change (row_ok (Fin (log10 f), Fin (log10 p + log10 k), Fin w)) with true. cbv iota. rewrite (IH' rr E1).
      assert (ER : (Fin (log10 f), Fin (log10 p + log10 k), Fin w) = as_row (shift_y (log10 k) r)).
      { destruct r as [[x y] w']. cbn [as_row shift_y] in *. assert (log10 f = x /\ log10 p = y /\ w = w') as [-> [-> ->]]; [|reflexivity]. split; [|split]; congruence. }
      now rewrite ER.
Qed.

Lemma filter_keeps_x low high (g h : R * fl * fl -> fl) bins :
  filter (fun b : R * fl * fl => within low high (fst (fst b))) (map (fun b => (fst (fst b), g b, h b)) bins) =
  map (fun b => (fst (fst b), g b, h b)) (filter (fun b => within low high (fst (fst b))) bins).
Proof. induction bins as [|b bins IH]; [reflexivity|]. cbn [map filter fst]. destruct (within _ _ _); cbn [map]; now rewrite IH. Qed.

(** The fit of the bins, in general *)
Lemma binned_fit line err seg o a ps freqs ps1D sd low high : 
  o_ps2D o = Some ps -> o_freqs o = Some freqs -> o_ps1D o = Some ps1D -> o_stddev o = Some sd ->
  f_unbinned a = false -> f_brk a = None ->
  match f_low a with Some r => r | None => default_low ps end = low -> match f_high a with Some r => r | None => rmax_list freqs end = high ->
  least_squares line -> answers line -> forall rr,
  filter row_ok (map (bin_row (f_weighted a)) (filter (fun b => within low high (fst (fst b))) (bins_of freqs ps1D sd))) = map as_row rr ->
  (forall x y w, In (x, y, w) rr -> 0 < w) -> two_x rr ->
  exists o' p q, do_fit line err seg o a = Ok o' /\ t_slope (o_state o') = Some [Fin q] /\ o_amp o' = Some (Fin p) /\ best_line rr p q.
Proof.
  intros E1 E2 E3 E4 HU HB EL EH LS AN rr E Hw T. pose proof (binned_rows o a ps freqs ps1D sd E1 E2 E3 E4 HU) as ER. cbv zeta in ER. rewrite EL, EH in ER.
  destruct (straight_rows line _ rr LS AN E Hw T) as [p [q [ES B]]]. destruct (do_fit_line line err seg o a _ _ _ _ HB ER ES) as [o' [EO [ST [AM _]]]].
  exists o', p, q. split; [exact EO|]. rewrite ST, AM. auto.
Qed.

Theorem binned_scale : forall tppf line err seg solve perms o o1 ny nx image c a freqs ps1D sd low high, (1 <= ny)%nat -> (1 <= nx)%nat -> c <> 0 ->
  f_unbinned (r_fit a) = false -> f_brk (r_fit a) = None -> r_fit_2D a = false -> least_squares line -> answers line ->
  do_prun tppf line err seg solve perms o (Ok (map (map Fin) (power_ps2D ny nx image))) a = Ok o1 ->
  o_freqs o1 = Some freqs -> o_ps1D o1 = Some ps1D -> o_stddev o1 = Some sd -> o_low o1 = Some low -> o_high o1 = Some high -> 0 <= low ->
  (forall b, In b (bins_of freqs ps1D sd) -> low < fst (fst b) <= high ->
     left_out (f_weighted (r_fit a)) b \/ (counted (f_weighted (r_fit a)) b /\ exists p, power_is p b /\ 0 < p)) ->
  (exists b1 b2, In b1 (bins_of freqs ps1D sd) /\ In b2 (bins_of freqs ps1D sd) /\ fst (fst b1) <> fst (fst b2) /\
     (forall b, b = b1 \/ b = b2 -> low < fst (fst b) <= high /\ counted (f_weighted (r_fit a)) b)) ->
  exists o2 s amp, do_prun tppf line err seg solve perms o (Ok (map (map Fin) (power_ps2D ny nx (scaled c image)))) a = Ok o2 /\
    t_slope (o_state o1) = Some [Fin s] /\ t_slope (o_state o2) = Some [Fin s] /\
    o_amp o1 = Some (Fin amp) /\ o_amp o2 = Some (Fin (amp + log10 (c ^ 2))) /\
    o_freqs o2 = Some freqs /\ o_ps1D o2 = Some (map (fmul (Fin (c ^ 2))) ps1D) /\ o_stddev o2 = Some (map (fmul (Fin (c ^ 2))) sd).
Proof.
  intros tppf line err seg solve perms o o1 ny nx image c a freqs ps1D sd low high Hy Hx Hc HU HB H2 LS AN RUN F1 F2 F3 F4 F5 L0 HP HT.
  assert (C2 : 0 < c ^ 2) by (replace (c ^ 2) with (Rsqr c) by (unfold Rsqr; ring); now apply Rsqr_pos_lt).
  destruct (power_shape ny nx image Hy Hx) as [SH1 SH2]. unfold rows_of, cols_of in SH1, SH2.
  destruct (power_shape ny nx (scaled c image) Hy Hx) as [SH3 SH4]. unfold rows_of, cols_of in SH3, SH4.
  unfold do_prun, do_pspec, do_radial in *. cbn [bind o_ps2D o_freqs o_ps1D o_stddev o_azim o_low o_high o_state o_amp o_fit2D] in *. rewrite H2 in *.
  rewrite power_scaled in * by assumption. set (ps := map (map Fin) (power_ps2D ny nx image)) in *. rewrite pspec_K by assumption.
  match type of RUN with bind (bind ?m _) _ = _ => destruct m as [out|e] eqn:EP; [|discriminate] end. cbn [bind] in *.
  change (prof_mask (scale_profile (c ^ 2) out)) with (prof_mask out).
  match type of RUN with bind (bind ?m _) _ = _ => destruct m as [mask|e] eqn:EM; [|discriminate] end. cbn [bind] in *.
  unfold scale_profile at 1 2 3. cbn [prof_bins prof_ps1D prof_stddev].
  set (oa := mk_p (Some ps) _ _ _ _ _ _ _ _ _) in *. set (ob := mk_p _ _ _ _ _ _ _ _ _ _).
  destruct (do_fit line err seg oa (r_fit a)) as [q1|] eqn:EF; [|discriminate]. cbn [bind] in RUN. assert (q1 = o1) by congruence. subst q1. clear RUN.
  assert (KEEP : o_freqs o1 = Some (prof_bins out) /\ o_ps1D o1 = Some (prof_ps1D out) /\ o_stddev o1 = prof_stddev out).
  { unfold do_fit in EF. destruct (fit_rows oa (r_fit a)) as [[[l h] rows]|]; [|discriminate]. cbn [bind] in EF. rewrite HB in EF.
    destruct (straight_line line rows) as [lq|]; [|discriminate]. cbn [bind] in EF. assert (EO : o1 = mk_p (o_ps2D oa) (o_freqs oa) (o_ps1D oa) (o_stddev oa) (o_azim oa) (Some l) (Some h)
      (fit_step true (f_min_pts (r_fit a)) (f_bootstrap (r_fit a)) (snd lq, err (f_bootstrap (r_fit a)) rows) (o_state oa) None) (Some (fst lq)) (o_fit2D oa)) by congruence. rewrite EO. cbn. auto. }
  destruct KEEP as [K1 [K2 K3]]. assert (E1 : prof_bins out = freqs) by congruence. assert (E2 : prof_ps1D out = ps1D) by congruence. assert (E3 : prof_stddev out = Some sd) by congruence. clear K1 K2 K3.
  assert (A1 : o_freqs oa = Some freqs) by (unfold oa; cbn; congruence). assert (A2 : o_ps1D oa = Some ps1D) by (unfold oa; cbn; congruence). assert (A3 : o_stddev oa = Some sd) by (unfold oa; cbn; congruence).
  assert (B1 : o_freqs ob = Some freqs) by (unfold ob; cbn; congruence). assert (B2 : o_ps1D ob = Some (map (fmul (Fin (c ^ 2))) ps1D)) by (unfold ob; cbn; congruence). assert (B3 : o_stddev ob = Some (map (fmul (Fin (c ^ 2))) sd)) by (unfold ob; cbn; now rewrite E3).
  assert (A0 : o_ps2D oa = Some ps) by reflexivity. assert (B0 : o_ps2D ob = Some (map (map (fmul (Fin (c ^ 2)))) ps)) by reflexivity.
  clearbody oa ob. clear E1 E2 E3 EP EM out.
  assert (LIM : match f_low (r_fit a) with Some r => r | None => default_low ps end = low /\ match f_high (r_fit a) with Some r => r | None => rmax_list freqs end = high).
  { pose proof (binned_rows oa (r_fit a) ps freqs ps1D sd A0 A1 A2 A3 HU) as ER. cbv zeta in ER. unfold do_fit in EF. rewrite ER in EF. cbn [bind] in EF. rewrite HB in EF.
    match type of EF with context [straight_line line ?r] => destruct (straight_line line r) as [lq|]; [|discriminate] end. cbn [bind] in EF.
    assert (Q1 : o_low o1 = Some (match f_low (r_fit a) with Some r => r | None => default_low ps end)) by (assert (X := f_equal (fun r => match r with Ok p => o_low p | Err _ => None end) EF); cbn in X; now symmetry).
    assert (Q2 : o_high o1 = Some (match f_high (r_fit a) with Some r => r | None => rmax_list freqs end)) by (assert (X := f_equal (fun r => match r with Ok p => o_high p | Err _ => None end) EF); cbn in X; now symmetry).
    split; congruence. }
  destruct LIM as [EL EH].
  set (bins := filter (fun b => within low high (fst (fst b))) (bins_of freqs ps1D sd)).
  assert (IN : forall b, In b bins <-> In b (bins_of freqs ps1D sd) /\ low < fst (fst b) <= high) by (intros b; unfold bins; rewrite filter_In, within_iff; tauto).
  assert (G1 : forall b, In b bins -> 0 < fst (fst b)) by (intros b Hb; apply IN in Hb; lra).
  assert (G2 : forall b, In b bins -> left_out (f_weighted (r_fit a)) b \/ (counted (f_weighted (r_fit a)) b /\ exists p, power_is p b /\ 0 < p)) by (intros b Hb; apply IN in Hb; apply HP; tauto).
  destruct (kept_rows (f_weighted (r_fit a)) bins G1 G2) as [rr [E [Hw [J1 J2]]]].
  assert (T : two_x rr).
  { destruct HT as [b1 [b2 [I1 [I2 [N HBB]]]]].
    assert (PW : forall b, b = b1 \/ b = b2 -> In b (bins_of freqs ps1D sd) -> exists p w, In (log10 (fst (fst b)), log10 p, w) rr).
    { intros b Hb Ib. destruct (HBB b Hb) as [W C]. destruct (HP b Ib W) as [L|[_ [p [P Pp]]]].
      - exfalso. clear -L C. destruct b as [[f v] g]. cbn [left_out counted] in *. destruct C as [[p ->] C].
        destruct L as [L|[L [->| ->]]]; [discriminate| |]; destruct (C L) as [h [Eh Hh]]; [discriminate|]. injection Eh as Eh. apply Hh. now symmetry.
      - destruct (J2 b p) as [w Hin]; auto; [now apply IN|]. eauto. }
    destruct (PW b1 (or_introl eq_refl) I1) as [p1 [w1 M1]]. destruct (PW b2 (or_intror eq_refl) I2) as [p2 [w2 M2]].
    do 3 eexists. do 3 eexists. split; [exact M1|]. split; [exact M2|]. intros X. apply N. destruct (HBB b1 (or_introl eq_refl)). destruct (HBB b2 (or_intror eq_refl)). apply log10_inj; [lra|lra|exact X]. }
  destruct (binned_fit line err seg oa (r_fit a) ps freqs ps1D sd low high A0 A1 A2 A3 HU HB EL EH LS AN rr E Hw T) as [o1' [p [q [EO [S1 [M1 BL1]]]]]].
  assert (o1' = o1) by congruence. subst o1'.
  assert (EL2 : match f_low (r_fit a) with Some r => r | None => default_low (map (map (fmul (Fin (c ^ 2)))) ps) end = low).
  { rewrite <- EL. destruct (f_low (r_fit a)); [reflexivity|]. unfold default_low, rows_of, cols_of. now rewrite SH1, SH2, SH3, SH4. }
  assert (E' : filter row_ok (map (bin_row (f_weighted (r_fit a))) (filter (fun b => within low high (fst (fst b))) (bins_of freqs (map (fmul (Fin (c ^ 2))) ps1D) (map (fmul (Fin (c ^ 2))) sd)))) = map as_row (map (shift_y (log10 (c ^ 2))) rr)).
  { rewrite bins_of_K. replace (filter (fun b => within low high (fst (fst b))) (map (fun b => (fst (fst b), fmul (Fin (c ^ 2)) (snd (fst b)), fmul (Fin (c ^ 2)) (snd b))) (bins_of freqs ps1D sd)))
      with (map (fun b : R * fl * fl => (fst (fst b), fmul (Fin (c ^ 2)) (snd (fst b)), fmul (Fin (c ^ 2)) (snd b))) bins) by (symmetry; apply filter_keeps_x).
    exact (filter_shift (f_weighted (r_fit a)) (c ^ 2) bins C2 G1 G2 rr E). }
  assert (T' : two_x (map (shift_y (log10 (c ^ 2))) rr)).
  { destruct T as [x1 [y1 [w1 [x2 [y2 [w2 [I1 [I2 N]]]]]]]]. exists x1, (y1 + log10 (c ^ 2)), w1, x2, (y2 + log10 (c ^ 2)), w2.
    split; [apply (in_map (shift_y (log10 (c ^ 2)))) in I1; exact I1|]. split; [apply (in_map (shift_y (log10 (c ^ 2)))) in I2; exact I2|exact N]. }
  assert (Hw' : forall x y w, In (x, y, w) (map (shift_y (log10 (c ^ 2))) rr) -> 0 < w).
  { intros x y w H. apply in_map_iff in H. destruct H as [[[x0 y0] w0] [X I0]]. cbn [shift_y] in X. apply (f_equal snd) in X. cbn [snd] in X. subst w0. now apply (Hw x0 y0). }
  destruct (binned_fit line err seg ob (r_fit a) _ _ _ _ low high B0 B1 B2 B3 HU HB EL2 EH LS AN _ E' Hw' T') as [o2 [p2 [q2 [EO2 [S2 [M2 BL2]]]]]].
  exists o2, q, p. cbn [bind]. rewrite EO2. cbn [bind]. split; [reflexivity|]. split; [exact S1|].
  destruct (best_line_unique _ p2 q2 (p + log10 (c ^ 2)) q Hw' T' BL2) as [-> ->]; [now apply best_line_shift|].
  split; [exact S2|]. split; [exact M1|]. split; [exact M2|].
  unfold do_fit in EO2. destruct (fit_rows ob (r_fit a)) as [[[l h] rows]|]; [|discriminate]. cbn [bind] in EO2. rewrite HB in EO2.
  destruct (straight_line line rows) as [lq|]; [|discriminate]. cbn [bind] in EO2. 
  split; [rewrite <- B1; exact (f_equal (fun r => match r with Ok p => o_freqs p | Err _ => None end) (eq_sym EO2))|].
  split; [rewrite <- B2; exact (f_equal (fun r => match r with Ok p => o_ps1D p | Err _ => None end) (eq_sym EO2))|rewrite <- B3; exact (f_equal (fun r => match r with Ok p => o_stddev p | Err _ => None end) (eq_sym EO2))].
Qed.
