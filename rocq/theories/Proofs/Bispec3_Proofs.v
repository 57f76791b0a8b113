(** Tracker, slices and distances of the bispectrum (C155-C157). *)
From Coq Require Import Reals List ZArith Arith Bool Lia Lra.
From Coquelicot Require Import Complex.
From Verif Require Import Lib.PyBase Lib.Arr Lib.DFT Lib.Fl Lib.RSum Lib.Bins Lib.Trig2 Spec.Bins Spec.Blank Model.StatsUtils Model.Psds Model.Bispec Spec.Waves
  Proofs.Fl_Proofs Proofs.StatsUtils2_Proofs Proofs.Psds_Proofs Proofs.Psds2_Proofs Proofs.ThreeD_Proofs Proofs.Bispec_Proofs Proofs.Bispec2_Proofs Proofs.MakeMoments_Proofs Proofs.FlAlg_Proofs.
Import ListNotations.
Local Open Scope R_scope.

(** ** Tracker *)
Definition cell_t : Type := list (nat * nat) * list (nat * nat) * list (nat * nat) * (C * R).
Definition hits_of (p : nat * nat) (c : cell_t) : Z :=
  let '(i1, i2, i3, _) := c in (zb (existsb (pix_eqb p) i1) + zb (existsb (pix_eqb p) i2) + zb (existsb (pix_eqb p) i3))%Z.

Lemma wrap16_low z : (-32768 <= z -> -32768 <= wrap16 z <= z)%Z.
Proof. intro H. unfold wrap16. pose proof (Z.mod_pos_bound (z + 32768) 65536 ltac:(lia)). pose proof (Z.mod_le (z + 32768) 65536 ltac:(lia) ltac:(lia)). lia. Qed.
Lemma wrap16_id z : (-32768 <= z <= 32767 -> wrap16 z = z)%Z.
Proof. intro H. unfold wrap16. rewrite Z.mod_small by lia. lia. Qed.

Lemma incr_le t idx p : (-32768 <= t p -> -32768 <= incr t idx p <= t p + zb (existsb (pix_eqb p) idx))%Z.
Proof. intro H. unfold incr. destruct (existsb _ _); cbn [zb]; [pose proof (wrap16_low (t p + 1)) |]; lia. Qed.
Lemma incr_eq t idx p : (-32768 <= t p -> t p + zb (existsb (pix_eqb p) idx) <= 32767 -> incr t idx p = t p + zb (existsb (pix_eqb p) idx))%Z.
Proof. intros H K. unfold incr. destruct (existsb _ _); cbn [zb] in *; [apply wrap16_id |]; lia. Qed.
Lemma zb_range b : (0 <= zb b <= 1)%Z.
Proof. destruct b; cbn; lia. Qed.

Lemma tally_le t c p : (-32768 <= t p -> -32768 <= tally t c p <= t p + hits_of p c)%Z.
Proof.
  intro H. destruct c as [[[i1 i2] i3] v]. unfold tally, hits_of.
  pose proof (incr_le t i1 p H) as A. pose proof (incr_le (incr t i1) i2 p ltac:(lia)) as B. pose proof (incr_le (incr (incr t i1) i2) i3 p ltac:(lia)) as D. lia.
Qed.
Lemma tally_eq t c p : (-32768 <= t p -> t p + hits_of p c <= 32767 -> tally t c p = t p + hits_of p c)%Z.
Proof.
  intros H K. destruct c as [[[i1 i2] i3] v]. unfold tally, hits_of in *.
  pose proof (zb_range (existsb (pix_eqb p) i1)). pose proof (zb_range (existsb (pix_eqb p) i2)). pose proof (zb_range (existsb (pix_eqb p) i3)).
  rewrite incr_eq; rewrite incr_eq; rewrite ?incr_eq; lia.
Qed.
Lemma hits_nonneg p c : (0 <= hits_of p c <= 3)%Z.
Proof. destruct c as [[[i1 i2] i3] v]. unfold hits_of. pose proof (zb_range (existsb (pix_eqb p) i1)). pose proof (zb_range (existsb (pix_eqb p) i2)). pose proof (zb_range (existsb (pix_eqb p) i3)). lia. Qed.

Lemma fold_tally_le cells : forall t p, (-32768 <= t p -> -32768 <= fold_left tally cells t p <= t p + zsum (map (hits_of p) cells))%Z.
Proof.
  induction cells as [| c cells IH]; intros t p H; cbn [fold_left map zsum fold_right]; [lia |].
  pose proof (tally_le t c p H) as A. pose proof (IH (tally t c) p ltac:(lia)) as B. unfold zsum in B. lia.
Qed.
Lemma zsum_nonneg {A} (f : A -> Z) l : (forall a, 0 <= f a)%Z -> (0 <= zsum (map f l))%Z.
Proof. intro H. induction l as [| a l IH]; cbn; [lia |]. specialize (H a). unfold zsum in IH. lia. Qed.
Lemma fold_tally_eq cells : forall t p, (-32768 <= t p -> t p + zsum (map (hits_of p) cells) <= 32767 -> fold_left tally cells t p = t p + zsum (map (hits_of p) cells))%Z.
Proof.
  induction cells as [| c cells IH]; intros t p H K; cbn [fold_left map zsum fold_right] in *; [lia |].
  assert (0 <= zsum (map (hits_of p) cells))%Z by (apply zsum_nonneg; intro; apply hits_nonneg). pose proof (hits_nonneg p c). unfold zsum in *.
  rewrite IH; rewrite tally_eq; lia.
Qed.

Lemma zsum_le {A} (f g : A -> Z) l : (forall a, In a l -> f a <= g a)%Z -> (zsum (map f l) <= zsum (map g l))%Z.
Proof. induction l as [| a l IH]; intro H; cbn; [lia |]. pose proof (H a (or_introl eq_refl)). assert (zsum (map f l) <= zsum (map g l))%Z by (apply IH; intros; apply H; now right). unfold zsum in *. lia. Qed.
Lemma zsum_plus {A} (f g : A -> Z) l : zsum (map (fun a => f a + g a)%Z l) = (zsum (map f l) + zsum (map g l))%Z.
Proof. induction l as [| a l IH]; cbn; [lia |]. unfold zsum in *. rewrite IH. lia. Qed.
Lemma zsum_exchange {A B} (f : A -> B -> Z) l m : zsum (map (fun a => zsum (map (f a) m)) l) = zsum (map (fun b => zsum (map (fun a => f a b) l)) m).
Proof.
  induction l as [| a l IH]; cbn [map zsum fold_right].
  - induction m as [| b m IHm]; cbn; [reflexivity |]. unfold zsum in IHm. cbn in IHm. lia.
  - fold (zsum (map (fun a => zsum (map (f a) m)) l)). rewrite IH. rewrite <- zsum_plus. reflexivity.
Qed.
Lemma zsum_const {A} c (l : list A) : zsum (map (fun _ => c) l) = (Z.of_nat (length l) * c)%Z.
Proof. induction l as [| a l IH]; cbn [map zsum fold_right length]; [lia |]. unfold zsum in IH. rewrite IH. lia. Qed.

Lemma pix_eqb_true p q : pix_eqb p q = true <-> p = q.
Proof. destruct p, q. unfold pix_eqb. cbn [fst snd]. rewrite andb_true_iff, !Nat.eqb_eq. split; [intros [-> ->]; reflexivity | now injection 1]. Qed.

Lemma once a l : NoDup l -> (zsum (map (fun p => zb (pix_eqb p a)) l) <= 1)%Z.
Proof.
  induction 1 as [| p l N D IH]; cbn [map zsum fold_right]; [lia |]. fold (zsum (map (fun p => zb (pix_eqb p a)) l)). destruct (pix_eqb p a) eqn:E; cbn [zb]; [| lia].
  apply pix_eqb_true in E. subst. assert (Z : zsum (map (fun p => zb (pix_eqb p a)) l) = 0%Z).
  { clear IH D. induction l as [| q l IH]; [reflexivity |]. cbn [map zsum fold_right]. destruct (pix_eqb q a) eqn:E; [apply pix_eqb_true in E; subst; exfalso; apply N; now left |]. cbn [zb].
    unfold zsum in IH. rewrite IH; [reflexivity |]. intro I. apply N. now right. }
  lia.
Qed.
Lemma distinct_le idx l : NoDup l -> (zsum (map (fun p => zb (existsb (pix_eqb p) idx)) l) <= Z.of_nat (length idx))%Z.
Proof.
  intro D. induction idx as [| a idx IH]; cbn [existsb].
  - rewrite zsum_const. cbn [zb length]. lia.
  - eapply Z.le_trans; [apply (zsum_le _ (fun p => zb (pix_eqb p a) + zb (existsb (pix_eqb p) idx))%Z) |].
    + intros p _. destruct (pix_eqb p a), (existsb _ _); cbn; lia.
    + rewrite zsum_plus. pose proof (once a l D). cbn [length]. lia.
Qed.

Lemma lands_pidx ny nx k p : (0 < ny)%nat -> (0 < nx)%nat -> pix_eqb p (pidx ny nx k) = lands ny nx k p.
Proof.
  intros Y X. apply eq_true_iff_eq. rewrite pix_eqb_true. unfold lands, pidx, widx. destruct p as [a b]. cbn [fst snd]. rewrite andb_true_iff, !Z.eqb_eq.
  pose proof (Z.mod_pos_bound (fst k) (Z.of_nat ny) ltac:(lia)). pose proof (Z.mod_pos_bound (snd k) (Z.of_nat nx) ltac:(lia)).
  split.
  - intro E. inversion E. rewrite !Z2Nat.id by lia. auto.
  - intros [E F]. apply f_equal2; lia.
Qed.
Lemma existsb_map {A B} (f : A -> B) q l : existsb q (map f l) = existsb (fun a => q (f a)) l.
Proof. induction l as [| a l IH]; [reflexivity |]. cbn. now rewrite IH. Qed.

Section Tracker.
Variables (ny nx : nat) (img : nat -> nat -> option R) (ms : bool) (angles : nat -> nat -> list (R * R)).
Hypothesis F : fits ny nx.
Hypothesis N : forall k1 k2, (k1 < ny / 2)%nat -> (k2 < nx / 2)%nat -> angles k1 k2 <> [].

Lemma tracker_is r : compute_bispectrum ny nx img ms angles = Ok r -> s_tracker r = fold_left tally (map (hit_cell ny nx img ms angles) (grid ny nx)) (fun _ => 0%Z).
Proof.
  intro E. destruct (compute_value ny nx img ms angles) as [q [Q [V _]]]; [intros; now apply fits_inside | assumption |].
  rewrite E in Q. inversion Q. subst q. exact V.
Qed.

(** per cell and wave vector, positions that are hit at least once are counted once *)
Theorem tracker_value r w1 w2 w3 p : compute_bispectrum ny nx img ms angles = Ok r -> (Z.of_nat (3 * (ny / 2 * (nx / 2))) <= 32767)%Z ->
  (forall k1 k2 phi, draws k1 k2 phi (w1 k1 k2 phi) (w2 k1 k2 phi) (w3 k1 k2 phi)) ->
  s_tracker r p = zsum (map (fun k => (zb (existsb (fun phi => lands ny nx (w1 (fst k) (snd k) phi) p) (angles (fst k) (snd k))) +
     zb (existsb (fun phi => lands ny nx (w2 (fst k) (snd k) phi) p) (angles (fst k) (snd k))) +
     zb (existsb (fun phi => lands ny nx (w3 (fst k) (snd k) phi) p) (angles (fst k) (snd k))))%Z) (list_prod (seq 0 (ny / 2)) (seq 0 (nx / 2)))).
Proof.
  intros E B D. rewrite (tracker_is r E).
  assert (L : (zsum (map (hits_of p) (map (hit_cell ny nx img ms angles) (grid ny nx))) <= 32767)%Z).
  { eapply Z.le_trans; [apply (zsum_le _ (fun _ => 3%Z)); intros; apply hits_nonneg |]. rewrite zsum_const, map_length. unfold grid. rewrite prod_length, !seq_length. lia. }
  rewrite fold_tally_eq by lia. rewrite map_map. rewrite Z.add_0_l. apply f_equal. apply map_ext_in. intros k K. apply in_grid in K. destruct K as [K1 K2].
  assert (Y : (0 < ny)%nat) by (destruct ny; [cbn in K1; lia | lia]). assert (X : (0 < nx)%nat) by (destruct nx; [cbn in K2; lia | lia]).
  unfold hits_of, hit_cell. rewrite !existsb_map.
  assert (EX : forall (w : R * R -> Z * Z) (w' : R * R -> Z * Z) l, (forall phi, w phi = w' phi) -> existsb (fun a => pix_eqb p (pidx ny nx (w a))) l = existsb (fun a => lands ny nx (w' a) p) l).
  { intros w w' l W. induction l as [| a l IH]; [reflexivity |]. cbn [existsb]. rewrite lands_pidx by assumption. now rewrite IH, W. }
  rewrite (EX _ (w1 (fst k) (snd k))), (EX _ (w2 (fst k) (snd k))), (EX _ (w3 (fst k) (snd k))); try reflexivity; intro phi; symmetry; now destruct (draws_unique _ _ _ _ _ _ (D (fst k) (snd k) phi)) as [? [? ?]].
Qed.

(** so the tracker never adds up to the number of samples when there is more than one per cell *)
Theorem tracker_loses r M : (2 <= ny)%nat -> (2 <= nx)%nat -> (2 <= M)%nat -> (forall k1 k2, length (angles k1 k2) = M) ->
  compute_bispectrum ny nx img ms angles = Ok r ->
  (zsum (map (s_tracker r) (list_prod (seq 0 ny) (seq 0 nx))) < Z.of_nat (3 * M * (ny / 2 * (nx / 2))))%Z.
Proof.
  intros Y X M2 L E. rewrite (tracker_is r E). set (cells := map (hit_cell ny nx img ms angles) (grid ny nx)). set (pix := list_prod (seq 0 ny) (seq 0 nx)).
  assert (ND : NoDup pix) by apply (NoDup_pixels ny nx).
  assert (HY : (1 <= ny / 2)%nat) by (apply Nat.div_le_lower_bound; lia). assert (HX : (1 <= nx / 2)%nat) by (apply Nat.div_le_lower_bound; lia).
  eapply Z.le_lt_trans; [apply (zsum_le _ (fun p => zsum (map (hits_of p) cells)))| ].
  { intros p _. pose proof (fold_tally_le cells (fun _ => 0%Z) p ltac:(cbn; lia)). lia. }
  rewrite zsum_exchange.
  assert (G : exists g, grid ny nx = (0, 0)%nat :: g /\ length g = (ny / 2 * (nx / 2) - 1)%nat).
  { assert (LG : length (grid ny nx) = (ny / 2 * (nx / 2))%nat) by (unfold grid; now rewrite prod_length, !seq_length).
    unfold grid in *. destruct (ny / 2)%nat as [| a]; [lia |]. destruct (nx / 2)%nat as [| b]; [lia |]. cbn [seq list_prod map app] in *. eexists. split; [reflexivity |]. cbn [length] in LG. lia. }
  destruct G as [g [G LG]]. unfold cells. rewrite G. cbn [map zsum fold_right].
  set (rest := fold_right Z.add 0%Z _).
  assert (R1 : (rest <= Z.of_nat (length g) * (3 * Z.of_nat M))%Z).
  { unfold rest. fold (zsum (map (fun b => zsum (map (fun a => hits_of a b) pix)) (map (hit_cell ny nx img ms angles) g))). rewrite map_map.
    rewrite <- (zsum_const (3 * Z.of_nat M)%Z g). apply zsum_le. intros k _. unfold hits_of, hit_cell. rewrite !zsum_plus.
    pose proof (distinct_le (map (fun phi => pidx ny nx (wave1 (fst k) (snd k) phi)) (angles (fst k) (snd k))) pix ND) as A1.
    pose proof (distinct_le (map (fun phi => pidx ny nx (wave2 (fst k) (snd k) phi)) (angles (fst k) (snd k))) pix ND) as A2.
    pose proof (distinct_le (map (fun phi => pidx ny nx (wave3 (fst k) (snd k) phi)) (angles (fst k) (snd k))) pix ND) as A3.
    rewrite map_length, L in A1, A2, A3. lia. }
  assert (R0 : (zsum (map (fun a => hits_of a (hit_cell ny nx img ms angles (0, 0)%nat)) pix) <= 3)%Z).
  { unfold hits_of, hit_cell. cbn [fst snd]. rewrite !zsum_plus.
    assert (W : forall phi, wave1 0 0 phi = (0, 0)%Z /\ wave2 0 0 phi = (0, 0)%Z /\ wave3 0 0 phi = (0, 0)%Z).
    { intro phi. unfold wave1, wave2, wave3. cbn [INR]. rewrite !Rmult_0_l, Rplus_0_l. rewrite trunc_small by lra. auto. }
    assert (O : forall (w : R * R -> Z * Z) l, (forall phi, w phi = (0, 0)%Z) -> (zsum (map (fun a => zb (existsb (pix_eqb a) (map (fun phi => pidx ny nx (w phi)) l))) pix) <= 1)%Z).
    { intros w l Hw. eapply Z.le_trans; [| apply (once (pidx ny nx (0, 0)%Z) pix ND)]. apply zsum_le. intros p _.
      induction l as [| phi l IH]; cbn [map existsb]; [destruct (pix_eqb p _); cbn; lia |]. rewrite Hw. destruct (pix_eqb p (pidx ny nx (0, 0)%Z)); [cbn; lia | exact IH]. }
    pose proof (O (wave1 0 0) (angles 0%nat 0%nat) (fun phi => proj1 (W phi))). pose proof (O (wave2 0 0) (angles 0%nat 0%nat) (fun phi => proj1 (proj2 (W phi)))). pose proof (O (wave3 0 0) (angles 0%nat 0%nat) (fun phi => proj2 (proj2 (W phi)))).
    lia. }
  rewrite LG in R1. assert (CC : (1 <= ny / 2 * (nx / 2))%nat) by nia. set (c := (ny / 2 * (nx / 2))%nat) in *.
  rewrite Nat2Z.inj_mul, Nat2Z.inj_mul. rewrite Nat2Z.inj_sub in R1 by assumption. set (h := zsum _) in *. clearbody h rest c. nia.
Qed.
End Tracker.

(** ** Slices *)
Lemma filter_filter {A} (p q : A -> bool) l : filter p (filter q l) = filter (fun a => q a && p a) l.
Proof. induction l as [| a l IH]; [reflexivity |]. cbn [filter]. destruct (q a); cbn [filter andb]; [destruct (p a) |]; now rewrite IH. Qed.

Lemma lsum_pix (g : nat * nat -> R) sel hy hx : lsum (map g (filter sel (pixels hy hx))) = sum_over hy hx (fun a b => sel (a, b)) (fun a b => g (a, b)).
Proof.
  rewrite lsum_filter. unfold pixels. rewrite lsum_prod. unfold sum_over. rewrite rsum_lsum. apply lsum_map_ext. intros a _. now rewrite rsum_lsum.
Qed.

Lemma linspace_increasing a b n : a < b -> increasing (linspace a b n).
Proof.
  intros L i j [H K]. rewrite linspace_length in K. rewrite !linspace_nth by lia.
  assert (0 < INR (n - 1)) by (apply lt_0_INR; lia). assert (0 < (b - a) / INR (n - 1)) by (apply Rdiv_lt_0_compat; lra). apply lt_INR in H. nra.
Qed.

Theorem slice_value bins sample ring hy hx surf val : increasing bins -> (2 <= length bins)%nat ->
  (forall a b r, surf a b = Fin r -> val a b = r) ->
  exists means stds, slice_bins bins sample ring hy hx surf = Ok (bins, means, stds) /\ length means = (length bins - 1)%nat /\ length stds = (length bins - 1)%nat /\
  forall i, (i < length bins - 1)%nat -> forall sel : nat -> nat -> bool,
    (forall a b, (a < hy)%nat -> (b < hx)%nat -> sel a b = true <-> ring (a, b) = true /\ in_bin bins i (sample (a, b)) /\ exists r, surf a b = Fin r) ->
    let count := sum_over hy hx sel (fun _ _ => 1) in let mean := sum_over hy hx sel val / count in
    (count = 0 -> nth i means (Fin 0) = NaN /\ nth i stds (Fin 0) = NaN) /\
    (count <> 0 -> nth i means (Fin 0) = Fin mean /\ nth i stds (Fin 0) = Fin (sqrt (sum_over hy hx sel (fun a b => (val a b - mean) ^ 2) / count))).
Proof.
  intros I L V. unfold slice_bins. destruct (Nat.ltb_spec (length bins) 2); [lia |]. cbv zeta.
  set (pix := filter _ (pixels hy hx)). set (values := map (fun p => surf (fst p) (snd p)) pix).
  exists (binned_statistic nanmean bins (map sample pix) values), (binned_statistic nanstd bins (map sample pix) values).
  split; [reflexivity |]. unfold binned_statistic. rewrite !tab1_length. split; [reflexivity |]. split; [reflexivity |].
  intros i Hi sel S. set (count := sum_over hy hx sel (fun _ _ => 1)). set (mean := sum_over hy hx sel val / count). rewrite !tab1_nth by assumption. unfold values. rewrite in_bin_values_map. unfold pix. rewrite filter_filter.
  set (selp := fun a : nat * nat => (ring a && is_finite (surf (fst a) (snd a)) && opt_eqb (bin_number bins (sample a)) i)%bool).
  assert (SP : forall a b, (a < hy)%nat -> (b < hx)%nat -> selp (a, b) = sel a b).
  { intros a b A B. apply eq_true_iff_eq. rewrite S by assumption. unfold selp. cbn [fst snd]. rewrite !andb_true_iff, opt_eqb_spec, bin_number_spec by assumption.
    split; [intros [[H1 H2] H3] | intros [H1 [H3 [r H2]]]].
    - split; [assumption |]. split; [assumption |]. destruct (surf a b); try discriminate. now eexists.
    - rewrite H2. auto. }
  set (l := map (fun p => val (fst p) (snd p)) (filter selp (pixels hy hx))).
  assert (EL : map (fun p => surf (fst p) (snd p)) (filter selp (pixels hy hx)) = map Fin l).
  { unfold l. rewrite map_map. apply map_ext_in. intros [a b] P. apply filter_In in P. destruct P as [_ P]. unfold selp in P. cbn [fst snd] in *.
    rewrite !andb_true_iff in P. destruct P as [[_ P] _]. destruct (surf a b) as [r | | |] eqn:E; try discriminate. now rewrite (V a b r E). }
  rewrite EL.
  assert (SO : forall g, sum_over hy hx (fun a b => selp (a, b)) g = sum_over hy hx sel g).
  { intro g. unfold sum_over. apply rsum_ext. intros a A. apply rsum_ext. intros b B. now rewrite SP. }
  assert (CL : INR (length l) = count).
  { unfold count, l. rewrite map_length. rewrite <- SO. rewrite <- (lsum_pix (fun _ => 1) selp hy hx). rewrite lsum_map_const. ring. }
  assert (FB : Forall blankable (map Fin l)) by (apply Forall_forall; intros x X; apply in_map_iff in X; destruct X as [r [<- _]]; exact Logic.I).
  split.
  - intro Z. assert (NL : l = []) by (destruct l; [reflexivity |]; exfalso; rewrite Z in CL; change 0 with (INR 0) in CL; apply INR_eq in CL; discriminate).
    rewrite NL. cbn. unfold nanstd, nanmean, nansum, nancount. cbn. destruct (Reqb_spec 0 0); [| lra]. unfold sinf. destruct (Rltb_spec 0 0); [lra |]. auto.
  - intro Z. assert (NL : fins (map Fin l) <> []) by (rewrite fins_map_Fin; intro E; rewrite E in CL; cbn in CL; lra).
    assert (ML : rmean l = mean).
    { unfold rmean, mean. rewrite CL. f_equal. rewrite <- SO. unfold l. now rewrite (lsum_pix (fun p => val (fst p) (snd p))). }
    rewrite nanmean_rmean, nanstd_rvar by assumption. rewrite !fins_map_Fin. rewrite ML. split; [reflexivity |]. apply f_equal, f_equal. unfold rvar. rewrite ML. unfold rmean. rewrite map_length, CL. f_equal.
    rewrite <- SO. unfold l. rewrite map_map. rewrite (lsum_pix (fun p => (val (fst p) (snd p) - mean) * (val (fst p) (snd p) - mean))). unfold sum_over. cbn [fst snd].
    apply rsum_ext. intros a _. apply rsum_ext. intros b _. destruct (selp (a, b)); ring.
Qed.

Lemma theta0_quadrant p : 0 <= theta0 p <= PI / 2.
Proof.
  pose proof PI_RGT_0. unfold theta0, atan2. pose proof (pos_INR (fst p)). pose proof (pos_INR (snd p)).
  destruct (Rltb_spec 0 (INR (snd p))) as [X | X].
  - assert (Q : 0 <= INR (fst p) / INR (snd p)) by (unfold Rdiv; apply Rmult_le_pos; [lra | left; now apply Rinv_0_lt_compat]).
    pose proof (atan_bound (INR (fst p) / INR (snd p))). split; [| lra]. destruct Q as [Q | <-]; [| rewrite atan_0; lra]. left. rewrite <- atan_0. now apply atan_increasing.
  - destruct (Rltb_spec (INR (snd p)) 0); [lra |]. destruct (Rltb_spec 0 (INR (fst p))); [lra |]. destruct (Rltb_spec (INR (fst p)) 0); lra.
Qed.

Definition parts (total width : R) : nat := Z.to_nat (Int_part (total / width)).
Lemma parts_floor total width n : 0 < width -> 0 < total -> INR n <= total / width < INR n + 1 -> parts total width = n.
Proof.
  intros W T [A B]. unfold parts. rewrite <- (Nat2Z.id n). apply f_equal. destruct (base_Int_part (total / width)) as [C D].
  rewrite INR_IZR_INZ in A, B. assert (IZR (Int_part (total / width)) < IZR (Z.of_nat n + 1)) by (rewrite plus_IZR; lra). assert (IZR (Z.of_nat n) < IZR (Int_part (total / width) + 1)) by (rewrite plus_IZR; lra).
  apply lt_IZR in H, H0. lia.
Qed.

Lemma wide_bins total width n i : 0 < width -> 0 < total -> INR n <= total / width -> (S i < n)%nat ->
  width < nth (S i) (linspace 0 total n) 0 - nth i (linspace 0 total n) 0.
Proof.
  intros W T F I. rewrite linspace_step by lia. rewrite Rminus_0_r.
  assert (P : 0 < INR (n - 1)) by (apply lt_0_INR; lia). assert (E : INR n = INR (n - 1) + 1) by (rewrite <- S_INR; f_equal; lia).
  assert (M : width * INR n <= total). { apply (Rmult_le_compat_l width) in F; [| lra]. replace (width * (total / width)) with total in F by (field; lra). exact F. }
  apply Rmult_lt_reg_r with (INR (n - 1)); [assumption |]. replace (total / INR (n - 1) * INR (n - 1)) with total by (field; lra). nra.
Qed.

Theorem azimuthal_value hy hx surf val bw rad del n : 0 < bw -> (2 <= n)%nat -> INR n <= PI / bw < INR n + 1 -> (forall a b r, surf a b = Fin r -> val a b = r) ->
  exists edges means stds, azimuthal_slice hy hx surf bw rad del = Ok (edges, means, stds) /\ length edges = n /\ length means = (n - 1)%nat /\
  (forall i, (i < n)%nat -> nth i edges 0 = INR i * (PI / INR (n - 1))) /\
  forall i, (i < n - 1)%nat -> forall sel : nat -> nat -> bool,
    (forall a b, (a < hy)%nat -> (b < hx)%nat -> sel a b = true <-> rad - del / 2 <= sqrt (INR a ^ 2 + INR b ^ 2) <= rad + del / 2 /\ in_bin edges i (atan2 (INR a) (INR b)) /\ exists r, surf a b = Fin r) ->
    let count := sum_over hy hx sel (fun _ _ => 1) in let mean := sum_over hy hx sel val / count in
    (count = 0 -> nth i means (Fin 0) = NaN /\ nth i stds (Fin 0) = NaN) /\
    (count <> 0 -> nth i means (Fin 0) = Fin mean /\ nth i stds (Fin 0) = Fin (sqrt (sum_over hy hx sel (fun a b => (val a b - mean) ^ 2) / count))).
Proof.
  intros W N2 FL V. pose proof PI_RGT_0 as P. unfold azimuthal_slice. change (Z.to_nat (Int_part (PI / bw))) with (parts PI bw). rewrite (parts_floor PI bw n) by assumption.
  destruct (slice_value (linspace 0 PI n) theta0 (fun p => in_ring rad del (dist0 p)) hy hx surf val) as [means [stds [E [L1 [L2 H]]]]]; [now apply linspace_increasing | now rewrite linspace_length | assumption |].
  exists (linspace 0 PI n), means, stds. rewrite linspace_length in *. split; [exact E |]. split; [reflexivity |]. split; [exact L1 |]. split.
  - intros i I. rewrite linspace_nth by lia. rewrite Rminus_0_r, Rplus_0_l. reflexivity.
  - intros i I sel S. apply (H i I sel). intros a b A B. rewrite S by assumption. unfold in_ring, dist0. cbn [fst snd]. rewrite andb_true_iff.
    split; intros [R1 R2]; (split; [| exact R2]).
    + destruct (Rleb_spec (rad - del / 2) (sqrt (INR a ^ 2 + INR b ^ 2))); [| lra]. destruct (Rleb_spec (sqrt (INR a ^ 2 + INR b ^ 2)) (rad + del / 2)); [auto | lra].
    + destruct R1 as [R1 R3]. destruct (Rleb_spec (rad - del / 2) (sqrt (INR a ^ 2 + INR b ^ 2))); [| discriminate]. destruct (Rleb_spec (sqrt (INR a ^ 2 + INR b ^ 2)) (rad + del / 2)); [lra | discriminate].
Qed.

(** the bins are wider than requested and those beyond 90 degrees are always blank *)
Theorem azimuthal_refuted hy hx surf bw rad del n : 0 < bw -> (4 <= n)%nat -> INR n <= PI / bw < INR n + 1 ->
  exists edges means stds, azimuthal_slice hy hx surf bw rad del = Ok (edges, means, stds) /\ length edges = n /\
  (forall i, (S i < n)%nat -> bw < nth (S i) edges 0 - nth i edges 0) /\
  forall i, (i < n - 1)%nat -> PI / 2 < nth i edges 0 -> nth i means (Fin 0) = NaN.
Proof.
  intros W N4 FL. pose proof PI_RGT_0 as P. set (val := fun a b => match surf a b with Fin r => r | _ => 0 end).
  destruct (azimuthal_value hy hx surf val bw rad del n) as [edges [means [stds [E [L [L1 [V H]]]]]]]; [assumption | lia | assumption | intros a b r Q; unfold val; now rewrite Q |].
  exists edges, means, stds. split; [exact E |]. split; [exact L |]. split.
  - intros i I. rewrite !V by lia. pose proof (wide_bins PI bw n i W P (proj1 FL) I) as Wd. rewrite !linspace_nth in Wd by lia. rewrite Rminus_0_r in Wd. lra.
  - intros i I B. destruct (H i I (fun _ _ => false)) as [Z _].
    + intros a b _ _. split; [discriminate |]. intros [_ [[_ [K _]] _]]. pose proof (theta0_quadrant (a, b)) as Q. unfold theta0 in Q. cbn [fst snd] in Q. lra.
    + apply Z. unfold sum_over. apply rsum_zero. intros. apply rsum_zero. reflexivity.
Qed.

Theorem radial_value hy hx surf val bw theta del n dmax : 0 < bw -> (2 <= n)%nat -> (1 <= hy)%nat -> (1 <= hx)%nat -> dmax = sqrt (INR (hy - 1) ^ 2 + INR (hx - 1) ^ 2) ->
  INR n <= dmax / bw < INR n + 1 -> (forall a b r, surf a b = Fin r -> val a b = r) ->
  exists edges means stds, radial_slice hy hx surf bw theta del = Ok (edges, means, stds) /\ length edges = n /\ length means = (n - 1)%nat /\
  (forall i, (i < n)%nat -> nth i edges 0 = INR i * (dmax / INR (n - 1))) /\
  (forall i, (S i < n)%nat -> bw < nth (S i) edges 0 - nth i edges 0) /\
  forall i, (i < n - 1)%nat -> forall sel : nat -> nat -> bool,
    (forall a b, (a < hy)%nat -> (b < hx)%nat -> sel a b = true <-> theta - del / 2 <= atan2 (INR a) (INR b) <= theta + del / 2 /\ in_bin edges i (sqrt (INR a ^ 2 + INR b ^ 2)) /\ exists r, surf a b = Fin r) ->
    let count := sum_over hy hx sel (fun _ _ => 1) in let mean := sum_over hy hx sel val / count in
    (count = 0 -> nth i means (Fin 0) = NaN /\ nth i stds (Fin 0) = NaN) /\
    (count <> 0 -> nth i means (Fin 0) = Fin mean /\ nth i stds (Fin 0) = Fin (sqrt (sum_over hy hx sel (fun a b => (val a b - mean) ^ 2) / count))).
Proof.
  intros W N2 HY HX ED FL V. unfold radial_slice.
  assert (DM : rmax_list (map dist0 (pixels hy hx)) = dmax).
  { eapply (is_max_unique _ _ (map dist0 (pixels hy hx))).
    - apply rmax_list_spec. intro E. apply map_eq_nil in E. assert (I : In (0, 0)%nat (pixels hy hx)) by (apply in_prod; apply in_seq; lia). rewrite E in I. destruct I.
    - split.
      + apply in_map_iff. exists (hy - 1, hx - 1)%nat. split; [symmetry; exact ED |]. apply in_prod; apply in_seq; lia.
      + intros x X. apply in_map_iff in X. destruct X as [[a b] [<- I]]. apply in_prod_iff in I. rewrite !in_seq in I. rewrite ED. unfold dist0. cbn [fst snd]. apply sqrt_le_1_alt.
        assert (INR a <= INR (hy - 1)) by (apply le_INR; lia). assert (INR b <= INR (hx - 1)) by (apply le_INR; lia). pose proof (pos_INR a). pose proof (pos_INR b). nra. }
  rewrite DM. assert (P : 0 < dmax).
  { assert (0 < INR n) by (apply lt_0_INR; lia). assert (0 < dmax / bw) by lra. apply (Rmult_lt_compat_r bw) in H0; [| assumption]. replace (dmax / bw * bw) with dmax in H0 by (field; lra). lra. }
  change (Z.to_nat (Int_part (dmax / bw))) with (parts dmax bw). rewrite (parts_floor dmax bw n) by assumption.
  destruct (slice_value (linspace 0 dmax n) dist0 (fun p => in_ring theta del (theta0 p)) hy hx surf val) as [means [stds [E [L1 [L2 H]]]]]; [now apply linspace_increasing | now rewrite linspace_length | assumption |].
  exists (linspace 0 dmax n), means, stds. rewrite linspace_length in *. split; [exact E |]. split; [reflexivity |]. split; [exact L1 |]. split; [| split].
  - intros i I. rewrite linspace_nth by lia. rewrite Rminus_0_r, Rplus_0_l. reflexivity.
  - intros i I. now apply wide_bins.
  - intros i I sel S. apply (H i I sel). intros a b A B. rewrite S by assumption. unfold in_ring, theta0. cbn [fst snd]. rewrite andb_true_iff.
    split; intros [R1 R2]; (split; [| exact R2]).
    + destruct (Rleb_spec (theta - del / 2) (atan2 (INR a) (INR b))); [| lra]. destruct (Rleb_spec (atan2 (INR a) (INR b)) (theta + del / 2)); [auto | lra].
    + destruct R1 as [R1 R3]. destruct (Rleb_spec (theta - del / 2) (atan2 (INR a) (INR b))); [| discriminate]. destruct (Rleb_spec (atan2 (INR a) (INR b)) (theta + del / 2)); [lra | discriminate].
Qed.

(** ** Distances *)
Lemma flat_Fin hy hx (a : nat -> nat -> R) s : (forall i j, (i < hy)%nat -> (j < hx)%nat -> s i j = Fin (a i j)) ->
  flat hy hx s = map Fin (map (fun p => a (fst p) (snd p)) (pixels hy hx)).
Proof. intro H. unfold flat. rewrite map_map. apply map_ext_in. intros [i j] P. apply in_prod_iff in P. rewrite !in_seq in P. cbn [fst snd]. apply H; lia. Qed.


Lemma sum_grid (g : nat * nat -> R) hy hx : lsum (map g (pixels hy hx)) = rsum hy (fun i => rsum hx (fun j => g (i, j))).
Proof. unfold pixels. rewrite lsum_prod, rsum_lsum. apply lsum_map_ext. intros a _. now rewrite rsum_lsum. Qed.

Theorem surface_value hy hx s1 s2 a b : (forall i j, (i < hy)%nat -> (j < hx)%nat -> s1 i j = Fin (a i j)) -> (forall i j, (i < hy)%nat -> (j < hx)%nat -> s2 i j = Fin (b i j)) ->
  surface_distance hy hx s1 hy hx s2 = Fin (grid_norm hy hx (fun i j => a i j - b i j)).
Proof.
  intros A B. unfold surface_distance. rewrite !Nat.eqb_refl. cbn [andb]. rewrite (flat_Fin hy hx a s1 A), (flat_Fin hy hx b s2 B).
  assert (E : map fsqr (map2 fsub (map Fin (map (fun p => a (fst p) (snd p)) (pixels hy hx))) (map Fin (map (fun p => b (fst p) (snd p)) (pixels hy hx))))
     = map Fin (map (fun p => (a (fst p) (snd p) - b (fst p) (snd p)) ^ 2) (pixels hy hx))).
  { induction (pixels hy hx) as [| p l IH]; [reflexivity |]. cbn [map map2]. rewrite IH. apply (f_equal2 cons); [| reflexivity]. cbn. apply f_equal. ring. }
  rewrite E, Lib.Fl.fsum_Fin, sum_grid. cbn [fst snd]. unfold fsqrt, grid_norm.
  assert (P : 0 <= rsum hy (fun i => rsum hx (fun j => (a i j - b i j) ^ 2))) by (apply rsum_nonneg; intros; apply rsum_nonneg; intros; apply pow2_ge_0).
  destruct (Rltb_spec (rsum hy (fun i => rsum hx (fun j => (a i j - b i j) ^ 2))) 0); [lra | reflexivity].
Qed.

Theorem mean_value hy hx s1 s2 a b : (0 < hy)%nat -> (0 < hx)%nat -> (forall i j, (i < hy)%nat -> (j < hx)%nat -> s1 i j = Fin (a i j)) -> (forall i j, (i < hy)%nat -> (j < hx)%nat -> s2 i j = Fin (b i j)) ->
  mean_distance hy hx s1 hy hx s2 = Fin (Rabs (rsum hy (fun i => rsum hx (fun j => a i j)) - rsum hy (fun i => rsum hx (fun j => b i j))) / INR (hy * hx)).
Proof.
  intros Y X A B. unfold mean_distance, mean_all. rewrite (flat_Fin hy hx a s1 A), (flat_Fin hy hx b s2 B). rewrite !Lib.Fl.fsum_Fin, !map_length, !sum_grid. cbn [fst snd].
  assert (L : length (pixels hy hx) = (hy * hx)%nat) by (unfold pixels; now rewrite prod_length, !seq_length). rewrite L.
  assert (P : 0 < INR (hy * hx)) by (apply lt_0_INR; nia). cbn [fdiv]. destruct (Reqb_spec (INR (hy * hx)) 0); [lra |]. cbn. apply f_equal.
  replace (_ + _) with ((rsum hy (fun i => rsum hx (fun j => a i j)) - rsum hy (fun i => rsum hx (fun j => b i j))) * / INR (hy * hx)) by (unfold Rdiv; ring).
  rewrite Rabs_mult. rewrite (Rabs_right (/ _)); [reflexivity |]. apply Rle_ge. left. now apply Rinv_0_lt_compat.
Qed.

Lemma grid_norm_rsum hy hx d : grid_norm hy hx d = sqrt (rsum (length (pixels hy hx)) (fun m => (d (fst (nth m (pixels hy hx) (0, 0)%nat)) (snd (nth m (pixels hy hx) (0, 0)%nat)))²)).
Proof.
  unfold grid_norm. f_equal. rewrite <- (sum_grid (fun p => d (fst p) (snd p) ^ 2)). rewrite (lsum_map_nth (fun p => d (fst p) (snd p) ^ 2) (pixels hy hx) (0, 0)%nat). apply rsum_ext. intros m _. unfold Rsqr. ring.
Qed.
Theorem norm_triangle hy hx (a b c : nat -> nat -> R) :
  grid_norm hy hx (fun i j => a i j - c i j) <= grid_norm hy hx (fun i j => a i j - b i j) + grid_norm hy hx (fun i j => b i j - c i j).
Proof.
  rewrite !grid_norm_rsum. eapply Rle_trans; [| apply rsum_minkowski]. right. f_equal. apply rsum_ext. intros m _. unfold Rsqr. ring.
Qed.
Theorem norm_zero hy hx (a b : nat -> nat -> R) : grid_norm hy hx (fun i j => a i j - b i j) = 0 <-> (forall i j, (i < hy)%nat -> (j < hx)%nat -> a i j = b i j).
Proof.
  assert (P : forall i, 0 <= rsum hx (fun j => (a i j - b i j) ^ 2)) by (intro; apply rsum_nonneg; intros; apply pow2_ge_0). split.
  - intros E i j I J. apply sqrt_eq_0 in E; [| apply rsum_nonneg; intros; apply P].
    assert (E1 : rsum hx (fun j => (a i j - b i j) ^ 2) = 0) by (apply (rsum_nonneg_eq0 hy (fun i => rsum hx (fun j => (a i j - b i j) ^ 2))); auto).
    assert (E2 : (a i j - b i j) ^ 2 = 0) by (apply (rsum_nonneg_eq0 hx (fun j => (a i j - b i j) ^ 2)); auto; intros; apply pow2_ge_0). nra.
  - intro E. unfold grid_norm. rewrite <- sqrt_0. f_equal. apply rsum_zero. intros i I. apply rsum_zero. intros j J. rewrite E by assumption. ring.
Qed.
Theorem norm_sym hy hx (a b : nat -> nat -> R) : grid_norm hy hx (fun i j => a i j - b i j) = grid_norm hy hx (fun i j => b i j - a i j).
Proof. unfold grid_norm. f_equal. apply rsum_ext. intros. apply rsum_ext. intros. ring. Qed.

Theorem distance_blank hy hx s1 s2 i j : (i < hy)%nat -> (j < hx)%nat -> s1 i j = NaN -> surface_distance hy hx s1 hy hx s2 = NaN /\ mean_distance hy hx s1 hy hx s2 = NaN.
Proof.
  intros I J E. assert (IN : In NaN (flat hy hx s1)).
  { unfold flat. apply in_map_iff. exists (i, j). split; [exact E |]. apply in_prod; apply in_seq; lia. }
  split.
  - unfold surface_distance. rewrite !Nat.eqb_refl. cbn [andb].
    assert (IN2 : In NaN (map fsqr (map2 fsub (flat hy hx s1) (flat hy hx s2)))).
    { assert (L : length (flat hy hx s1) = length (flat hy hx s2)) by (unfold flat; now rewrite !map_length). revert L. generalize (flat hy hx s2). induction (flat hy hx s1) as [| x l IH]; [destruct IN |].
      intros [| y m] L; [discriminate |]. cbn [map2 map]. destruct IN as [-> | IN]; [left; reflexivity | right; apply IH; auto]. }
    rewrite fsum_NaN by assumption. reflexivity.
  - unfold mean_distance, mean_all. rewrite (fsum_NaN (flat hy hx s1)) by assumption. reflexivity.
Qed.

Theorem distance_shapes hy1 hx1 s1 hy2 hx2 s2 : (hy1, hx1) <> (hy2, hx2) -> surface_distance hy1 hx1 s1 hy2 hx2 s2 = NaN.
Proof. intro H. unfold surface_distance. destruct (Nat.eqb_spec hy1 hy2) as [-> |]; [| reflexivity]. destruct (Nat.eqb_spec hx1 hx2) as [-> |]; [now destruct H | reflexivity]. Qed.
