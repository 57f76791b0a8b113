(** The distance of two images in terms of the lists of their moments. *)
From Coq Require Import Reals List Bool ZArith Arith Lra Lia Permutation.
From Verif Require Import Lib.PyBase Lib.RSum Lib.Fl Lib.Arr Lib.Hist Spec.Bins Spec.Blank Spec.Distrib Model.Units Model.StatsUtils Model.StatMoments Model.MomentsRun Spec.MomentsRun Proofs.Fl_Proofs Proofs.Hist_Proofs Proofs.Moments_Proofs Proofs.Moments2_Proofs Proofs.MomentsRun_Proofs Proofs.MomentsRun2_Proofs Proofs.MomentsRun4_Proofs Proofs.MomentsRun5_Proofs.
Import ListNotations.
Local Open Scope R_scope.

(** ** Objects *)
Definition has (o : mobj) (p : picture) (m : nat -> nat -> moments4) (n : nat) : Prop := m_pic o = p /\ m_maps o = Some m /\ m_nbins o = Some n.
Definition fine (p : picture) (m : nat -> nat -> moments4) : Prop := forall f, In f [mean_of; variance_of; skewness_of; kurtosis_of] -> Forall blankable (values_of p m f).

Lemma moment_list_has o p m n f : has o p m n -> moment_list o f = Ok (values_of p m f).
Proof. intros (A & B & _). unfold moment_list. rewrite B, A. reflexivity. Qed.
Lemma common_edges_has o1 o2 p1 p2 m1 m2 n1 n2 f nb : has o1 p1 m1 n1 -> has o2 p2 m2 n2 -> common_edges o1 o2 f nb = edges_of (values_of p1 m1 f) (values_of p2 m2 f) nb.
Proof. intros H1 H2. unfold common_edges. rewrite (moment_list_has _ _ _ _ f H1), (moment_list_has _ _ _ _ f H2). reflexivity. Qed.
Lemma one_hist_given o p m n f e : has o p m n -> one_hist o f (Some e) = list_hist (values_of p m f) e.
Proof. intros H. unfold one_hist. rewrite (moment_list_has _ _ _ _ f H). reflexivity. Qed.
Lemma one_hist_zero o p m f : has o p m 0 -> Forall blankable (values_of p m f) -> one_hist o f None = Err ValueError.
Proof.
  intros H B. unfold one_hist. rewrite (moment_list_has _ _ _ _ f H). destruct H as (_ & _ & ->). cbn [bind option_map]. unfold spatial_histogram, histogram_fl.
  rewrite nonnan_fins by exact B. assert (A : forallb is_fin (map Fin (fins (values_of p m f))) = true). { apply forallb_forall. intros v Hv. apply in_map_iff in Hv. destruct Hv as (x & <- & _). reflexivity. }
  rewrite A. reflexivity.
Qed.
Lemma one_hist_works o p m n f : has o p m (S n) -> Forall blankable (values_of p m f) -> exists h, one_hist o f None = Ok h.
Proof.
  intros H B. unfold one_hist. rewrite (moment_list_has _ _ _ _ f H). destruct H as (_ & _ & ->). cbn [bind option_map].
  pose proof (spatial_works (values_of p m f) (S n) ltac:(lia) B) as W. destruct (spatial_histogram _ _ _) as [h|]; [|discriminate]. cbn. eauto.
Qed.
Lemma has_hists o p m n b : has o p m n -> has (fst (spatial_hists o b)) p m n.
Proof. intros (A & B & C). destruct (hists_keep o b) as (K & _ & M & _). unfold base in K. repeat split; congruence. Qed.

Lemma hists_fail o p m es ek : has o p m 0 -> fine p m -> done (spatial_hists o (mk_bins None None (Some es) (Some ek))) = Err ValueError.
Proof. intros H F. unfold spatial_hists. cbn [b_mean]. rewrite (one_hist_zero _ _ _ _ H) by (apply F; now left). reflexivity. Qed.
Lemma hists_given o p m n es ek hs hk : has o p m (S n) -> fine p m -> list_hist (values_of p m skewness_of) es = Ok hs -> list_hist (values_of p m kurtosis_of) ek = Ok hk ->
  exists o', done (spatial_hists o (mk_bins None None (Some es) (Some ek))) = Ok o' /\ m_skewness_hist o' = Some hs /\ m_kurtosis_hist o' = Some hk.
Proof.
  intros H F S K. unfold spatial_hists. cbn [b_mean b_variance b_skewness b_kurtosis]. destruct (one_hist_works _ _ _ _ mean_of H) as (h1 & E1); [apply F; now left|]. rewrite E1. unfold put at 1, also at 1. cbn [fst snd].
  assert (H1 : has (with_mean_hist o h1) p m (Datatypes.S n)) by exact H. destruct (one_hist_works _ _ _ _ variance_of H1) as (h2 & E2); [apply F; right; now left|]. rewrite E2. unfold put at 1, also at 1. cbn [fst snd].
  set (o2 := with_variance_hist _ h2). assert (H2 : has o2 p m (Datatypes.S n)) by exact H. rewrite (one_hist_given _ _ _ _ _ _ H2), S. unfold put at 1, also at 1. cbn [fst snd].
  set (o3 := with_skewness_hist _ hs). assert (H3 : has o3 p m (Datatypes.S n)) by exact H. rewrite (one_hist_given _ _ _ _ _ _ H3), K. cbn. eexists. split; [reflexivity|]. split; reflexivity.
Qed.

(** The metric of two objects is that of the lists. *)
Definition lists_value (p1 p2 : picture) (m1 m2 : nat -> nat -> moments4) (nb : nat) : result (fl * fl) :=
  k <- pair_value (values_of p1 m1 kurtosis_of) (values_of p2 m2 kurtosis_of) nb ;;
  s <- pair_value (values_of p1 m1 skewness_of) (values_of p2 m2 skewness_of) nb ;;
  Ok (k, s).
Lemma list_hist_ok l1 l2 nb e l : Forall blankable l1 -> Forall blankable l2 -> Forall blankable l -> edges_of l1 l2 nb = Ok e -> exists h, list_hist l e = Ok h.
Proof.
  intros B1 B2 B. rewrite edges_fins by assumption. intros E. inversion E. destruct (range_of (fins l1) (fins l2)) as [[a b]|] eqn:R; [|cbn; eauto].
  rewrite list_hist_edges; [eauto| |exact B]. apply linspace_nondec. eapply range_le; eassumption.
Qed.
Lemma metric_lists o1 o2 p1 p2 m1 m2 n1 n2 self nbins : has o1 p1 m1 n1 -> has o2 p2 m2 n2 -> fine p1 m1 -> fine p2 m2 ->
  moments_metric o1 o2 self nbins = if (Nat.eqb n1 0 || Nat.eqb n2 0)%bool then Err ValueError else lists_value p1 p2 m1 m2 (match nbins with None => self | Some n => n end).
Proof.
  intros H1 H2 F1 F2. unfold moments_metric, common_hists. set (nb := match nbins with None => self | Some n => n end). clearbody nb.
  rewrite (common_edges_has _ _ _ _ _ _ _ _ skewness_of nb H1 H2), (common_edges_has _ _ _ _ _ _ _ _ kurtosis_of nb H1 H2).
  assert (B : forall f, In f [skewness_of; kurtosis_of] -> Forall blankable (values_of p1 m1 f) /\ Forall blankable (values_of p2 m2 f)) by (intros f Hf; split; [apply F1|apply F2]; cbn in *; tauto).
  destruct (B skewness_of (or_introl eq_refl)) as [S1 S2]. destruct (B kurtosis_of (or_intror (or_introl eq_refl))) as [K1 K2]. clear B.
  unfold lists_value, pair_value.
  destruct (edges_of (values_of p1 m1 skewness_of) (values_of p2 m2 skewness_of) nb) as [es|] eqn:ES; [|rewrite edges_fins in ES by assumption; discriminate].
  destruct (edges_of (values_of p1 m1 kurtosis_of) (values_of p2 m2 kurtosis_of) nb) as [ek|] eqn:EK; [|rewrite edges_fins in EK by assumption; discriminate].
  cbn [bind]. destruct (list_hist_ok _ _ _ _ _ S1 S2 S1 ES) as (s1 & HS1), (list_hist_ok _ _ _ _ _ S1 S2 S2 ES) as (s2 & HS2), (list_hist_ok _ _ _ _ _ K1 K2 K1 EK) as (k1 & HK1), (list_hist_ok _ _ _ _ _ K1 K2 K2 EK) as (k2 & HK2).
  rewrite HS1, HS2, HK1, HK2. cbn [bind].
  destruct n1 as [|n1]; [rewrite (hists_fail _ _ _ _ _ H1 F1); reflexivity|]. destruct (hists_given _ _ _ _ _ _ _ _ H1 F1 HS1 HK1) as (o1' & -> & E1 & E2). cbn [bind].
  destruct n2 as [|n2]; [rewrite (hists_fail _ _ _ _ _ H2 F2); reflexivity|]. destruct (hists_given _ _ _ _ _ _ _ _ H2 F2 HS2 HK2) as (o2' & -> & E3 & E4). cbn [bind fst snd]. rewrite E1, E2, E3, E4. reflexivity.
Qed.

(** ** Data *)
Definition region (p : picture) (q : quantity) (mf : R) : result nat :=
  r <- set_radius (pic_stat p) (pic_n0 p) (pic_n1 p) q ;;
  if share mf then px <- to_pixel (pic_stat p) r ;; Ok (Z.to_nat (ceil (hd 0 (q_vals px)))) else Err ValueError.
Lemma prepare_data memory first p w q nbins self per mf : prepare memory first (Data p w) q nbins self per mf =
  (k <- region p q mf ;; Ok (mk_mobj p (weights_of w) q (Some self) None (Some (local_moments (pic_n0 p) (pic_n1 p) k per mf (pic_data p) (weights_of w))) None None None None)).
Proof.
  unfold prepare, moments_init, region. destruct (set_acceptable p q) as [[E _]|[[e E] _]]; rewrite E; [|reflexivity]. cbn [bind]. unfold spatial. rewrite share_bad. destruct (share mf); [|reflexivity].
  cbn. destruct (to_pixel (pic_stat p) q); reflexivity.
Qed.
Definition region_maps (p : picture) (w : option image) (k : nat) (per : bool) (mf : R) : nat -> nat -> moments4 := local_moments (pic_n0 p) (pic_n1 p) k per mf (pic_data p) (weights_of w).
Lemma region_around p w k per mf y x : region_maps p w k per mf y x = around p (weights_of w) k per mf y x.
Proof. apply window. Qed.
Lemma region_values p w k per mf f : values_of p (region_maps p w k per mf) f = local_values p w k per mf f.
Proof. unfold local_values, values_of. apply map_ext. intros [y x]. cbn [fst snd]. now rewrite region_around. Qed.

Lemma at_offset_in per n0 n1 a y x d : (y < n0)%nat -> (x < n1)%nat -> at_offset per n0 n1 a y x d = NaN \/ exists i j, (i < n0)%nat /\ (j < n1)%nat /\ at_offset per n0 n1 a y x d = a i j /\ forall b, at_offset per n0 n1 b y x d = b i j.
Proof.
  intros Hy Hx. unfold at_offset. destruct per.
  - right. unfold wrapped. do 2 eexists. split; [|split; [|split; reflexivity]].
    + pose proof (Z.mod_pos_bound (Z.of_nat y + fst d) (Z.of_nat n0) ltac:(lia)). lia.
    + pose proof (Z.mod_pos_bound (Z.of_nat x + snd d) (Z.of_nat n1) ltac:(lia)). lia.
  - unfold or_blank. destruct (Z.leb_spec 0 (Z.of_nat y + fst d)), (Z.ltb_spec (Z.of_nat y + fst d) (Z.of_nat n0)), (Z.leb_spec 0 (Z.of_nat x + snd d)), (Z.ltb_spec (Z.of_nat x + snd d) (Z.of_nat n1)); cbn; try (now left).
    right. do 2 eexists. split; [|split; [|split; reflexivity]]; lia.
Qed.
Lemma at_offset_out per n0 n1 a b y x d : at_offset per n0 n1 a y x d = NaN -> (forall i j, (i < n0)%nat -> (j < n1)%nat -> a i j <> NaN) -> (y < n0)%nat -> (x < n1)%nat -> at_offset per n0 n1 b y x d = NaN.
Proof.
  intros E F Hy Hx. unfold at_offset in *. destruct per.
  - exfalso. unfold wrapped in E. revert E. apply F.
    + pose proof (Z.mod_pos_bound (Z.of_nat y + fst d) (Z.of_nat n0) ltac:(lia)). lia.
    + pose proof (Z.mod_pos_bound (Z.of_nat x + snd d) (Z.of_nat n1) ltac:(lia)). lia.
  - unfold or_blank in *. destruct (Z.leb_spec 0 (Z.of_nat y + fst d)), (Z.ltb_spec (Z.of_nat y + fst d) (Z.of_nat n0)), (Z.leb_spec 0 (Z.of_nat x + snd d)), (Z.ltb_spec (Z.of_nat x + snd d) (Z.of_nat n1)); cbn in *; try reflexivity.
    exfalso. revert E. apply F; lia.
Qed.
Definition pairs_at (p : picture) (w : image) (k : nat) (per : bool) (y x : nat) : list (fl * fl) :=
  map (fun d => (at_offset per (pic_n0 p) (pic_n1 p) (pic_data p) y x d, at_offset per (pic_n0 p) (pic_n1 p) w y x d)) (disc k).
Lemma around_cm p w k per mf y x : around p w k per mf y x =
  let near a := map (at_offset per (pic_n0 p) (pic_n1 p) a y x) in
  if Rltb (finite_share (near (pic_data p) (square k))) mf || Rltb (finite_share (near w (square k))) mf then (NaN, NaN, NaN, NaN) else cm (pairs_at p w k per y x).
Proof. unfold around, cm, pairs_at. cbv zeta. rewrite !map_map. reflexivity. Qed.
Lemma pairs_fair p w k per y x : readable p -> weighted p w -> (y < pic_n0 p)%nat -> (x < pic_n1 p)%nat -> Forall fair (pairs_at p (weights_of w) k per y x).
Proof.
  intros D W Hy Hx. apply Forall_forall. intros v Hv. unfold pairs_at in Hv. apply in_map_iff in Hv. destruct Hv as (d & <- & _). split; cbn [fst snd].
  - destruct (at_offset_in per (pic_n0 p) (pic_n1 p) (pic_data p) y x d Hy Hx) as [E|(i & j & Hi & Hj & E & _)]; rewrite E; [exact I|now apply D].
  - destruct (at_offset_in per (pic_n0 p) (pic_n1 p) (weights_of w) y x d Hy Hx) as [E|(i & j & Hi & Hj & E & _)]; rewrite E; [now left|right]. destruct w as [w|]; cbn in *; [now apply W|]. exists 1. split; [reflexivity|lra].
Qed.
Lemma in_values p m f v : In v (values_of p m f) <-> exists y x, (y < pic_n0 p)%nat /\ (x < pic_n1 p)%nat /\ v = f (m y x).
Proof.
  unfold values_of. split.
  - intros H. apply in_map_iff in H. destruct H as ([y x] & <- & H). apply in_prod_iff in H. rewrite !in_seq in H. exists y, x. repeat split; try lia; reflexivity.
  - intros (y & x & Hy & Hx & ->). apply in_map_iff. exists (y, x). split; [reflexivity|]. apply in_prod_iff. rewrite !in_seq. lia.
Qed.
Lemma region_fine p w k per mf : readable p -> weighted p w -> fine p (region_maps p w k per mf).
Proof.
  intros D W f Hf. apply Forall_forall. intros v Hv. apply in_values in Hv. destruct Hv as (y & x & Hy & Hx & ->). rewrite region_around, around_cm. cbv zeta.
  destruct (_ || _); [destruct Hf as [<-|[<-|[<-|[<-|[]]]]]; exact I|]. pose proof (cm_blankable _ (pairs_fair p w k per y x D W Hy Hx)) as B. destruct (cm _) as [[[m va] s] ku]. destruct B as (B1 & B2 & B3 & B4).
  destruct Hf as [<-|[<-|[<-|[<-|[]]]]]; assumption.
Qed.
(** The distance of two images. *)
Lemma data_distance memory tol p1 p2 w1 w2 a nbins : readable p1 -> readable p2 -> weighted p1 w1 -> weighted p2 w2 ->
  moments_distance memory tol (Data p1 w1) (Data p2 w2) a nbins =
  (rr <- two_radii p1 p2 (ma_radius a) tol ;; k1 <- region p1 (fst rr) (ma_min_frac a) ;; k2 <- region p2 (snd rr) (ma_min_frac a) ;;
   let nb := nbins_of p1 p2 (ma_nbins a) in
   if Nat.eqb nb 0 then Err ValueError
   else lists_value p1 p2 (region_maps p1 w1 k1 (ma_periodic1 a) (ma_min_frac a)) (region_maps p2 w2 k2 (ma_periodic2 a) (ma_min_frac a)) (match nbins with None => nb | Some n => n end)).
Proof.
  intros D1 D2 W1 W2. unfold moments_distance, moments_pair. cbn [pic_of]. destruct (two_radii p1 p2 (ma_radius a) tol) as [[q1 q2]|e]; [|reflexivity]. cbn [bind fst snd]. rewrite !prepare_data.
  destruct (region p1 q1 (ma_min_frac a)) as [k1|e]; [|reflexivity]. destruct (region p2 q2 (ma_min_frac a)) as [k2|e]; [|reflexivity]. cbn [bind fst snd].
  rewrite (metric_lists _ _ p1 p2 (region_maps p1 w1 k1 (ma_periodic1 a) (ma_min_frac a)) (region_maps p2 w2 k2 (ma_periodic2 a) (ma_min_frac a)) (nbins_of p1 p2 (ma_nbins a)) (nbins_of p1 p2 (ma_nbins a))); try (repeat split; reflexivity); try now apply region_fine.
  now rewrite Bool.orb_diag.
Qed.
