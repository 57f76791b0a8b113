(** Objects that stand for their images, and what the distance does with the options and with blank images. *)
From Coq Require Import Reals List Bool ZArith Arith Lra Lia Permutation.
From Verif Require Import Lib.PyBase Lib.RSum Lib.Fl Lib.Arr Lib.Hist Spec.Bins Spec.Blank Spec.Distrib Model.Units Model.StatsUtils Model.StatMoments Model.MomentsRun Spec.MomentsRun Proofs.Fl_Proofs Proofs.Hist_Proofs Proofs.Moments_Proofs Proofs.Moments2_Proofs Proofs.MomentsRun_Proofs Proofs.MomentsRun2_Proofs Proofs.MomentsRun3_Proofs Proofs.MomentsRun4_Proofs Proofs.MomentsRun5_Proofs Proofs.MomentsRun6_Proofs Proofs.MomentsRun7_Proofs.
Import ListNotations.
Local Open Scope R_scope.

Lemma object_made memory p w q n o0 o per mf : moments_init p w q (Some n) = Ok o0 -> spatial memory o0 None per mf = (o, None) ->
  exists k, region p q mf = Ok k /\ has o p (region_maps p w k per mf) n /\ m_radius o = q.
Proof.
  unfold moments_init, region. destruct (set_acceptable p q) as [[E _]|[[e E] _]]; rewrite E; [|discriminate]. cbn [bind]. intros H. inversion H; subst o0; clear H. unfold spatial. rewrite share_bad. destruct (share mf); [|discriminate].
  cbn. destruct (to_pixel (pic_stat p) q) as [px|]; [|discriminate]. intros H. inversion H; subst o; clear H. eexists. split; [reflexivity|]. repeat split; reflexivity.
Qed.
Lemma object_kept memory first o p m n q nbins self per mf : has o p m n -> m_radius o = q -> is_ok (to_pixel (pic_stat p) q) = true -> prepare memory first (Object o) q nbins self per mf = Ok o.
Proof.
  intros (A & B & C) R T. unfold prepare. rewrite B, A, R. destruct (to_pixel (pic_stat p) q) as [px|]; [|discriminate]. cbn [bind]. rewrite Rminus_diag_eq by reflexivity. rewrite Rabs_R0. destruct (Rleb_spec 1 0); [lra|]. reflexivity.
Qed.
Lemma region_ok_pixel p q mf k : region p q mf = Ok k -> is_ok (to_pixel (pic_stat p) q) = true.
Proof. intros H. destruct (region_rounded _ _ _ _ H) as ((px & E & _) & _). now rewrite E. Qed.
Lemma stands_pic memory g p w q per mf : stands_for memory g p w q per mf -> pic_of g = p.
Proof. intros [->|(n & o0 & o & -> & _ & I & S)]; [reflexivity|]. destruct (object_made _ _ _ _ _ _ _ _ _ I S) as (k & _ & (A & _) & _). exact A. Qed.
Lemma stands_prepared memory first g p w q nbins self per mf : stands_for memory g p w q per mf -> (0 < self)%nat ->
  (exists e, region p q mf = Err e /\ prepare memory first g q nbins self per mf = Err e) \/
  exists k o n, region p q mf = Ok k /\ prepare memory first g q nbins self per mf = Ok o /\ has o p (region_maps p w k per mf) n /\ Nat.eqb n 0 = false.
Proof.
  intros [->|(n & o0 & o & -> & N & I & S)] H.
  - rewrite prepare_data. destruct (region p q mf) as [k|e]; [right|left; eauto]. do 3 eexists. split; [reflexivity|]. split; [reflexivity|]. split; [repeat split; reflexivity|]. apply Nat.eqb_neq. lia.
  - right. destruct (object_made _ _ _ _ _ _ _ _ _ I S) as (k & E & A & R). exists k, o, n. split; [exact E|]. split; [|split; [exact A|apply Nat.eqb_neq; lia]]. eapply object_kept; eauto. eapply region_ok_pixel; eauto.
Qed.
Lemma same_radius p1 p2 q tol : sized p1 -> is_equivalent (q_unit q) pix = false \/ Rabs (scale0 (pic_grid p1)) = Rabs (scale0 (pic_grid p2)) ->
  two_radii p1 p2 q tol = Ok (q, q) \/ exists e, two_radii p1 p2 q tol = Err e.
Proof.
  intros S H. unfold two_radii. destruct (is_equivalent (q_unit q) pix); [|now left]. destruct H as [H|H]; [discriminate|]. unfold common_scale. destruct (distorted _); [right; cbn; eauto|]. destruct (distorted _); [right; cbn; eauto|]. cbv zeta.
  destruct (Rltb _ _); [right; cbn; eauto|]. destruct (Rltb _ _); [right; cbn; eauto|]. left. cbn [bind]. rewrite <- H. pose proof (Rabs_pos_lt _ S). replace (_ / _) with 1 by (field; lra). destruct (Reqb_spec 1 1); [reflexivity|lra].
Qed.
Lemma objects_agree memory tol g1 g2 p1 p2 w1 w2 a nbins : readable p1 -> readable p2 -> weighted p1 w1 -> weighted p2 w2 -> sized p1 ->
  stands_for memory g1 p1 w1 (ma_radius a) (ma_periodic1 a) (ma_min_frac a) -> stands_for memory g2 p2 w2 (ma_radius a) (ma_periodic2 a) (ma_min_frac a) ->
  is_equivalent (q_unit (ma_radius a)) pix = false \/ Rabs (scale0 (pic_grid p1)) = Rabs (scale0 (pic_grid p2)) -> (0 < nbins_of p1 p2 (ma_nbins a))%nat ->
  moments_distance memory tol g1 g2 a nbins = moments_distance memory tol (Data p1 w1) (Data p2 w2) a nbins.
Proof.
  intros D1 D2 W1 W2 Z G1 G2 Q N. rewrite data_distance by assumption. unfold moments_distance, moments_pair. rewrite (stands_pic _ _ _ _ _ _ _ G1), (stands_pic _ _ _ _ _ _ _ G2).
  destruct (same_radius p1 p2 (ma_radius a) tol Z Q) as [T|(e & T)]; rewrite T; [|reflexivity]. cbn [bind fst snd].
  destruct (stands_prepared memory true g1 p1 w1 (ma_radius a) (ma_nbins a) _ _ _ G1 N) as [(e & R1 & P1)|(k1 & o1 & n1 & R1 & P1 & H1 & Z1)]; rewrite R1, P1; [reflexivity|]. cbn [bind].
  destruct (stands_prepared memory false g2 p2 w2 (ma_radius a) (ma_nbins a) _ _ _ G2 N) as [(e & R2 & P2)|(k2 & o2 & n2 & R2 & P2 & H2 & Z2)]; rewrite R2, P2; [reflexivity|]. cbn [bind fst snd]. cbv zeta.
  rewrite (metric_lists _ _ _ _ _ _ _ _ _ _ H1 H2) by now apply region_fine. rewrite Z1, Z2. cbn [orb]. destruct (Nat.eqb_spec (nbins_of p1 p2 (ma_nbins a)) 0); [lia|reflexivity].
Qed.

(** ** The skewness is a number where the kurtosis is *)
Lemma both_numbers p w k per mf y x : readable p -> weighted p w -> (y < pic_n0 p)%nat -> (x < pic_n1 p)%nat ->
  is_fin (skewness_of (around p (weights_of w) k per mf y x)) = is_fin (kurtosis_of (around p (weights_of w) k per mf y x)).
Proof.
  intros D W Hy Hx. rewrite around_cm. cbv zeta. destruct (_ || _); [reflexivity|]. pose proof (pairs_fair p w k per y x D W Hy Hx) as F. destruct (weight_pos _ F) as [[A B]|A]; [rewrite cm_none by assumption|rewrite cm_fair by assumption]; reflexivity.
Qed.
Lemma fins_some p m f y x v : (y < pic_n0 p)%nat -> (x < pic_n1 p)%nat -> f (m y x) = Fin v -> fins (values_of p m f) <> [].
Proof. intros Hy Hx E K. assert (I : In (Fin v) (values_of p m f)) by (apply in_values; eauto). apply (proj2 (in_fins _ _)) in I. rewrite K in I. contradiction. Qed.
Lemma fins_nothing p m f : (forall y x, (y < pic_n0 p)%nat -> (x < pic_n1 p)%nat -> f (m y x) = NaN) -> fins (values_of p m f) = [].
Proof.
  intros H. destruct (fins (values_of p m f)) as [|v l] eqn:E; [reflexivity|]. assert (I : In v (fins (values_of p m f))) by (rewrite E; now left). apply (proj1 (in_fins _ _)) in I. apply in_values in I. destruct I as (y & x & Hy & Hx & K). rewrite H in K by assumption. discriminate.
Qed.

(** ** Examples *)
Definition with_three (per : bool) (mf : R) : margs := mk_margs two_pix mf (Some 3%nat) per per.
Definition void : picture := mk_picture 4 4 (fun _ _ => NaN) (mk_stat None None) {| distorted := false; scale0 := 1; scale1 := 1 |}.
Lemma plain_readable : readable plain. Proof. intros i j _ _. exact I. Qed.
Lemma void_readable : readable void. Proof. intros i j _ _. exact I. Qed.
Lemma plain_radii p1 p2 : pic_grid p1 = pic_grid plain -> pic_grid p2 = pic_grid plain -> two_radii p1 p2 two_pix 1 = Ok (two_pix, two_pix).
Proof.
  intros E1 E2. unfold two_radii. cbn [two_pix q_unit is_equivalent]. rewrite E1, E2. unfold common_scale. cbn [plain pic_grid distorted scale0 scale1]. rewrite Rabs_R1, Rminus_diag_eq by reflexivity. rewrite Rabs_R0.
  destruct (Rltb_spec 1 0); [lra|]. cbn. replace (1 / 1) with 1 by field. destruct (Reqb_spec 1 1); [reflexivity|lra].
Qed.
Lemma plain_region p mf : pic_n0 p = 4%nat -> pic_n1 p = 4%nat -> share mf = true -> region p two_pix mf = Ok 2%nat.
Proof.
  intros E0 E1 S. unfold region, set_radius. rewrite E0, E1, S. cbn. destruct (Rltb_spec 2 2); [lra|]. destruct (Rltb_spec ((1 + 1 + 1 + 1) / 2) 2); [lra|]. cbn. f_equal. apply (ceil_nat 2 2). cbn. lra.
Qed.
Lemma plain_distance memory p1 p2 per mf : readable p1 -> readable p2 -> pic_grid p1 = pic_grid plain -> pic_grid p2 = pic_grid plain -> pic_n0 p1 = 4%nat -> pic_n1 p1 = 4%nat -> pic_n0 p2 = 4%nat -> pic_n1 p2 = 4%nat -> share mf = true ->
  moments_distance memory 1 (Data p1 None) (Data p2 None) (with_three per mf) None = lists_value p1 p2 (region_maps p1 None 2 per mf) (region_maps p2 None 2 per mf) 3.
Proof.
  intros D1 D2 E1 E2 A B C D S. rewrite data_distance by (try assumption; exact I). cbn [with_three ma_radius ma_min_frac ma_nbins ma_periodic1 ma_periodic2]. rewrite plain_radii by assumption. cbn [bind fst snd]. rewrite !plain_region by assumption. reflexivity.
Qed.
Lemma plain_numbers f : In f [skewness_of; kurtosis_of] -> fins (values_of plain (region_maps plain None 2 true (8 / 10)) f) <> [].
Proof.
  intros F. pose proof (plain_inside 0 0) as P. pose proof (both_numbers plain None 2 true (8 / 10) 0 0 plain_readable I ltac:(cbn; lia) ltac:(cbn; lia)) as B. rewrite P in B. cbn [is_fin] in B.
  assert (E : exists v, f (region_maps plain None 2 true (8 / 10) 0%nat 0%nat) = Fin v). { rewrite region_around. destruct F as [<-|[<-|[]]]; [eauto|]. destruct (kurtosis_of _) as [v| | |]; try discriminate. eauto. }
  destruct E as (v & E). eapply fins_some; [| |exact E]; cbn; lia.
Qed.
Lemma void_nothing f per mf : In f [skewness_of; kurtosis_of] -> 0 < mf -> fins (values_of void (region_maps void None 2 per mf) f) = [].
Proof.
  intros F M. apply fins_nothing. intros y x Hy Hx. rewrite region_around. unfold around. cbv beta zeta.
  assert (Z : forall l : list (Z * Z), finite_share (map (at_offset per (pic_n0 void) (pic_n1 void) (pic_data void) y x) l) = 0).
  { intros l. unfold finite_share. replace (filter is_fin (map (at_offset per (pic_n0 void) (pic_n1 void) (pic_data void) y x) l)) with (@nil fl); [cbn; unfold Rdiv; ring|]. induction l as [|d l IH]; [reflexivity|]. cbn [map filter].
    replace (is_fin (at_offset per (pic_n0 void) (pic_n1 void) (pic_data void) y x d)) with false; [exact IH|]. unfold at_offset, wrapped, or_blank. destruct per; [reflexivity|]. cbv zeta. destruct (_ && _); reflexivity. }
  rewrite Z. destruct (Rltb_spec 0 mf); [|lra]. destruct F as [<-|[<-|[]]]; reflexivity.
Qed.
Lemma plain_fine per mf : fine plain (region_maps plain None 2 per mf). Proof. apply region_fine; [apply plain_readable|exact I]. Qed.
Lemma void_fine per mf : fine void (region_maps void None 2 per mf). Proof. apply region_fine; [apply void_readable|exact I]. Qed.
Lemma void_second memory : moments_distance memory 1 (Data plain None) (Data void None) (with_three true (8 / 10)) None = Ok (Fin 0, Fin 0).
Proof.
  rewrite plain_distance by (try reflexivity; try apply plain_readable; try apply void_readable; apply share_run). unfold lists_value.
  rewrite !pair_second_none; try lia; try (apply plain_fine; cbn; tauto); try (apply void_fine; cbn; tauto); try (apply plain_numbers; cbn; tauto); try (apply void_nothing; [cbn; tauto|lra]). reflexivity.
Qed.
Lemma void_first memory : moments_distance memory 1 (Data void None) (Data plain None) (with_three true (8 / 10)) None = Ok (NaN, NaN).
Proof.
  rewrite plain_distance by (try reflexivity; try apply plain_readable; try apply void_readable; apply share_run). unfold lists_value.
  rewrite !pair_first_none; try lia; try (apply plain_fine; cbn; tauto); try (apply void_fine; cbn; tauto); try (apply void_nothing; [cbn; tauto|lra]). reflexivity.
Qed.
Lemma plain_plain memory : moments_distance memory 1 (Data plain None) (Data plain None) (with_three true (8 / 10)) None = Ok (Fin 0, Fin 0).
Proof.
  rewrite plain_distance by (try reflexivity; try apply plain_readable; apply share_run). unfold lists_value.
  rewrite !pair_self; try lia; try (apply plain_fine; cbn; tauto); try (apply plain_numbers; cbn; tauto). reflexivity.
Qed.
Lemma order_refuted : ~ (forall memory tol p1 p2 w1 w2 a nbins, readable p1 -> readable p2 -> weighted p1 w1 -> weighted p2 w2 -> sized p1 -> sized p2 ->
  moments_distance memory tol (Data p2 w2) (Data p1 w1) (other_order a) nbins = moments_distance memory tol (Data p1 w1) (Data p2 w2) a nbins).
Proof.
  intros H. assert (Z : forall p, pic_grid p = pic_grid plain -> sized p) by (intros p E; unfold sized; rewrite E; cbn; lra).
  specialize (H (fun _ _ => (NaN, NaN, NaN, NaN)) 1 plain void None None (with_three true (8 / 10)) None plain_readable void_readable I I (Z _ eq_refl) (Z _ eq_refl)).
  rewrite void_second in H. change (other_order (with_three true (8 / 10))) with (with_three true (8 / 10)) in H. rewrite void_first in H. discriminate.
Qed.
(** Nothing told apart: a blank image is at distance zero. *)
Lemma zero_refuted : ~ (forall memory tol p1 p2 w1 w2 a nbins, readable p1 -> readable p2 -> weighted p1 w1 -> weighted p2 w2 -> sized p1 -> sized p2 ->
  moments_distance memory tol (Data p1 w1) (Data p2 w2) a nbins = Ok (Fin 0, Fin 0) -> exists i j v, (i < pic_n0 p2)%nat /\ (j < pic_n1 p2)%nat /\ pic_data p2 i j = Fin v).
Proof.
  intros H. assert (Z : forall p, pic_grid p = pic_grid plain -> sized p) by (intros p E; unfold sized; rewrite E; cbn; lra).
  destruct (H (fun _ _ => (NaN, NaN, NaN, NaN)) 1 plain void None None (with_three true (8 / 10)) None plain_readable void_readable I I (Z _ eq_refl) (Z _ eq_refl) (void_second _)) as (i & j & v & _ & _ & E). discriminate.
Qed.
(** An object whose maps were made with other options. *)
Definition other_maps : mobj := mk_mobj plain (weights_of None) two_pix (Some 3%nat) None (Some (region_maps plain None 2 false 1)) None None None None.
Definition plain_three : mobj := mk_mobj plain (weights_of None) two_pix (Some 3%nat) None None None None None None.
Lemma plain_init_three : moments_init plain None two_pix (Some 3%nat) = Ok plain_three.
Proof. unfold moments_init, set_radius. cbn. destruct (Rltb_spec 2 2); [lra|]. destruct (Rltb_spec ((1 + 1 + 1 + 1) / 2) 2); [lra|]. reflexivity. Qed.
Lemma share_one : share 1 = true.
Proof. unfold share. destruct (Rltb_spec 0 1); [|lra]. destruct (Rleb_spec 1 1); [reflexivity|lra]. Qed.
Lemma plain_made memory : spatial memory plain_three None false 1 = (other_maps, None).
Proof.
  unfold spatial. rewrite share_bad, share_one. cbn. replace (Z.to_nat (ceil 2)) with 2%nat; [reflexivity|]. symmetry. apply (ceil_nat 2 2). cbn. lra.
Qed.
Lemma options_refuted : ~ (forall memory tol p1 p2 w1 w2 o0 o1 per mf a n nbins, readable p1 -> readable p2 -> weighted p1 w1 -> weighted p2 w2 -> sized p1 -> (0 < n)%nat ->
  moments_init p1 w1 (ma_radius a) (Some n) = Ok o0 -> spatial memory o0 None per mf = (o1, None) ->
  moments_distance memory tol (Object o1) (Data p2 w2) a nbins = moments_distance memory tol (Data p1 w1) (Data p2 w2) a nbins).
Proof.
  intros H. set (mem := fun _ _ : nat => (NaN, NaN, NaN, NaN) : moments4).
  specialize (H mem 1 plain plain None None plain_three other_maps false 1 (with_three true (8 / 10)) 3%nat None plain_readable plain_readable I I ltac:(unfold sized; cbn; lra) ltac:(lia) plain_init_three (plain_made mem)).
  rewrite plain_plain in H. revert H. unfold moments_distance, moments_pair. cbn [pic_of other_maps m_pic with_three ma_radius ma_min_frac ma_nbins ma_periodic1 ma_periodic2]. rewrite plain_radii by reflexivity. cbn [bind fst snd].
  assert (HO : has other_maps plain (region_maps plain None 2 false 1) 3) by (repeat split; reflexivity). fold other_maps. rewrite (object_kept mem true other_maps plain _ 3%nat two_pix _ _ _ _ HO eq_refl eq_refl). cbn [bind].
  rewrite prepare_data, plain_region by (try reflexivity; apply share_run). cbn [bind fst snd].
  rewrite (metric_lists _ _ plain plain (region_maps plain None 2 false 1) (region_maps plain None 2 true (8 / 10)) 3%nat 3%nat); [|exact HO|repeat split; reflexivity|apply plain_fine|apply plain_fine]. cbn [Nat.eqb orb nbins_of]. unfold lists_value.
  assert (X : forall f, In f [skewness_of; kurtosis_of] -> fins (values_of plain (region_maps plain None 2 false 1) f) = []).
  { intros f F. apply fins_nothing. intros y x Hy Hx. rewrite region_around, plain_outside by exact Hy. destruct F as [<-|[<-|[]]]; reflexivity. }
  rewrite !pair_first_none; try lia; try (apply plain_fine; cbn; tauto); try (apply X; cbn; tauto). discriminate.
Qed.

(** ** Histories, in the words of the specification *)
Lemma maps_session memory p w q nb o0 cs r per mf o : moments_init p w q nb = Ok o0 -> spatial memory (session memory o0 cs) r per mf = (o, None) ->
  exists k m, m_radius o = in_force p q (cs ++ [Spatial r per mf]) /\ rounded_up p (m_radius o) k /\ m_maps o = Some m /\ forall y x, m y x = around p (weights_of w) k per mf y x.
Proof.
  intros I E. destruct (maps_after memory p w q nb o0 cs r per mf o I E) as (k & m & Q & R & M & A). exists k, m. split; [|auto]. rewrite in_force_app, Q.
  assert (S : share mf = true). { unfold spatial in E. rewrite share_bad in E. destruct (share mf); [reflexivity|discriminate]. }
  destruct r as [r|]; cbn [in_force fold_left new_radius]; [now rewrite S|reflexivity].
Qed.
Lemma run_session memory p w q nb o0 cs r per mf b o : moments_init p w q nb = Ok o0 -> moments_run memory (session memory o0 cs) r per mf b = (o, None) ->
  exists k m h1 h2 h3 h4, m_radius o = in_force p q (cs ++ [Run r per mf b]) /\ rounded_up p (m_radius o) k /\ m_maps o = Some m /\
    (forall y x, m y x = around p (weights_of w) k per (8 / 10) y x) /\
    m_whole o = Some (array_moments (pic_n0 p) (pic_n1 p) (pic_data p) w) /\
    m_mean_hist o = Some h1 /\ m_variance_hist o = Some h2 /\ m_skewness_hist o = Some h3 /\ m_kurtosis_hist o = Some h4 /\
    let n := match nb with None => floor_sqrt (pic_n0 p * pic_n1 p) | Some n => n end in
    recorded (values_of p m mean_of) n (b_mean b) h1 /\ recorded (values_of p m variance_of) n (b_variance b) h2 /\
    recorded (values_of p m skewness_of) n (b_skewness b) h3 /\ recorded (values_of p m kurtosis_of) n (b_kurtosis b) h4.
Proof.
  intros I E. destruct (run_after memory p w q nb o0 cs r per mf b o I E) as (k & m & h1 & h2 & h3 & h4 & Q & K). exists k, m, h1, h2, h3, h4. split; [|exact K]. rewrite in_force_app, Q. destruct r as [r|]; reflexivity.
Qed.
(** The histograms are those of the maps in force when nothing has been mapped since: a last call of make_spatial_histograms. *)
Lemma hists_session memory p w q nb o0 cs b o : moments_init p w q nb = Ok o0 -> spatial_hists (session memory o0 cs) b = (o, None) ->
  exists m h1 h2 h3 h4, m_maps (session memory o0 cs) = Some m /\ m_mean_hist o = Some h1 /\ m_variance_hist o = Some h2 /\ m_skewness_hist o = Some h3 /\ m_kurtosis_hist o = Some h4 /\
    let n := match nb with None => floor_sqrt (pic_n0 p * pic_n1 p) | Some n => n end in
    recorded (values_of p m mean_of) n (b_mean b) h1 /\ recorded (values_of p m variance_of) n (b_variance b) h2 /\
    recorded (values_of p m skewness_of) n (b_skewness b) h3 /\ recorded (values_of p m kurtosis_of) n (b_kurtosis b) h4.
Proof.
  intros I E. destruct (init_sound p w q nb o0 I) as (n & S0 & Hn). pose proof (session_sound memory p _ _ _ _ cs S0) as (B & _). set (o1 := session memory o0 cs) in *.
  destruct (hists_ok o1 b o E) as (h1 & h2 & h3 & h4 & A1 & A2 & A3 & A4 & C1 & C2 & C3 & C4). destruct (m_maps o1) as [m|] eqn:M; [|unfold one_hist, moment_list in A1; rewrite M in A1; discriminate].
  exists m, h1, h2, h3, h4. split; [reflexivity|]. repeat (split; [assumption|]). cbv zeta. rewrite <- Hn.
  split; [eapply one_hist_recorded; eassumption|]. split; [eapply one_hist_recorded; eassumption|]. split; eapply one_hist_recorded; eassumption.
Qed.
