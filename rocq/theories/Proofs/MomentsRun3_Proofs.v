(** Runs of StatMoments after any history, and what calls that raise leave behind. *)
From Coq Require Import Reals List Bool ZArith Arith Lra Lia.
From Verif Require Import Lib.PyBase Lib.RSum Lib.Fl Lib.Arr Lib.Hist Spec.Bins Spec.Blank Spec.Distrib Model.Units Model.StatsUtils Model.StatMoments Model.MomentsRun Spec.MomentsRun Proofs.Hist_Proofs Proofs.Moments_Proofs Proofs.Moments2_Proofs Proofs.MomentsRun_Proofs Proofs.MomentsRun2_Proofs.
Import ListNotations.
Local Open Scope R_scope.

Lemma one_hist_recorded o p w n m f b h : base o = (p, w, Some n) -> m_maps o = Some m -> one_hist o f b = Ok h -> recorded (values_of p m f) n b h.
Proof.
  intros B M. assert (B1 : m_pic o = p) by (unfold base in B; congruence). assert (B3 : m_nbins o = Some n) by (unfold base in B; congruence).
  unfold one_hist, moment_list. rewrite M, B1, B3. cbn [bind option_map]. change (flat (pic_n0 p) (pic_n1 p) (fun y x => f (m y x))) with (values_of p m f).
  unfold recorded. destruct b as [[b|k]|].
  - unfold spatial_histogram. destruct (histogram_fl _ b) as [[v e]|]; cbn [bind]; [|discriminate]. intros H. inversion H; subst. cbn [fst snd]. eauto.
  - intros H. now inversion H.
  - destruct (spatial_histogram (values_of p m f) None (Some (NumBins n))) as [[c v]|]; cbn [bind]; [|discriminate]. intros H. inversion H; subst. cbn [fst snd]. eauto.
Qed.
Lemma run_after memory p w q nb o0 cs r per mf b o : moments_init p w q nb = Ok o0 -> moments_run memory (session memory o0 cs) r per mf b = (o, None) ->
  exists k m h1 h2 h3 h4, m_radius o = new_radius p (in_force p q cs) r /\ rounded_up p (m_radius o) k /\ m_maps o = Some m /\
    (forall y x, m y x = around p (weights_of w) k per (8 / 10) y x) /\
    m_whole o = Some (array_moments (pic_n0 p) (pic_n1 p) (pic_data p) w) /\
    m_mean_hist o = Some h1 /\ m_variance_hist o = Some h2 /\ m_skewness_hist o = Some h3 /\ m_kurtosis_hist o = Some h4 /\
    let n := match nb with None => floor_sqrt (pic_n0 p * pic_n1 p) | Some n => n end in
    recorded (values_of p m mean_of) n (b_mean b) h1 /\ recorded (values_of p m variance_of) n (b_variance b) h2 /\
    recorded (values_of p m skewness_of) n (b_skewness b) h3 /\ recorded (values_of p m kurtosis_of) n (b_kurtosis b) h4.
Proof.
  intros I E. destruct (init_sound p w q nb o0 I) as (n & S0 & Hn). pose proof (session_sound memory p _ _ _ _ cs S0) as S1. set (o1 := session memory o0 cs) in *.
  unfold moments_run in E. apply also_ok in E. destruct E as (o2 & W & E). apply also_ok in E. destruct E as (o3 & SP & H).
  assert (S2 : sound p (weights_of w) (Some n) (in_force p q cs) o2). { apply whole_sound in S1. rewrite W in S1. exact S1. }
  assert (W2 : m_whole o2 = Some (array_moments (pic_n0 p) (pic_n1 p) (pic_data p) w)).
  { unfold whole_moments in W. inversion W; subst o2. cbn [m_whole with_whole]. destruct S1 as (B & _). unfold base in B. assert (P : m_pic o1 = p) by congruence. assert (Q : m_weights o1 = weights_of w) by congruence. rewrite P, Q. reflexivity. }
  pose proof (spatial_spec memory p _ _ _ _ r per (8 / 10) S2) as SS. cbv zeta in SS. rewrite SP, share_run in SS. cbn [fst snd] in SS. destruct SS as (S3 & W3 & _ & M).
  destruct (match r with None => true | Some q' => acceptable p q' end); [|destruct M as [[e F] _]; discriminate]. destruct M as (_ & k & R & M).
  pose proof (hists_keep o3 b) as KP. rewrite H in KP. cbn [fst] in KP. destruct KP as (K1 & K2 & K3 & K4).
  destruct (hists_ok o3 b o H) as (h1 & h2 & h3 & h4 & A1 & A2 & A3 & A4 & C1 & C2 & C3 & C4). destruct S3 as (B3 & Q3 & _).
  exists k, (local_moments (pic_n0 p) (pic_n1 p) k per (8 / 10) (pic_data p) (weights_of w)), h1, h2, h3, h4.
  split; [congruence|]. split; [rewrite K2, Q3; exact R|]. split; [rewrite K3; exact M|]. split; [intros y x; apply window|]. split; [congruence|].
  split; [exact C1|]. split; [exact C2|]. split; [exact C3|]. split; [exact C4|]. cbv zeta. rewrite <- Hn.
  split; [eapply one_hist_recorded; eassumption|]. split; [eapply one_hist_recorded; eassumption|]. split; eapply one_hist_recorded; eassumption.
Qed.

(** ** Calls that raise *)
Lemma refused memory p w q nb o0 cs : moments_init p w q nb = Ok o0 -> let o := session memory o0 cs in
  (forall q', acceptable p q' = false -> (exists e, assign_radius o q' = (o, Some e)) /\
     forall per mf, 0 < mf <= 1 -> exists e o', spatial memory o (Some q') per mf = (o', Some e) /\ m_maps o' = Some memory /\ m_radius o' = m_radius o) /\
  (forall r per mf, ~ 0 < mf <= 1 -> spatial memory o r per mf = (o, Some ValueError)).
Proof.
  intros I o. destruct (init_sound p w q nb o0 I) as (n & S0 & _). pose proof (session_sound memory p _ _ _ _ cs S0) as S1. fold o in S1. pose proof S1 as (B & Q & A).
  assert (B1 : m_pic o = p) by (unfold base in B; congruence). split.
  - intros q' AC. split.
    + destruct (assign_cases o q') as [[E AC']|[[e E] AC']]; rewrite B1 in AC'; [congruence|eauto].
    + intros per mf Hm. assert (SH : share mf = true) by (unfold share; destruct (Rltb_spec 0 mf), (Rleb_spec mf 1); try reflexivity; lra).
      pose proof (spatial_val memory p _ _ _ o (Some q') per mf S1 SH) as V. cbv beta iota in V. rewrite AC in V. destruct V as (e & V). exists e, (with_maps o memory). split; [exact V|]. split; reflexivity.
  - intros r per mf Hm. unfold spatial. rewrite share_bad. assert (SH : share mf = false). { unfold share. destruct (Rltb_spec 0 mf), (Rleb_spec mf 1); try reflexivity. exfalso; lra. }
    now rewrite SH.
Qed.

(** A picture of ones, 4 x 4, with a radius of two pixels and one bin. *)
Definition plain : picture := mk_picture 4 4 ones (mk_stat None None) {| distorted := false; scale0 := 1; scale1 := 1 |}.
Definition two_pix : quantity := mk_q [2] pix.
Definition no_bins : bins4 := mk_bins None None None None.
Definition plain_obj : mobj := mk_mobj plain (weights_of None) two_pix (Some 1%nat) None None None None None None.
Lemma plain_accept v : 2 <= v <= 2 -> acceptable plain (mk_q [v] pix) = true.
Proof. intros H. unfold acceptable. cbn. destruct (Rleb_spec 2 v); [|lra]. destruct (Rleb_spec v ((1 + 1 + 1 + 1) / 2)); [reflexivity|lra]. Qed.
Lemma plain_init : moments_init plain None two_pix (Some 1%nat) = Ok plain_obj.
Proof. unfold moments_init. destruct (set_acceptable plain two_pix) as [[E _]|[_ A]]; [rewrite E; reflexivity|]. unfold two_pix in A. rewrite plain_accept in A by lra. discriminate. Qed.
Lemma plain_refused : acceptable plain (mk_q [1] pix) = false.
Proof. unfold acceptable. cbn. destruct (Rleb_spec 2 1); [lra|reflexivity]. Qed.
(** A radius of one pixel is refused, and the maps are then whatever was in memory. *)
Lemma failed_refuted : ~ (forall memory p w q nb o0 cs c e o', moments_init p w q nb = Ok o0 -> do_mcall memory (session memory o0 cs) c = (o', Some e) -> o' = session memory o0 cs).
Proof.
  intros H. destruct (refused (fun _ _ => (NaN, NaN, NaN, NaN)) plain None two_pix (Some 1%nat) plain_obj [] plain_init) as (A & _). destruct (A _ plain_refused) as (_ & B). destruct (B true 1) as (e & o' & E & M & _); [lra|].
  specialize (H (fun _ _ => (NaN, NaN, NaN, NaN)) plain None two_pix (Some 1%nat) plain_obj [] (Spatial (Some (mk_q [1] pix)) true 1) e o' plain_init E). rewrite H in M. discriminate.
Qed.

(** ** Histograms of earlier maps *)
Lemma share_lt l v : In v l -> is_fin v = false -> finite_share l < 1.
Proof.
  intros I F. unfold finite_share. assert (L : (length (filter is_fin l) < length l)%nat).
  { induction l as [|a l IH]; [contradiction|]. cbn [filter length]. destruct I as [->|I]; [rewrite F; apply le_n_S; clear; induction l as [|b l IH]; cbn; [lia|destruct (is_fin b); cbn; lia]|].
    specialize (IH I). destruct (is_fin a); cbn [length]; lia. }
  assert (P : 0 < INR (length l)) by (apply lt_0_INR; lia). apply lt_INR in L. apply (Rmult_lt_reg_r (INR (length l))); [exact P|]. unfold Rdiv. rewrite Rmult_assoc, Rinv_l by lra. lra.
Qed.
Lemma plain_outside y x : (y < 4)%nat -> around plain (weights_of None) 2 false 1 y x = (NaN, NaN, NaN, NaN).
Proof.
  intros Hy. unfold around. cbv zeta. assert (S : finite_share (map (at_offset false (pic_n0 plain) (pic_n1 plain) (pic_data plain) y x) (square 2)) < 1).
  { set (d := if Nat.ltb y 2 then (-2, 0)%Z else (2, 0)%Z). apply (share_lt _ (at_offset false 4 4 ones y x d)).
    - change (map (at_offset false (pic_n0 plain) (pic_n1 plain) (pic_data plain) y x) (square 2)) with (map (at_offset false 4 4 ones y x) (square 2)). apply in_map. unfold d. destruct (Nat.ltb y 2); cbn; intuition.
    - unfold at_offset, or_blank, d. destruct (Nat.ltb_spec y 2); cbn [fst snd].
      + destruct (Z.leb_spec 0 (Z.of_nat y + -2)); [lia|]. reflexivity.
      + destruct (Z.leb_spec 0 (Z.of_nat y + 2)); [|lia]. destruct (Z.ltb_spec (Z.of_nat y + 2) (Z.of_nat 4)); [lia|]. reflexivity. }
  destruct (Rltb_spec (finite_share (map (at_offset false (pic_n0 plain) (pic_n1 plain) (pic_data plain) y x) (square 2))) 1); [reflexivity|lra].
Qed.
Lemma plain_inside y x : skewness_of (around plain (weights_of None) 2 true (8 / 10) y x) = Fin 0.
Proof.
  unfold around. cbv zeta. change (at_offset true (pic_n0 plain) (pic_n1 plain) (pic_data plain) y x) with (fun _ : Z * Z => Fin 1).
  change (at_offset true (pic_n0 plain) (pic_n1 plain) (weights_of None) y x) with (fun _ : Z * Z => Fin 1).
  assert (S : finite_share (map (fun _ : Z * Z => Fin 1) (square 2)) = 1) by (apply share_all; [apply map_ne, square_ne|intros v Hv; apply in_map_iff in Hv; destruct Hv as (d & <- & _); reflexivity]).
  rewrite S. destruct (Rltb_spec 1 (8 / 10)); [lra|]. cbn [orb]. set (D := disc 2). replace (map (fun _ : Z * Z => Fin 1) D) with (map fst (map (fun _ : Z * Z => (Fin 1, Fin 1)) D)) at 1 by now rewrite map_map.
  replace (map (fun _ : Z * Z => Fin 1) D) with (map snd (map (fun _ : Z * Z => (Fin 1, Fin 1)) D)) by now rewrite map_map.
  set (l := map (fun _ : Z * Z => (Fin 1, Fin 1)) D). change (compute_moments (map fst l) (map snd l)) with (cm l).
  assert (F : Forall fair l) by (apply Forall_map, Forall_forall; intros; split; [exact I|right; exists 1; split; [reflexivity|lra]]).
  assert (W : weight_sum l = 9) by (unfold weight_sum, l, D; cbn; lra).
  rewrite cm_fair by (try exact F; lra). unfold skewness_of. cbn [fst snd]. f_equal. unfold bpow.
  assert (M : bmean l = 1) by (unfold bmean, bavg; rewrite W; unfold l, D; cbn; lra).
  assert (V : bvar l = 0) by (unfold bvar, bavg; rewrite W, M; unfold l, D; cbn; lra).
  rewrite V. destruct (Req_EM_T 0 0); [reflexivity|lra].
Qed.
Lemma recorded_zero l h : l <> [] -> (forall v, In v l -> v = Fin 0) -> recorded l 1 None h -> fst h = [Fin 0].
Proof.
  intros N A (c & E & ->). assert (L : l = repeat (Fin 0) (length l)). { clear -A. induction l as [|a l IH]; [reflexivity|]. cbn. rewrite (A a (or_introl eq_refl)). f_equal. apply IH. intros; apply A; now right. }
  destruct l as [|a l]; [congruence|]. clear N A. cbn [length repeat] in L. rewrite L in E. clear L. remember (length l) as n. clear -E. unfold spatial_histogram in E.
  assert (NN : nonnan (Fin 0 :: repeat (Fin 0) n) = Fin 0 :: repeat (Fin 0) n) by (clear; unfold nonnan; cbn; f_equal; induction n; cbn; congruence).
  rewrite NN in E. unfold histogram_fl in E. assert (FF : forallb is_fin (Fin 0 :: repeat (Fin 0) n) = true) by (clear; cbn; induction n; cbn; auto).
  rewrite FF in E. assert (FI : fins (Fin 0 :: repeat (Fin 0) n) = 0 :: repeat 0 n) by (clear; cbn; f_equal; induction n; cbn; congruence). rewrite FI in E.
  assert (MI : forall n, lmin 0 (repeat 0 n) = 0) by (clear; induction n; cbn; [reflexivity|]; rewrite Rmin_left by lra; assumption).
  assert (MX : forall n, lmax 0 (repeat 0 n) = 0) by (clear; induction n; cbn; [reflexivity|]; rewrite Rmax_left by lra; assumption).
  unfold histogram, bin_edges, outer_edges in E. rewrite MI, MX in E. destruct (Reqb_spec 0 0); [|lra]. cbn [bind] in E. inversion E. unfold mid, tab1. cbn. f_equal. f_equal. lra.
Qed.
Lemma recorded_none l h : (forall v, In v l -> v = NaN) -> recorded l 1 None h -> fst h = [Fin (1 / 2)].
Proof.
  intros A (c & E & ->). unfold spatial_histogram in E. assert (NN : nonnan l = []). { clear -A. induction l as [|a l IH]; [reflexivity|]. unfold nonnan in *. cbn. rewrite (A a (or_introl eq_refl)). cbn. apply IH. intros; apply A; now right. }
  rewrite NN in E. cbn in E. inversion E. cbn. f_equal. f_equal. lra.
Qed.
Lemma values_ne m f : values_of plain m f <> [].
Proof. discriminate. Qed.
Lemma plain_run memory : exists o, moments_run memory plain_obj None true 1 no_bins = (o, None).
Proof.
  destruct (init_sound plain None two_pix (Some 1%nat) plain_obj plain_init) as (n & S0 & Hn). subst n.
  unfold moments_run. unfold also at 1. cbn [whole_moments fst snd]. set (o1 := with_whole plain_obj _). assert (S1 : sound plain (weights_of None) (Some 1%nat) two_pix o1) by (apply whole_sound in S0; exact S0).
  pose proof (spatial_val memory plain _ _ _ o1 None true (8 / 10) S1 share_run) as V. cbv beta iota in V. destruct V as (k & R & V). rewrite V. unfold also. cbn [fst snd]. set (o2 := with_maps _ _).
  assert (G : forall o f w, (forall y x, blankable (f (local_moments 4 4 k true (8 / 10) ones (weights_of None) y x))) -> m_maps o = m_maps o2 -> m_pic o = plain -> m_nbins o = Some 1%nat -> exists h, put (one_hist o f None) o w = (w o h, None)).
  { intros o f w F M P B. unfold one_hist, moment_list. rewrite M, P, B. cbn [m_maps o2 with_maps bind option_map].
    pose proof (spatial_works (flat (pic_n0 plain) (pic_n1 plain) (fun y x => f (local_moments (pic_n0 plain) (pic_n1 plain) k true (8 / 10) (pic_data plain) (weights_of None) y x))) 1 ltac:(lia)) as SW.
    destruct (spatial_histogram _ None (Some (NumBins 1))) as [[c v]|]; [cbn [bind put]; eauto|]. exfalso. assert (X : false = true); [|discriminate]. apply SW. apply Forall_map, Forall_forall. intros. apply F. }
  assert (BL : forall y x, let '(m, v, s, kk) := local_moments 4 4 k true (8 / 10) ones (weights_of None) y x in blankable m /\ blankable v /\ blankable s /\ blankable kk).
  { intros y x. rewrite window. destruct (_ || _); [cbn; auto|]. pose proof (cm_blankable (map (fun d => (at_offset true 4 4 ones y x d, at_offset true 4 4 (weights_of None) y x d)) (disc k))) as CB.
    unfold cm in CB. rewrite !map_map in CB. apply CB. apply Forall_map, Forall_forall. intros. split; [exact I|right; exists 1; split; [reflexivity|lra]]. }
  unfold spatial_hists.
  destruct (G o2 mean_of with_mean_hist) as (h1 & G1); [intros y x; specialize (BL y x); destruct (local_moments _ _ _ _ _ _ _ _ _) as [[[? ?] ?] ?]; apply BL|reflexivity..|]. cbn [b_mean no_bins]. rewrite G1. unfold also at 1. cbn [fst snd].
  destruct (G (with_mean_hist o2 h1) variance_of with_variance_hist) as (h2 & G2); [intros y x; specialize (BL y x); destruct (local_moments _ _ _ _ _ _ _ _ _) as [[[? ?] ?] ?]; apply BL|reflexivity..|]. cbn [b_variance no_bins]. rewrite G2. unfold also at 1. cbn [fst snd].
  destruct (G (with_variance_hist (with_mean_hist o2 h1) h2) skewness_of with_skewness_hist) as (h3 & G3); [intros y x; specialize (BL y x); destruct (local_moments _ _ _ _ _ _ _ _ _) as [[[? ?] ?] ?]; apply BL|reflexivity..|]. cbn [b_skewness no_bins]. rewrite G3. unfold also at 1. cbn [fst snd].
  destruct (G (with_skewness_hist (with_variance_hist (with_mean_hist o2 h1) h2) h3) kurtosis_of with_kurtosis_hist) as (h4 & G4); [intros y x; specialize (BL y x); destruct (local_moments _ _ _ _ _ _ _ _ _) as [[[? ?] ?] ?]; apply BL|reflexivity..|]. cbn [b_kurtosis no_bins]. rewrite G4. eauto.
Qed.
Lemma plain_two k : rounded_up plain two_pix k -> k = 2%nat.
Proof. intros (px & E & H). cbn in E. inversion E; subst. cbn in H. assert (INR 1 < INR k) by (cbn; lra). assert (INR k < INR 3) by (cbn; lra). apply INR_lt in H0, H1. lia. Qed.
(** New maps, old histograms. *)
Lemma stale_refuted : ~ (forall memory p w q n o0 cs m h, moments_init p w q (Some n) = Ok o0 -> (forall b, In (Hists b) cs -> b = no_bins) -> (forall r per mf b, In (Run r per mf b) cs -> b = no_bins) ->
  m_maps (session memory o0 cs) = Some m -> m_skewness_hist (session memory o0 cs) = Some h -> recorded (values_of p m skewness_of) n None h).
Proof.
  intros H. set (mem := fun _ _ : nat => (NaN, NaN, NaN, NaN) : moments4). set (cs := [Run None true 1 no_bins]).
  destruct (plain_run mem) as (o & E). pose proof (run_after mem plain None two_pix (Some 1%nat) plain_obj [] None true 1 no_bins o plain_init E) as RA.
  destruct RA as (k & m & h1 & h2 & h3 & h4 & Q & R & M & A & _ & _ & _ & C3 & _ & _ & _ & R3 & _). cbn [b_skewness no_bins] in R3. cbn [new_radius in_force fold_left] in Q. rewrite Q in R. apply plain_two in R. subst k.
  assert (Z : fst h3 = [Fin 0]). { eapply recorded_zero; [|..|exact R3]; [apply values_ne|]. intros v Hv. apply in_map_iff in Hv. destruct Hv as ([y x] & <- & _). cbn [fst snd]. rewrite A. apply plain_inside. }
  assert (E1 : session mem plain_obj cs = o). { unfold session, cs. cbn [fold_left do_mcall]. now rewrite E. }
  destruct (init_sound plain None two_pix (Some 1%nat) plain_obj plain_init) as (n & S0 & Hn). subst n. pose proof (session_sound mem plain _ _ _ _ cs S0) as S1. rewrite E1 in S1. cbn [in_force fold_left cs] in S1.
  assert (SH : share 1 = true) by (unfold share; destruct (Rltb_spec 0 1), (Rleb_spec 1 1); try reflexivity; lra).
  pose proof (spatial_val mem plain _ _ _ o None false 1 S1 SH) as V. cbv beta iota in V. destruct V as (k & R & V). cbn [new_radius] in R, V. apply plain_two in R. subst k.
  specialize (H mem plain None two_pix 1%nat plain_obj (cs ++ [Spatial None false 1]) (local_moments 4 4 2 false 1 ones (weights_of None)) h3 plain_init).
  assert (X : fst h3 = [Fin (1 / 2)]).
  { apply (recorded_none (values_of plain (local_moments 4 4 2 false 1 ones (weights_of None)) skewness_of)).
    - intros v Hv. apply in_map_iff in Hv. destruct Hv as ([y x] & <- & I). apply in_prod_iff in I. destruct I as [I _]. apply in_seq in I. cbn [fst snd].
      pose proof (plain_outside y x ltac:(cbn in I; lia)) as PO. transitivity (skewness_of (around plain (weights_of None) 2 false 1 y x)); [f_equal; exact (window 4 4 2 false 1 ones (weights_of None) y x)|now rewrite PO].
    - apply H; unfold session; rewrite ?fold_left_app; cbn [fold_left cs app do_mcall].
      + intros b [J|[J|[]]]; discriminate.
      + intros r per mf b [J|[J|[]]]; [now inversion J|discriminate].
      + rewrite E. cbn [fst]. rewrite V. reflexivity.
      + rewrite E. cbn [fst]. rewrite V. exact C3. }
  rewrite X in Z. inversion Z. lra.
Qed.
