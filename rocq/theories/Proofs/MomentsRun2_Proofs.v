(** StatMoments objects through a history. *)
From Coq Require Import Reals List Bool ZArith Arith Lra Lia.
From Verif Require Import Lib.PyBase Lib.RSum Lib.Fl Lib.Arr Lib.Hist Spec.Bins Spec.Blank Spec.Distrib Model.Units Model.StatsUtils Model.StatMoments Model.MomentsRun Spec.MomentsRun Proofs.Hist_Proofs Proofs.Moments_Proofs Proofs.Moments2_Proofs Proofs.MomentsRun_Proofs.
Import ListNotations.
Local Open Scope R_scope.

(** ** The radius *)
Lemma set_acceptable p q : set_radius (pic_stat p) (pic_n0 p) (pic_n1 p) q = Ok q /\ acceptable p q = true \/
  (exists e, set_radius (pic_stat p) (pic_n0 p) (pic_n1 p) q = Err e) /\ acceptable p q = false.
Proof.
  unfold set_radius, acceptable. destruct (to_pixel (pic_stat p) q) as [px|e]; [|right; cbn; eauto]. cbn [bind].
  destruct (Rltb_spec (hd 0 (q_vals px)) 2); destruct (Rltb_spec (INR (Nat.min (pic_n0 p) (pic_n1 p)) / 2) (hd 0 (q_vals px)));
  destruct (Rleb_spec 2 (hd 0 (q_vals px))); destruct (Rleb_spec (hd 0 (q_vals px)) (INR (Nat.min (pic_n0 p) (pic_n1 p)) / 2)); cbn [andb]; try lra; eauto.
Qed.
Lemma assign_cases o q : assign_radius o q = (with_radius o q, None) /\ acceptable (m_pic o) q = true \/
  (exists e, assign_radius o q = (o, Some e)) /\ acceptable (m_pic o) q = false.
Proof.
  unfold assign_radius. destruct (set_acceptable (m_pic o) q) as [[E A]|[[e E] A]]; rewrite E; eauto.
Qed.
Lemma share_bad f : (Rleb f 0 || Rltb 1 f) = negb (share f).
Proof. unfold share. destruct (Rleb_spec f 0), (Rltb_spec 1 f), (Rltb_spec 0 f), (Rleb_spec f 1); cbn; try reflexivity; lra. Qed.

(** What never changes. *)
Definition base (o : mobj) := (m_pic o, m_weights o, m_nbins o).
Lemma put_base r o w : (forall h, base (w o h) = base o /\ m_radius (w o h) = m_radius o /\ m_maps (w o h) = m_maps o /\ m_whole (w o h) = m_whole o) ->
  base (fst (put r o w)) = base o /\ m_radius (fst (put r o w)) = m_radius o /\ m_maps (fst (put r o w)) = m_maps o /\ m_whole (fst (put r o w)) = m_whole o.
Proof. intros H. unfold put. destruct r; cbn [fst]; auto. Qed.
Lemma also_inv (P : mobj -> Prop) r k : P (fst r) -> (forall o, P o -> P (fst (k o))) -> P (fst (also r k)).
Proof. intros A B. unfold also. destruct (snd r); cbn [fst]; auto. Qed.
Definition keeps (o o' : mobj) := base o' = base o /\ m_radius o' = m_radius o /\ m_maps o' = m_maps o /\ m_whole o' = m_whole o.
Lemma hists_keep o b : keeps o (fst (spatial_hists o b)).
Proof.
  unfold spatial_hists. apply (also_inv (keeps o)); [apply put_base; intros; repeat split|].
  intros o1 K1. apply (also_inv (keeps o)); [|intros o2 K2; apply (also_inv (keeps o)); [|intros o3 K3]].
  - destruct (put_base (one_hist o1 variance_of (b_variance b)) o1 with_variance_hist) as (A & B & C & D); [intros; repeat split|]. destruct K1 as (A1 & B1 & C1 & D1). repeat split; congruence.
  - destruct (put_base (one_hist o2 skewness_of (b_skewness b)) o2 with_skewness_hist) as (A & B & C & D); [intros; repeat split|]. destruct K2 as (A1 & B1 & C1 & D1). repeat split; congruence.
  - destruct (put_base (one_hist o3 kurtosis_of (b_kurtosis b)) o3 with_kurtosis_hist) as (A & B & C & D); [intros; repeat split|]. destruct K3 as (A1 & B1 & C1 & D1). repeat split; congruence.
Qed.
(** The object always holds an acceptable radius. *)
Definition sound (p : picture) (w : image) (nb : option nat) (q : quantity) (o : mobj) : Prop :=
  base o = (p, w, nb) /\ m_radius o = q /\ acceptable p q = true.

Definition new_radius (p : picture) (q : quantity) (r : option quantity) : quantity :=
  match r with None => q | Some q' => if acceptable p q' then q' else q end.
Lemma spatial_val memory p w nb q o r per mf : sound p w nb q o -> share mf = true ->
  if match r with None => true | Some q' => acceptable p q' end then
    exists k, rounded_up p (new_radius p q r) k /\
      spatial memory o r per mf = (with_maps (with_radius o (new_radius p q r)) (local_moments (pic_n0 p) (pic_n1 p) k per mf (pic_data p) w), None)
  else exists e, spatial memory o r per mf = (with_maps o memory, Some e).
Proof.
  intros (B & Q & A) SH. unfold spatial. rewrite share_bad, SH. cbn [negb]. unfold also. cbn [snd fst].
  assert (K : forall o', base o' = (p, w, nb) -> acceptable p (m_radius o') = true ->
    exists k, rounded_up p (m_radius o') k /\
    match to_pixel (pic_stat (m_pic o')) (m_radius o') with
      | Err e => (o', Some e)
      | Ok q => (with_maps o' (local_moments (pic_n0 (m_pic o')) (pic_n1 (m_pic o')) (Z.to_nat (ceil (hd 0 (q_vals q)))) per mf (pic_data (m_pic o')) (m_weights o')), None)
      end = (with_maps o' (local_moments (pic_n0 p) (pic_n1 p) k per mf (pic_data p) w), None)).
  { intros o' B' A'. inversion B' as [[B1 B2 B3]]. rewrite B1. unfold rounded_up. unfold acceptable in A'. destruct (to_pixel (pic_stat p) (m_radius o')) as [px|e] eqn:E; [|discriminate].
    apply andb_true_iff in A'. destruct A' as [A1 _]. destruct (Rleb_spec 2 (hd 0 (q_vals px))) as [V|V]; [|discriminate].
    exists (Z.to_nat (ceil (hd 0 (q_vals px)))). split; [|congruence]. exists px. split; [congruence|].
    unfold ceil. destruct (base_Int_part (- hd 0 (q_vals px))) as [I1 I2]. assert (Z0 : (0 < - Int_part (- hd 0%R (q_vals px)))%Z).
    { apply lt_IZR. rewrite opp_IZR. lra. }
    rewrite INR_IZR_INZ, Z2Nat.id by lia. rewrite opp_IZR. lra. }
  assert (B1 : m_pic o = p) by (unfold base in B; congruence). destruct r as [q'|]; cbn [new_radius].
  - destruct (assign_cases (with_maps o memory) q') as [[E AC]|[[e E] AC]]; rewrite E; change (m_pic (with_maps o memory)) with (m_pic o) in AC; rewrite B1 in AC; rewrite AC.
    + unfold also. cbn [snd fst]. destruct (K (with_radius (with_maps o memory) q')) as (k & R & KE); [exact B|exact AC|]. cbv zeta. exists k. split; [exact R|]. exact KE.
    + exists e. reflexivity.
  - unfold also. cbn [snd fst]. destruct (K (with_maps o memory)) as (k & R & KE); [exact B|cbn [m_radius with_maps]; now rewrite Q|]. cbv zeta. exists k. cbn [m_radius with_maps] in R. rewrite Q in R. split; [exact R|].
    etransitivity; [exact KE|]. destruct o; cbn in Q |- *; subst; reflexivity.
Qed.
Lemma spatial_spec memory p w nb q o r per mf : sound p w nb q o ->
  let res := spatial memory o r per mf in
  if share mf then
    sound p w nb (new_radius p q r) (fst res) /\ m_whole (fst res) = m_whole o /\
    (m_mean_hist (fst res), m_variance_hist (fst res), m_skewness_hist (fst res), m_kurtosis_hist (fst res)) = (m_mean_hist o, m_variance_hist o, m_skewness_hist o, m_kurtosis_hist o) /\
    (if match r with None => true | Some q' => acceptable p q' end then
       snd res = None /\ exists k, rounded_up p (new_radius p q r) k /\ m_maps (fst res) = Some (local_moments (pic_n0 p) (pic_n1 p) k per mf (pic_data p) w)
     else (exists e, snd res = Some e) /\ m_maps (fst res) = Some memory)
  else res = (o, Some ValueError).
Proof.
  intros H. cbv zeta. destruct (share mf) eqn:SH; [|unfold spatial; now rewrite share_bad, SH].
  pose proof (spatial_val memory p w nb q o r per mf H SH) as V. destruct H as (B & Q & A).
  destruct (match r with None => true | Some q' => acceptable p q' end) eqn:AC.
  - destruct V as (k & R & V). rewrite V. cbn [fst snd]. split; [|split; [reflexivity|split; [reflexivity|split; [reflexivity|exists k; split; [exact R|reflexivity]]]]].
    split; [exact B|]. split; [reflexivity|]. destruct r as [q'|]; cbn [new_radius]; [now rewrite AC|exact A].
  - destruct V as (e & V). rewrite V. cbn [fst snd]. split; [|split; [reflexivity|split; [reflexivity|split; [eauto|reflexivity]]]].
    destruct r as [q'|]; [|discriminate]. cbn [new_radius]. rewrite AC. split; [exact B|]. split; [exact Q|exact A].
Qed.
Lemma keeps_sound p w nb q o o' : keeps o o' -> sound p w nb q o -> sound p w nb q o'.
Proof. intros (A & B & _) (C & D & E). repeat split; [congruence|congruence|assumption]. Qed.
Lemma whole_sound p w nb q o : sound p w nb q o -> sound p w nb q (fst (whole_moments o)).
Proof. intros (A & B & C). repeat split; auto. Qed.
Lemma share_run : share (8 / 10) = true.
Proof. unfold share. destruct (Rltb_spec 0 (8 / 10)), (Rleb_spec (8 / 10) 1); try reflexivity; lra. Qed.
Lemma run_sound memory p w nb q o r per mf b : sound p w nb q o -> sound p w nb (new_radius p q r) (fst (moments_run memory o r per mf b)).
Proof.
  intros H. unfold moments_run. unfold also at 1. cbn [snd fst whole_moments]. set (o1 := with_whole o _).
  assert (H1 : sound p w nb q o1) by (apply whole_sound in H; exact H). pose proof (spatial_spec memory p w nb q o1 r per (8 / 10) H1) as SP. cbv zeta in SP. rewrite share_run in SP. destruct SP as (S1 & _).
  unfold also. destruct (snd (spatial memory o1 r per (8 / 10))); cbn [fst]; [exact S1|]. eapply keeps_sound; [apply hists_keep|exact S1].
Qed.
Definition step_radius (p : picture) (q : quantity) (c : mcall) : quantity := in_force p q [c].
Lemma call_sound memory p w nb q o c : sound p w nb q o -> sound p w nb (step_radius p q c) (fst (do_mcall memory o c)).
Proof.
  intros H. unfold step_radius, in_force. cbn [fold_left]. destruct c as [q'| |r per mf|b|r per mf b]; cbn [do_mcall].
  - pose proof H as (B & Q & A). assert (B1 : m_pic o = p) by (unfold base in B; congruence). destruct (assign_cases o q') as [[E AC]|[[e E] AC]]; rewrite E; rewrite B1 in AC; rewrite AC; cbn [fst].
    + split; [exact B|]. split; [reflexivity|exact AC].
    + exact H.
  - now apply whole_sound.
  - pose proof (spatial_spec memory p w nb q o r per mf H) as SP. cbv zeta in SP. destruct (share mf).
    + destruct SP as (S1 & _). destruct r; cbn [andb]; exact S1.
    + rewrite SP. cbn [fst andb]. destruct r; exact H.
  - eapply keeps_sound; [apply hists_keep|exact H].
  - pose proof (run_sound memory p w nb q o r per mf b H) as RS. destruct r; exact RS.
Qed.
Lemma in_force_app p q a b : in_force p q (a ++ b) = in_force p (in_force p q a) b.
Proof. unfold in_force. apply fold_left_app. Qed.
Lemma session_sound memory p w nb q o cs : sound p w nb q o -> sound p w nb (in_force p q cs) (session memory o cs).
Proof.
  revert q o. induction cs as [|c cs IH]; intros q o H; [exact H|]. cbn [session fold_left]. unfold session in IH.
  change (in_force p q (c :: cs)) with (in_force p (step_radius p q c) cs). apply IH. now apply call_sound.
Qed.
Lemma init_sound p w q nb o : moments_init p w q nb = Ok o ->
  exists n, sound p (weights_of w) (Some n) q o /\ (n = match nb with None => floor_sqrt (pic_n0 p * pic_n1 p) | Some n => n end).
Proof.
  unfold moments_init. destruct (set_acceptable p q) as [[E A]|[[e E] A]]; rewrite E; [|discriminate]. cbn [bind]. intros H. inversion H; subst; clear H.
  eexists. split; [|reflexivity]. repeat split. exact A.
Qed.

(** ** After any history *)
Lemma maps_after memory p w q nb o0 cs r per mf o : moments_init p w q nb = Ok o0 -> spatial memory (session memory o0 cs) r per mf = (o, None) ->
  exists k m, m_radius o = new_radius p (in_force p q cs) r /\ rounded_up p (m_radius o) k /\ m_maps o = Some m /\
    forall y x, m y x = around p (weights_of w) k per mf y x.
Proof.
  intros I E. destruct (init_sound p w q nb o0 I) as (n & S0 & _). pose proof (session_sound memory p _ _ _ _ cs S0) as S1.
  pose proof (spatial_spec memory p _ _ _ _ r per mf S1) as SP. cbv zeta in SP. rewrite E in SP. destruct (share mf); [|discriminate]. cbn [fst snd] in SP.
  destruct SP as (S2 & _ & _ & M). destruct (match r with None => true | Some q' => acceptable p q' end); [|destruct M as [[e F] _]; discriminate].
  destruct M as (_ & k & R & M). destruct S2 as (_ & Q & _). exists k, (local_moments (pic_n0 p) (pic_n1 p) k per mf (pic_data p) (weights_of w)).
  split; [exact Q|]. split; [now rewrite Q|]. split; [exact M|]. intros y x. apply window.
Qed.
Lemma also_ok r k o : also r k = (o, None) -> exists o1, r = (o1, None) /\ k o1 = (o, None).
Proof. unfold also. destruct r as [o1 [e|]]; cbn [fst snd]; [discriminate|]. eauto. Qed.
Lemma put_ok r o w o' : put r o w = (o', None) -> exists h, r = Ok h /\ o' = w o h.
Proof. unfold put. destruct r; intros H; inversion H; eauto. Qed.
Lemma hists_ok o b o' : spatial_hists o b = (o', None) -> exists h1 h2 h3 h4,
  one_hist o mean_of (b_mean b) = Ok h1 /\ one_hist o variance_of (b_variance b) = Ok h2 /\ one_hist o skewness_of (b_skewness b) = Ok h3 /\ one_hist o kurtosis_of (b_kurtosis b) = Ok h4 /\
  m_mean_hist o' = Some h1 /\ m_variance_hist o' = Some h2 /\ m_skewness_hist o' = Some h3 /\ m_kurtosis_hist o' = Some h4.
Proof.
  unfold spatial_hists. intros H. apply also_ok in H. destruct H as (o1 & P1 & H). apply also_ok in H. destruct H as (o2 & P2 & H). apply also_ok in H. destruct H as (o3 & P3 & P4).
  apply put_ok in P1, P2, P3, P4. destruct P1 as (h1 & E1 & ->), P2 as (h2 & E2 & ->), P3 as (h3 & E3 & ->), P4 as (h4 & E4 & ->).
  exists h1, h2, h3, h4. repeat split; assumption.
Qed.
