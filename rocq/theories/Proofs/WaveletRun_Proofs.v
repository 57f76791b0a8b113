(** Proofs about Model/WaveletRun.v: histories. *)
From Coq Require Import Reals List ZArith Arith Bool Lia Lra.
From Verif Require Import Lib.PyBase Lib.Fl Spec.MexHat Model.Units Model.DeltaVar Model.BaseStat Model.Wavelet Model.FitState Model.DeltaVarRun Model.LmSeg Model.BreakFit Model.WaveletRun Spec.WaveletRun.
Import ListNotations.
Local Open Scope R_scope.

Definition valid (e : wenv) (q : quantity) : Prop := exists p, to_pixel (e_stat e) q = Ok p /\ lags_ok (side e) (q_vals p) = true.

Lemma new_valid e s num o : new_wavelet e s num = Ok o -> valid e (w_scales o) /\ w_curve o = None.
Proof.
  unfold new_wavelet, wavelet_scales. set (v := match s with None => _ | Some v => v end). destruct v as [|q]; cbn [BaseStat.set_lags]; [discriminate|].
  destruct (to_pixel (e_stat e) q) as [p|x] eqn:E; [|discriminate]. destruct (lags_ok (side e) (q_vals p)) eqn:K; [|discriminate]. intros [= <-]. cbn [w_scales w_curve]. split; [|reflexivity]. exists p. auto.
Qed.
Lemma line_frame e o a pts s : w_scales (fst (finish_line e o a pts s)) = w_scales o /\ w_curve (fst (finish_line e o a pts s)) = w_curve o /\
  w_planes (fst (finish_line e o a pts s)) = w_planes o /\ w_range (fst (finish_line e o a pts s)) = w_range o.
Proof.
  unfold finish_line. destruct (straight_line _ _ _) as [f|x]; [|cbn; auto]. destruct (index (f_params f) 1); [|cbn; auto]. destruct (index (f_bse f) 1); cbn; auto.
Qed.
Lemma fit_frame e o a : w_scales (fst (fit_transform e o a)) = w_scales o /\ w_curve (fst (fit_transform e o a)) = w_curve o /\ w_planes (fst (fit_transform e o a)) = w_planes o.
Proof.
  unfold fit_transform. destruct (to_pixel _ _) as [p|x]; [|cbn; auto]. destruct (w_curve o) as [c|] eqn:EC; [|cbn; auto].
  destruct (in_pixels _ (a_xlow a)) as [lo|x]; [|cbn; auto]. destruct (in_pixels _ (a_xhigh a)) as [hi|x]; [|cbn; auto]. cbv zeta.
  destruct (negb _); [cbn; auto|]. destruct (in_pixels _ (a_brk a)) as [[b|]|x]; [| |cbn; auto].
  - destruct (_ || _); [cbn; auto|]. destruct (segmented _ _ _ _) as [[g s]|x]; [|cbn; auto]. destruct (kept _ _); [cbn; auto|].
    match goal with |- context [finish_line ?e ?o ?a ?p ?s] => destruct (line_frame e o a p s) as (A&B&C&_) end. rewrite A, B, C. cbn. auto.
  - match goal with |- context [finish_line ?e ?o ?a ?p ?s] => destruct (line_frame e o a p s) as (A&B&C&_) end. rewrite A, B, C. cbn. auto.
Qed.
Lemma compute_scales e o n k : w_scales (fst (compute e o n k)) = w_scales o.
Proof. unfold compute. destruct (to_pixel _ _); reflexivity. Qed.
Lemma run_scales e o n a : w_scales (fst (run e o n a)) = w_scales o.
Proof.
  unfold run. pose proof (compute_scales e o n false) as C. destruct (compute e o n false) as [o1 [x|]]; cbn [also fst] in *; [exact C|]. destruct (fit_frame e o1 a) as [A _]. now rewrite A.
Qed.
Lemma call_valid e o c : valid e (w_scales o) -> valid e (w_scales (fst (do_call e o c))).
Proof.
  intros V. destruct c as [v|n k|a|n a]; cbn [do_call].
  - unfold set_scales, BaseStat.set_lags. destruct v as [|q]; [exact V|]. destruct (to_pixel (e_stat e) q) as [p|x] eqn:E; [|exact V]. destruct (lags_ok _ _) eqn:K; [|exact V]. cbn [fst w_scales]. exists p. auto.
  - now rewrite compute_scales.
  - destruct (fit_frame e o a) as [A _]. now rewrite A.
  - now rewrite run_scales.
Qed.
Lemma history_valid e l : forall o, valid e (w_scales o) -> valid e (w_scales (history e o l)).
Proof. induction l as [|c l IH]; intros o V; [exact V|]. apply (IH (fst (do_call e o c))). now apply call_valid. Qed.
Lemma reached_valid e o : reached e o -> valid e (w_scales o).
Proof. intros (s&num&o0&l&N&->). apply history_valid. exact (proj1 (new_valid _ _ _ _ N)). Qed.
Lemma scales_valid e o l : valid e (w_scales o) -> scales_are e o l -> lags_ok (side e) l = true.
Proof. intros (p&E&K) (q&E'&<-). rewrite E' in E. injection E as ->. exact K. Qed.
Lemma valid_scales e o : valid e (w_scales o) -> exists l, scales_are e o l /\ lags_ok (side e) l = true.
Proof. intros (p&E&K). exists (q_vals p). split; [exists p; auto|exact K]. Qed.

(** ** A run depends on the scales only *)
Lemma step_same m b lin st st2 s : kept m s = true ->
  fit_step false m b lin st (Some s) = fit_step false m b lin st2 (Some s) /\ exists v, t_brk (fit_step false m b lin st (Some s)) = Some (Some v).
Proof.
  destruct s as [bk be sl er bt n|]; cbn [kept]; [|discriminate]. intros K. unfold fit_step. rewrite negb_true_iff in K. rewrite K. split; [reflexivity|]. eexists. reflexivity.
Qed.
Lemma step_straight m b lin st s : (forall v, s = Some v -> kept m v = false) ->
  fit_step false m b lin st s = mk_state (Some None) (t_brk_err st) (Some [fst lin]) (Some [snd lin]).
Proof.
  intros H. destruct s as [v|]; [|reflexivity]. specialize (H v eq_refl). destruct v as [bk be sl er bt n|]; [|reflexivity]. cbn [kept] in H. unfold fit_step. rewrite negb_false_iff in H. now rewrite H.
Qed.
Definition frame (o o2 : wobj) : Prop := w_scales o2 = w_scales o /\ w_curve o2 = w_curve o /\ w_planes o2 = w_planes o.
Lemma line_same e o o2 a pts s : frame o o2 -> w_range o2 = w_range o -> (forall v, s = Some v -> kept (a_min_pts a) v = false) ->
  snd (finish_line e o a pts s) = snd (finish_line e o2 a pts s) /\
  (snd (finish_line e o a pts s) = None -> same_results (fst (finish_line e o a pts s)) (fst (finish_line e o2 a pts s))).
Proof.
  intros (F1&F2&F3) R K. unfold finish_line. destruct (straight_line _ _ _) as [f|x]; [|split; [reflexivity|discriminate]].
  destruct (index (f_params f) 1) as [p1|x]; [|split; [reflexivity|discriminate]]. destruct (index (f_bse f) 1) as [er|x]; [|split; [reflexivity|discriminate]].
  split; [reflexivity|]. intros _. cbn [fst]. rewrite !step_straight by assumption. unfold same_results. cbn [w_curve w_range w_state t_slope t_slope_err t_brk t_brk_err].
  repeat (split; [solve [auto]|]). split; [intros [b [=]]|]. reflexivity.
Qed.
Lemma fit_same e o o2 a : frame o o2 -> snd (fit_transform e o a) = snd (fit_transform e o2 a) /\
  (snd (fit_transform e o a) = None -> same_results (fst (fit_transform e o a)) (fst (fit_transform e o2 a))).
Proof.
  intros (F1&F2&F3). unfold fit_transform. rewrite F1, F2. destruct (to_pixel _ _) as [p|x]; [|split; [reflexivity|discriminate]].
  destruct (w_curve o) as [c|] eqn:EC; [|split; [reflexivity|discriminate]]. destruct (in_pixels _ (a_xlow a)) as [lo|x]; [|split; [reflexivity|discriminate]]. destruct (in_pixels _ (a_xhigh a)) as [hi|x]; [|split; [reflexivity|discriminate]]. cbv zeta.
  destruct (negb _); [split; [reflexivity|discriminate]|]. destruct (in_pixels _ (a_brk a)) as [[b|]|x]; [| |split; [reflexivity|discriminate]].
  - destruct (_ || _); [split; [reflexivity|discriminate]|]. destruct (segmented _ _ _ _) as [[g s]|x]; [|split; [reflexivity|discriminate]]. destruct (kept _ s) eqn:K.
    + split; [reflexivity|]. intros _. cbn [fst]. unfold same_results. cbn [w_curve w_range w_state w_scales w_planes w_params w_model].
      destruct (step_same (a_min_pts a) (a_boot a) (NaN, NaN) (w_state o) (w_state o2) s K) as [E _]. rewrite E. repeat (split; [solve [auto]|]). reflexivity.
    + apply line_same; [repeat split; cbn; auto|reflexivity|]. intros v [= <-]. exact K.
  - apply line_same; [repeat split; cbn; auto|reflexivity|discriminate].
Qed.
Theorem run_fresh : forall e o o2 norm a, w_scales o2 = w_scales o -> valid e (w_scales o) ->
  snd (run e o norm a) = snd (run e o2 norm a) /\
  (snd (run e o norm a) = None -> same_results (fst (run e o norm a)) (fst (run e o2 norm a)) /\ transform_of e (fst (run e o norm a)) norm /\ w_planes (fst (run e o norm a)) = Some None).
Proof.
  intros e o o2 norm a F (p&EP&K). unfold run, compute. rewrite F, EP. cbn [also].
  match goal with |- snd (fit_transform e ?p a) = snd (fit_transform e ?q a) /\ _ => destruct (fit_same e p q a) as [A B]; [repeat split|]; destruct (fit_frame e p a) as (C1&C2&C3) end.
  split; [exact A|]. intros H. split; [exact (B H)|]. split; [|rewrite C3; reflexivity]. exists (q_vals p). split; [exists p; rewrite C1; auto|]. rewrite C2. reflexivity.
Qed.

(** ** The values through a history *)
Lemma history_keeps e l : forall o, valid e (w_scales o) -> (w_curve o = None \/ exists n, transform_of e o n) -> Forall keeps_scales l ->
  w_scales (history e o l) = w_scales o /\ (w_curve (history e o l) = None \/ exists n, transform_of e (history e o l) n).
Proof.
  induction l as [|c l IH]; intros o V C F; [split; [reflexivity|exact C]|]. inversion F as [|c' l' Hc Hl]; subst. change (history e o (c :: l)) with (history e (fst (do_call e o c)) l).
  assert (P : w_scales (fst (do_call e o c)) = w_scales o /\ (w_curve (fst (do_call e o c)) = None \/ exists n, transform_of e (fst (do_call e o c)) n)).
  { destruct V as (p&EP&K). destruct c as [v|n k|a|n a]; [destruct Hc| | |]; cbn [do_call].
    - unfold compute. rewrite EP. cbn [fst w_scales w_curve]. split; [reflexivity|]. right. exists n, (q_vals p). split; [exists p; auto|reflexivity].
    - destruct (fit_frame e o a) as (A&B&_). split; [exact A|]. rewrite B. destruct C as [C|(n&q&(p'&E'&Q)&C)]; [now left|]. right. exists n, q. split; [|now rewrite B]. exists p'. rewrite A. auto.
    - split; [apply run_scales|]. right. unfold run, compute. rewrite EP. cbn [also]. match goal with |- context [fit_transform e ?o1 a] => destruct (fit_frame e o1 a) as (A&B&_) end.
      exists n, (q_vals p). split; [exists p; rewrite A; auto|rewrite B; reflexivity]. }
  destruct P as [P1 P2]. destruct (IH (fst (do_call e o c))) as [I1 I2]; [now rewrite P1|exact P2|exact Hl|]. split; [now rewrite I1|exact I2].
Qed.
Theorem history_new : forall e s num o l, new_wavelet e s num = Ok o -> Forall keeps_scales l ->
  w_scales (history e o l) = w_scales o /\ (w_curve (history e o l) = None \/ exists n, transform_of e (history e o l) n).
Proof. intros e s num o l N F. destruct (new_valid _ _ _ _ N) as [V C]. apply history_keeps; auto. Qed.

(** ** Scales set after a transform *)
Theorem stale_values : forall e o norm q p a, transform_of e o norm -> to_pixel (e_stat e) q = Ok p -> lags_ok (side e) (q_vals p) = true ->
  exists o1, do_call e o (SetScales (LagQuantity q)) = (o1, None) /\ scales_are e o1 (q_vals p) /\ w_curve o1 = w_curve o /\ w_state o1 = w_state o /\ w_range o1 = w_range o /\
    (forall l, scales_are e o l -> length (q_vals p) <> length l -> a_xlow a = None -> a_xhigh a = None ->
       exists o2, do_call e o1 (Fit a) = (o2, Some IndexError) /\ w_state o2 = w_state o /\ w_range o2 = Some (fit_range (q_vals p) None None)) /\
    (forall l, scales_are e o l -> length (q_vals p) = length l -> a_xlow a = None -> a_xhigh a = None -> a_brk a = None ->
       do_call e o1 (Fit a) = finish_line e (mk_w q (w_curve o) (w_planes o) (Some (fit_range (q_vals p) None None)) (w_state o) (w_params o) (w_model o)) a
         (fit_points None None (q_vals p) (compute_transform (e_half e) (e_ny e) (e_nx e) (e_img e) norm l)) None).
Proof.
  intros e o norm q p a (l0&S0&C0) EP K. cbn [do_call]. unfold set_scales, BaseStat.set_lags. rewrite EP, K. eexists. split; [reflexivity|]. cbn [w_scales w_curve w_state w_range].
  split; [exists p; auto|]. repeat (split; [reflexivity|]). split.
  - intros l S NE XL XH. assert (l = l0) by (destruct S as (u&Eu&<-), S0 as (v&Ev&<-); rewrite Eu in Ev; now injection Ev as ->). subst l0.
    unfold fit_transform. cbn [w_scales w_curve]. rewrite EP, C0, XL, XH. cbn [in_pixels]. cbv zeta. unfold compute_transform at 1. rewrite map_length. destruct (Nat.eqb_spec (length l) (length (q_vals p))) as [E|_]; [congruence|]. cbn [negb eqb]. eexists. split; [reflexivity|]. split; reflexivity.
  - intros l S E XL XH XB. assert (l = l0) by (destruct S as (u&Eu&<-), S0 as (v&Ev&<-); rewrite Eu in Ev; now injection Ev as ->). subst l0.
    unfold fit_transform. cbn [w_scales w_curve]. rewrite EP, C0, XL, XH, XB. cbn [in_pixels]. cbv zeta. unfold compute_transform at 1. rewrite map_length, E, Nat.eqb_refl. reflexivity.
Qed.

(** ** Fits that raise *)
Theorem refused_break : forall e o norm lo hi b m w bt, transform_of e o norm -> b < lo \/ hi < b ->
  exists o', do_call e o (Fit (mk_wa (Some (mk_q [lo] pix)) (Some (mk_q [hi] pix)) (Some (mk_q [b] pix)) m w bt)) = (o', Some ValueError) /\
    w_range o' = Some (lo, hi) /\ w_state o' = w_state o /\ w_curve o' = w_curve o.
Proof.
  intros e o norm lo hi b m w bt (l&(p&EP&<-)&C) H. cbn [do_call]. unfold fit_transform. rewrite EP, C. cbn [a_xlow a_xhigh a_brk]. unfold in_pixels.
  replace (to_pixel (e_stat e) (mk_q [lo] pix)) with (Ok (mk_q [lo] pix)) by reflexivity. replace (to_pixel (e_stat e) (mk_q [hi] pix)) with (Ok (mk_q [hi] pix)) by reflexivity. replace (to_pixel (e_stat e) (mk_q [b] pix)) with (Ok (mk_q [b] pix)) by reflexivity.
  cbn [bind q_vals hd]. cbv zeta. unfold compute_transform at 1. rewrite map_length, Nat.eqb_refl. cbn [negb fit_range fst snd].
  replace (Rltb b lo || Rltb hi b) with true by (symmetry; rewrite orb_true_iff; destruct H; [left; destruct (Rltb_spec b lo); auto|right; destruct (Rltb_spec hi b); auto]).
  eexists. split; [reflexivity|]. cbn. auto.
Qed.
