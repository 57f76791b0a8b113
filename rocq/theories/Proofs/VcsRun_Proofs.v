(** Proofs about Model/VcsRun.v: objects through calls. *)
From Coq Require Import Reals List Arith Bool Lia Lra.
From Verif Require Import Lib.PyBase Lib.Fl Lib.Arr Lib.DFT Model.StatsUtils Model.Psds Model.Units Model.DeltaVar Model.LmSeg Model.BreakFit Model.VcsFit Model.VcsRun Spec.VcsRun Spec.VcsFit Proofs.VcsFit_Proofs.
Import ListNotations.
Local Open Scope R_scope.

Section Runs.
Variables nz ny nx : nat.
Variable cube : nat -> nat -> nat -> fl.
Variable to_freq : quantity -> result R.
Variable knots : list R -> list fl -> result (list R).
Variable ols : list R -> option (list R) -> list (list R) -> fit_result.
Variable boot : seg_fit -> list fl.
Notation do_fit := (do_fit nz to_freq knots ols boot).
Notation run := (run nz ny nx cube to_freq knots ols boot).
Notation history := (history nz ny nx cube to_freq knots ols boot).
Notation attempt := (attempt ols).
Notation search_breaks := (search_breaks ols).
Notation start := (start knots ols).

(** What a step leaves of an object *)
Definition keeps (o o' : vobj) : Prop := v_ps1D o' = v_ps1D o /\ v_low o' = v_low o /\ v_high o' = v_high o /\ v_slope o' = v_slope o /\ v_errs o' = v_errs o.
Lemma keeps_refl o : keeps o o.
Proof. repeat split. Qed.
Lemma keeps_fit o g : keeps o (with_fit o g).
Proof. repeat split. Qed.
Lemma keeps_trans o1 o2 o3 : keeps o1 o2 -> keeps o2 o3 -> keeps o1 o3.
Proof. unfold keeps. intros (A&B&C&D&E) (A'&B'&C'&D'&E'). repeat split; congruence. Qed.
Lemma attempt_keeps o x y b : keeps o (fst (attempt o x y b)).
Proof.
  unfold VcsRun.attempt. destruct (lm_seg_init _ _ _ _); [|apply keeps_refl]. destruct (fit_model _ _ _ _ _ _ _ _) as [[g|e]|]; try apply keeps_fit. destruct (get_slopes g); apply keeps_fit.
Qed.
Lemma search_keeps x y l : forall o, keeps o (fst (search_breaks o x y l)).
Proof.
  induction l as [|b l IH]; intros o; cbn [VcsRun.search_breaks]; [apply keeps_refl|]. pose proof (attempt_keeps o x y (Fin b)) as K.
  destruct (attempt o x y (Fin b)) as [o' [g|e]]; cbn [fst] in *; [|exact K]. destruct (Nat.eqb _ 5); [exact K|]. eapply keeps_trans; [exact K|apply IH].
Qed.
Lemma start_keeps o x y a : keeps o (fst (start o x y a)).
Proof.
  unfold VcsRun.start. destruct (a_breaks a); [apply keeps_refl|]. destruct (knots x y) as [ks|e]; [|apply keeps_refl]. destruct (vcs_start x ks) as [bs|e]; [|apply keeps_refl].
  pose proof (search_keeps x y bs o) as K. destruct (search_breaks o x y bs) as [o' [[b|]|e]]; cbn [fst] in *; try exact K. destruct bs as [|c [|c' l]]; exact K.
Qed.
Lemma attempt_same o1 o2 x y b : snd (attempt o1 x y b) = snd (attempt o2 x y b).
Proof.
  unfold VcsRun.attempt. destruct (lm_seg_init _ _ _ _); [|reflexivity]. destruct (fit_model _ _ _ _ _ _ _ _) as [[g|e]|]; try reflexivity. destruct (get_slopes g); reflexivity.
Qed.
Lemma attempt_ok o x y b o' g : attempt o x y b = (o', Ok g) -> o' = with_fit o (Some g) /\ lm_seg_fit ols (map Fin x) y b None = Ok g /\ is_ok (get_slopes g) = true.
Proof.
  unfold VcsRun.attempt, lm_seg_fit. destruct (lm_seg_init _ _ _ _) as [s|e]; [|discriminate]. cbn [bind]. destruct (fit_model _ _ _ _ _ _ _ _) as [[h|e]|]; try discriminate.
  destruct (get_slopes h) eqn:G; [|discriminate]. intros H. injection H as <- <-. rewrite G. repeat split.
Qed.
Lemma attempt_fits o x y b g : lm_seg_fit ols (map Fin x) y b None = Ok g -> is_ok (get_slopes g) = true -> attempt o x y b = (with_fit o (Some g), Ok g).
Proof.
  unfold VcsRun.attempt, lm_seg_fit. destruct (lm_seg_init _ _ _ _) as [s|e]; [|discriminate]. cbn [bind]. destruct (fit_model _ _ _ _ _ _ _ _) as [[h|e]|]; try discriminate.
  intros H. injection H as ->. destruct (get_slopes g); [reflexivity|discriminate].
Qed.
Lemma search_same x y l : forall o1 o2, snd (search_breaks o1 x y l) = snd (search_breaks o2 x y l).
Proof.
  induction l as [|b l IH]; intros o1 o2; cbn [VcsRun.search_breaks]; [reflexivity|]. pose proof (attempt_same o1 o2 x y (Fin b)) as K.
  destruct (attempt o1 x y (Fin b)) as [o1' [g|e]]; destruct (attempt o2 x y (Fin b)) as [o2' [g'|e']]; cbn [snd] in *; try congruence. injection K as <-. destruct (Nat.eqb _ 5); [reflexivity|apply IH].
Qed.
Lemma search_in x y l : forall o o' b, search_breaks o x y l = (o', Ok (Some b)) -> In b l.
Proof.
  induction l as [|c l IH]; intros o o' b; cbn [VcsRun.search_breaks]; [discriminate|]. destruct (attempt o x y (Fin c)) as [o1 [g|e]]; [|discriminate].
  destruct (Nat.eqb _ 5); intros H; [injection H as _ <-; now left|]. right. eapply IH; exact H.
Qed.
Lemma start_same o1 o2 x y a : snd (start o1 x y a) = snd (start o2 x y a).
Proof.
  unfold VcsRun.start. destruct (a_breaks a); [reflexivity|]. destruct (knots x y) as [ks|e]; [|reflexivity]. destruct (vcs_start x ks) as [bs|e]; [|reflexivity].
  pose proof (search_same x y bs o1 o2) as K. destruct (search_breaks o1 x y bs) as [o1' [[b|]|e]]; destruct (search_breaks o2 x y bs) as [o2' [[b'|]|e']]; cbn [snd] in *; try congruence.
  - injection K as <-. reflexivity.
  - destruct bs as [|c [|c' l]]; reflexivity.
Qed.
Lemma start_ok o x y a o' b : start o x y a = (o', Ok b) ->
  match a_breaks a with
  | Some v => b = as_start (a_log a) v
  | None => exists ks bs v, knots x y = Ok ks /\ vcs_start x ks = Ok bs /\ In v bs /\ b = as_start (a_log a) v
  end.
Proof.
  unfold VcsRun.start, as_start. destruct (a_breaks a) as [v|]; [intros H; injection H as _ <-; reflexivity|]. destruct (knots x y) as [ks|e]; [|discriminate]. destruct (vcs_start x ks) as [bs|e] eqn:V; [|discriminate].
  destruct (search_breaks o x y bs) as [o1 [[v|]|e]] eqn:S; [| |discriminate].
  - intros H. injection H as _ <-. exists ks, bs, v. apply search_in in S. auto.
  - destruct bs as [|v [|v' l]]; try discriminate. intros H. injection H as _ <-. exists ks, [v], v. cbn. auto.
Qed.

(** ** Fits *)
Lemma low_limit_ok a low : limit to_freq (a_low a) (vcs_low nz None) = Ok low <-> low_limit to_freq nz (a_low a) low.
Proof. unfold limit, low_limit, vcs_low. destruct (a_low a); [reflexivity|]. split; [intros H; injection H as <-; reflexivity|intros ->; reflexivity]. Qed.
Lemma rmax_in l : l <> [] -> (forall v, In v l -> 0 <= v) -> In (rmax l) l /\ forall v, In v l -> v <= rmax l.
Proof.
  induction l as [|a l IH]; [contradiction|]. intros _ H. unfold rmax in *. cbn [fold_right]. destruct l as [|b l].
  - cbn. rewrite Rmax_left by (apply H; now left). split; [now left|]. intros v [<-|[]]. lra.
  - destruct IH as [I M]; [discriminate|intros v Hv; apply H; now right|]. set (m := fold_right Rmax 0 (b :: l)) in *. split.
    + unfold Rmax. destruct (Rle_dec a m); [right; exact I|left; reflexivity].
    + intros v [<-|Hv]; [apply Rmax_l|]. eapply Rle_trans; [apply M; exact Hv|apply Rmax_r].
Qed.
Lemma high_limit_ok a high : (0 < nz)%nat -> limit to_freq (a_high a) (vcs_high nz None) = Ok high <-> high_limit to_freq nz (a_high a) high.
Proof.
  intros N. unfold limit, high_limit, vcs_high. destruct (a_high a); [reflexivity|].
  assert (NE : vcs_freqs nz <> []). { unfold vcs_freqs, tab1. destruct nz; [lia|discriminate]. }
  assert (P : forall v, In v (vcs_freqs nz) -> 0 <= v). { intros v Hv. unfold vcs_freqs, tab1 in Hv. apply in_map_iff in Hv. destruct Hv as (k & <- & _). apply Rabs_pos. }
  destruct (rmax_in _ NE P) as [I M]. split.
  - intros H. injection H as <-. exists (rmax (vcs_freqs nz)). auto.
  - intros (m & Im & Mm & ->). assert (E : m = rmax (vcs_freqs nz)) by (apply Rle_antisym; [now apply M|now apply Mm]). now rewrite E.
Qed.
Theorem fit_shown o a o' : do_fit o a = (o', None) ->
  exists low high ps pts g slopes errs b, limit to_freq (a_low a) (vcs_low nz None) = Ok low /\ limit to_freq (a_high a) (vcs_high nz None) = Ok high /\ v_ps1D o = Some ps /\
    vcs_points nz ps (Some low) (Some high) = Ok pts /\
    lm_seg_fit ols (map Fin (vcs_x pts)) (map (fun p => flog10 (snd p)) pts) b None = Ok g /\ get_slopes g = Ok (slopes, errs) /\
    o' = mk_v (Some ps) (Some low) (Some high) (Some (Some g)) (Some slopes) (Some (if a_boot a then removelast (tl (boot g)) else errs)) /\
    match a_breaks a with
    | Some v => b = as_start (a_log a) v
    | None => exists ks bs v, knots (vcs_x pts) (map (fun p => flog10 (snd p)) pts) = Ok ks /\ vcs_start (vcs_x pts) ks = Ok bs /\ In v bs /\ b = as_start (a_log a) v
    end.
Proof.
  unfold VcsRun.do_fit. destruct (limit to_freq (a_low a) _) as [low|e] eqn:L; [|discriminate]. destruct (limit to_freq (a_high a) _) as [high|e] eqn:H; [|discriminate].
  set (o1 := with_high (with_low o low) high). change (v_ps1D o1) with (v_ps1D o). destruct (v_ps1D o) as [ps|] eqn:P; [|discriminate]. destruct (vcs_points nz ps (Some low) (Some high)) as [pts|e] eqn:Q; [|discriminate].
  pose proof (start_keeps o1 (vcs_x pts) (map (fun p => flog10 (snd p)) pts) a) as K.
  destruct (start o1 (vcs_x pts) _ a) as [o2 [b|e]] eqn:S; [|discriminate]. cbn [fst] in K. apply start_ok in S.
  destruct (attempt o2 (vcs_x pts) _ b) as [o3 [g|e]] eqn:T; [|discriminate]. apply attempt_ok in T. destruct T as (-> & F & _).
  destruct (get_slopes g) as [[slopes errs]|e] eqn:G; [|discriminate]. intros E. injection E as <-.
  exists low, high, ps, pts, g, slopes, errs, b. destruct K as (K1 & K2 & K3 & _ & _). cbn [with_fit v_ps1D v_low v_high v_fit]. rewrite K1, K2, K3. cbn [o1 with_high with_low v_ps1D v_low v_high]. rewrite P.
  repeat (split; [solve [auto]|]). exact S.
Qed.
Theorem fit_forgets o1 o2 a : v_ps1D o1 = v_ps1D o2 -> snd (do_fit o1 a) = snd (do_fit o2 a) /\ (snd (do_fit o2 a) = None -> do_fit o1 a = do_fit o2 a).
Proof.
  intros E.
  unfold VcsRun.do_fit. destruct (limit to_freq (a_low a) _) as [low|e]; [|split; [reflexivity|discriminate]]. destruct (limit to_freq (a_high a) _) as [high|e]; [|split; [reflexivity|discriminate]].
  cbn [with_high with_low v_ps1D]. rewrite E. destruct (v_ps1D o2) as [ps|] eqn:P; [|split; [reflexivity|discriminate]]. destruct (vcs_points nz ps _ _) as [pts|e]; [|split; [reflexivity|discriminate]].
  set (p1 := with_high (with_low o1 low) high). set (p2 := with_high (with_low o2 low) high). set (x := vcs_x pts). set (y := map (fun p => flog10 (snd p)) pts).
  pose proof (start_same p1 p2 x y a) as K. pose proof (start_keeps p1 x y a) as K1. pose proof (start_keeps p2 x y a) as K2.
  destruct (start p1 x y a) as [q1 [b1|e1]]; destruct (start p2 x y a) as [q2 [b2|e2]]; cbn [fst snd] in *; try congruence; [|injection K as <-; split; [reflexivity|discriminate]]. injection K as <-.
  pose proof (attempt_same q1 q2 x y b1) as T.
  destruct (attempt q1 x y b1) as [r1 [g1|e1]] eqn:A1; destruct (attempt q2 x y b1) as [r2 [g2|e2]] eqn:A2; cbn [snd] in T; try congruence; [|injection T as <-; split; [reflexivity|discriminate]]. injection T as <-.
  apply attempt_ok in A1. apply attempt_ok in A2. destruct A1 as [-> _]. destruct A2 as [-> _].
  destruct (get_slopes g1) as [[s e]|e]; [|split; [reflexivity|discriminate]]. split; [reflexivity|]. intros _.
  destruct K1 as (U1 & U2 & U3 & _). destruct K2 as (V1 & V2 & V3 & _). cbn [with_fit v_ps1D v_low v_high v_fit]. rewrite U1, U2, U3, V1, V2, V3. cbn [p1 p2 with_high with_low v_ps1D v_low v_high]. now rewrite E, P.
Qed.
(** A fit that raises leaves the slopes as they were *)
Theorem fit_failed o a o' e : do_fit o a = (o', Some e) -> slope o' = slope o /\ slope_err o' = slope_err o /\ v_ps1D o' = v_ps1D o.
Proof.
  unfold VcsRun.do_fit. destruct (limit to_freq (a_low a) _) as [low|]; [|intros H; injection H as <- _; repeat split]. destruct (limit to_freq (a_high a) _) as [high|]; [|intros H; injection H as <- _; repeat split].
  cbn [with_high with_low v_ps1D]. destruct (v_ps1D o) as [ps|] eqn:P; [|intros H; injection H as <- _; repeat split; exact P]. destruct (vcs_points nz ps _ _) as [pts|]; [|intros H; injection H as <- _; repeat split; exact P].
  set (p1 := with_high (with_low o low) high). set (x := vcs_x pts). set (y := map (fun p => flog10 (snd p)) pts).
  pose proof (start_keeps p1 x y a) as K. destruct (start p1 x y a) as [q1 [b1|e1]]; cbn [fst] in K; destruct K as (K1 & _ & _ & K4 & K5).
  2:{ intros H. injection H as <- _. unfold slope, slope_err. rewrite K1, K4, K5. cbn. rewrite P. repeat split. }
  pose proof (attempt_keeps q1 x y b1) as T. destruct (attempt q1 x y b1) as [r1 [g1|e1]]; cbn [fst] in T; destruct T as (T1 & _ & _ & T4 & T5).
  - destruct (get_slopes g1) as [[sl er]|]; [discriminate|]. intros H. injection H as <- _. unfold slope, slope_err. rewrite T1, T4, T5, K1, K4, K5. cbn. rewrite P. repeat split.
  - intros H. injection H as <- _. unfold slope, slope_err. rewrite T1, T4, T5, K1, K4, K5. cbn. rewrite P. repeat split.
Qed.
(** The spectrum of an object is that of its cube *)
Lemma fit_spectrum o a : v_ps1D (fst (do_fit o a)) = v_ps1D o.
Proof.
  destruct (do_fit o a) as [o' [e|]] eqn:F; cbn [fst]; [now apply fit_failed in F|]. apply fit_shown in F. destruct F as (low & high & ps & pts & g & sl & er & b & _ & _ & P & _ & _ & _ & -> & _). now rewrite P.
Qed.
Lemma history_spectrum h : forall o, v_ps1D o = None \/ v_ps1D o = Some (vcs_ps1D nz ny nx cube) -> v_ps1D (history o h) = None \/ v_ps1D (history o h) = Some (vcs_ps1D nz ny nx cube).
Proof.
  induction h as [|c h IH]; intros o H; [exact H|]. cbn [VcsRun.history fold_left]. apply IH. destruct c; cbn [do_call].
  - right. reflexivity.
  - now rewrite fit_spectrum.
  - unfold VcsRun.run. rewrite fit_spectrum. right. reflexivity.
Qed.
Lemma points_filter ps low high pts : (0 < nz)%nat -> length ps = nz -> vcs_points nz ps (Some low) (Some high) = Ok pts -> points_of nz ps low high pts.
Proof.
  intros N L H. unfold points_of. rewrite (points_list nz ps _ _ pts L H). f_equal. apply filter_ext. intros k. cbn [vcs_low vcs_high].
  destruct (Rltb_spec low (INR k / INR nz)); destruct (Rlt_dec low (INR k / INR nz)); try contradiction; [|reflexivity]. cbn [andb].
  destruct (Rleb_spec (INR k / INR nz) high); destruct (Rle_dec (INR k / INR nz) high); try contradiction; reflexivity.
Qed.
End Runs.
