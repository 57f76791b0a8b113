(** Proofs about Model/VcsRun.v: exact power laws, the search for a break, the kind of errors. *)
From Coq Require Import Reals List Arith Bool Lia Lra.
From Verif Require Import Lib.PyBase Lib.RSum Lib.Fl Lib.Arr Lib.DFT Model.StatsUtils Model.Psds Model.EllipPlaw Model.Units Model.DeltaVar Model.LmSeg Model.BreakFit Model.VcsFit Model.VcsRun
  Spec.Segmented Spec.BreakFit Spec.VcsFit Spec.VcsRun Proofs.Fl_Proofs Proofs.LmSeg_Proofs Proofs.RfftToFft_Proofs Proofs.Psds_Proofs Proofs.Psds2_Proofs Proofs.ScfSpectrum2_Proofs Proofs.Ols_Proofs Proofs.BreakFit_Proofs Proofs.BreakFit2_Proofs Proofs.Straight_Proofs Proofs.VcsFit_Proofs Proofs.VcsRun_Proofs.
Import ListNotations.
Local Open Scope R_scope.

Lemma ps1D_length nz ny nx cube : (1 <= nz)%nat -> (1 <= ny)%nat -> (1 <= nx)%nat -> length (vcs_ps1D nz ny nx cube) = nz.
Proof. intros A B C. unfold vcs_ps1D. rewrite rfft_3d by lia. unfold tab1. now rewrite map_length, seq_length. Qed.

Section Laws.
Variables nz : nat.
Variable to_freq : quantity -> result R.
Variable knots : list R -> list fl -> result (list R).
Variable ols : list R -> option (list R) -> list (list R) -> fit_result.
Variable boot : seg_fit -> list fl.
Hypothesis NZ : (0 < nz)%nat.
Notation do_fit := (do_fit nz to_freq knots ols boot).

Lemma points_total ps low high : exists pts, vcs_points nz ps (Some low) (Some high) = Ok pts.
Proof. unfold vcs_points. destruct (Nat.eqb_spec nz 0); [lia|]. eauto. Qed.
Lemma freqs_pos low high f : In f (fitted_freqs nz low high) -> 0 < f.
Proof.
  intros H. unfold fitted_freqs in H. apply in_map_iff in H. destruct H as (k & <- & H). apply filter_In in H. destruct H as [H _]. apply in_seq in H.
  apply Rdiv_lt_0_compat; apply lt_0_INR; lia.
Qed.
(** The points of a spectrum that follows a law *)
Lemma law_points ps low high law pts : length ps = nz -> follows nz ps low high law -> vcs_points nz ps (Some low) (Some high) = Ok pts ->
  pts = map (fun f => (f, Fin (law f))) (fitted_freqs nz low high).
Proof.
  intros L F H. pose proof (points_filter nz ps low high pts NZ L H) as P. rewrite P. unfold fitted_freqs. rewrite map_map. apply map_ext_in. intros k Hk. apply filter_In in Hk. destruct Hk as [Hk HB]. apply in_seq in Hk.
  rewrite F; [reflexivity|lia|]. destruct (Rlt_dec low (INR k / INR nz)); [|discriminate]. destruct (Rle_dec (INR k / INR nz) high); [|discriminate]. auto.
Qed.
Lemma law_x low high (law : R -> R) : vcs_x (map (fun f => (f, Fin (law f))) (fitted_freqs nz low high)) = map log10 (fitted_freqs nz low high).
Proof. unfold vcs_x. rewrite map_map. reflexivity. Qed.
Lemma broken_y A s1 s2 B low high : 0 < A -> 0 < B ->
  map (fun p => flog10 (snd p)) (map (fun f => (f, Fin (broken_plaw A s1 s2 B f))) (fitted_freqs nz low high)) = map Fin (map (broken_line (log10 A) s1 s2 (log10 B)) (map log10 (fitted_freqs nz low high))).
Proof.
  intros HA HB. rewrite !map_map. apply map_ext_in. intros f Hf. cbn [snd]. pose proof (freqs_pos _ _ _ Hf). rewrite flog10_pos by now apply broken_pos. now rewrite log10_broken.
Qed.
Lemma plaw_y A s low high : 0 < A ->
  map (fun p => flog10 (snd p)) (map (fun f => (f, Fin (A * Rpower f s))) (fitted_freqs nz low high)) = map Fin (map (fun v => log10 A + s * v) (map log10 (fitted_freqs nz low high))).
Proof.
  intros HA. rewrite !map_map. apply map_ext_in. intros f Hf. cbn [snd]. pose proof (freqs_pos _ _ _ Hf). rewrite flog10_pos by (apply Rmult_lt_0_compat; [exact HA|apply exp_pos]). now rewrite log10_plaw.
Qed.
Lemma broken_slopes g p0 s1 s2 z : g_fail g = false -> g_params g = map Fin [p0; s1; s2 - s1; z] -> length (g_errs g) = 4%nat -> exists errs, get_slopes g = Ok ([Fin s1; Fin s2], errs).
Proof.
  intros F P L. destruct (slopes_broken g F) as (q1&q2&e1&e2&A1&A2&A3&A4&A5); [rewrite P; reflexivity|exact L|]. rewrite P in A1, A2. cbn in A1, A2. injection A1 as <-. injection A2 as <-. rewrite A5. cbn [fadd].
  replace (s2 - s1 + s1) with s2 by ring. eauto.
Qed.
Lemma straight_slopes g p0 m : g_fail g = true -> g_params g = [Fin p0; Fin m] -> length (g_errs g) = 2%nat -> exists errs, get_slopes g = Ok ([Fin m], errs).
Proof.
  intros F P L. unfold get_slopes. rewrite F. unfold params, param_errs. rewrite P. destruct (g_errs g) as [|e1 [|e2 [|]]]; try discriminate. cbn. eauto.
Qed.
(** A fit whose start is known *)
Lemma fit_from o a low high ps pts o1 b g slopes errs : limit to_freq (a_low a) (vcs_low nz None) = Ok low -> limit to_freq (a_high a) (vcs_high nz None) = Ok high -> v_ps1D o = Some ps ->
  vcs_points nz ps (Some low) (Some high) = Ok pts ->
  start knots ols (with_high (with_low o low) high) (vcs_x pts) (map (fun p => flog10 (snd p)) pts) a = (o1, Ok b) ->
  lm_seg_fit ols (map Fin (vcs_x pts)) (map (fun p => flog10 (snd p)) pts) b None = Ok g -> get_slopes g = Ok (slopes, errs) ->
  do_fit o a = (mk_v (Some ps) (Some low) (Some high) (Some (Some g)) (Some slopes) (Some (if a_boot a then removelast (tl (boot g)) else errs)), None).
Proof.
  intros EL EH EP EQ ES EG GS. pose proof (start_keeps knots ols (with_high (with_low o low) high) (vcs_x pts) (map (fun p => flog10 (snd p)) pts) a) as K. rewrite ES in K. cbn [fst] in K. destruct K as (K1 & K2 & K3 & _).
  unfold VcsRun.do_fit. rewrite EL, EH. cbv beta zeta. set (o0 := with_high (with_low o low) high) in *. change (v_ps1D o0) with (v_ps1D o). rewrite EP, EQ, ES.
  rewrite (attempt_fits ols o1 _ _ b g EG) by now rewrite GS. rewrite GS. cbn [with_fit v_ps1D v_low v_high v_fit]. rewrite K1, K2, K3. cbn. now rewrite EP.
Qed.
Lemma given_start o x y a B0 : 0 < B0 -> start_at B0 (a_breaks a) (a_log a) -> start knots ols o x y a = (o, Ok (Fin (log10 B0))).
Proof. intros H E. unfold start_at in E. unfold VcsRun.start. destruct (a_log a); rewrite E; [reflexivity|]. now rewrite flog10_pos. Qed.
Lemma spline_start o x y a ks b rest g : a_breaks a = None -> a_log a = true -> knots x y = Ok ks -> vcs_start x ks = Ok (b :: rest) ->
  lm_seg_fit ols (map Fin x) y (Fin b) None = Ok g -> length (params g) = 5%nat -> is_ok (get_slopes g) = true -> start knots ols o x y a = (with_fit o (Some g), Ok (Fin b)).
Proof.
  intros E1 E2 EK EV EG L G. unfold VcsRun.start. rewrite E1, EK, EV. cbn [search_breaks]. rewrite (attempt_fits ols o x y (Fin b) g EG G), L. cbn [Nat.eqb]. now rewrite E2.
Qed.
(** Where the break of a fit of a broken power law may end *)
Definition broken_run (ps : list fl) (o' : vobj) (s1 s2 B B0 : R) : Prop := exists C, v_ps1D o' = Some ps /\ slope o' = Ok [Fin s1; Fin s2] /\ brk o' = Ok (ln C / ln 10) /\ (C = B0 \/ C = B * B / B0).

Theorem law_broken o a low high ps A s1 s2 B B0 : low_limit to_freq nz (a_low a) low -> high_limit to_freq nz (a_high a) high -> v_ps1D o = Some ps -> length ps = nz -> regression ols ->
  0 < A -> 0 < B -> 0 < B0 -> s1 <> s2 -> follows nz ps low high (broken_plaw A s1 s2 B) ->
  two_sided B (fitted_freqs nz low high) -> same_gap B B0 (fitted_freqs nz low high) -> same_gap B (B * B / B0) (fitted_freqs nz low high) ->
  (start_at B0 (a_breaks a) (a_log a) \/
   a_breaks a = None /\ a_log a = true /\ exists ks rest, knots (map log10 (fitted_freqs nz low high)) (map (fun f => Fin (log10 (broken_plaw A s1 s2 B f))) (fitted_freqs nz low high)) = Ok ks /\
     vcs_start (map log10 (fitted_freqs nz low high)) ks = Ok (log10 B0 :: rest)) ->
  exists o', do_fit o a = (o', None) /\ broken_run ps o' s1 s2 B B0.
Proof.
  intros EL EH EP LP REG HA HB HB0 NE F T G G' ST. apply low_limit_ok in EL. apply high_limit_ok in EH; [|exact NZ]. destruct (points_total ps low high) as [pts EQ].
  pose proof (law_points ps low high _ pts LP F EQ) as EPT. set (fs := fitted_freqs nz low high) in *.
  assert (PF : forall f, In f fs -> 0 < f) by (intros f Hf; eapply freqs_pos; exact Hf).
  assert (HX : vcs_x pts = map log10 fs) by (rewrite EPT; apply law_x).
  assert (HY : map (fun p => flog10 (snd p)) pts = map Fin (map (broken_line (log10 A) s1 s2 (log10 B)) (map log10 fs))) by (rewrite EPT; now apply broken_y).
  destruct (lm_exact ols (map log10 fs) None (log10 A) s1 s2 (log10 B) (log10 B0) REG NE (log_sided B fs HB PF T) (log_gap B B0 fs HB HB0 PF G)) as (g & EG & HC & GF & GP & GE); [|exact I|].
  { rewrite log10_mirror by assumption. apply log_gap; try assumption. now apply mirror_pos. }
  cbn [option_map] in EG. destruct (broken_slopes g _ _ _ _ GF GP GE) as [errs GS].
  assert (ES : exists o1, start knots ols (with_high (with_low o low) high) (vcs_x pts) (map (fun p => flog10 (snd p)) pts) a = (o1, Ok (Fin (log10 B0)))).
  { destruct ST as [ST|(N1 & N2 & ks & rest & EK & EV)]; [eexists; now apply given_start|]. eexists. apply (spline_start _ _ _ a ks (log10 B0) rest g N1 N2).
    - rewrite HX, HY. rewrite <- EK. f_equal. rewrite !map_map. apply map_ext_in. intros f Hf. f_equal. symmetry. apply log10_broken; auto.
    - now rewrite HX.
    - now rewrite HX, HY.
    - rewrite params_length, GP. reflexivity.
    - now rewrite GS. }
  destruct ES as [o1 ES]. rewrite <- HY, <- HX in EG. eexists. split; [apply (fit_from o a low high ps pts o1 (Fin (log10 B0)) g _ _ EL EH EP EQ ES EG GS)|].
  unfold broken_run, slope, brk. cbn [v_ps1D v_slope v_fit]. destruct HC as [HC|HC].
  - exists B0. rewrite HC. auto.
  - exists (B * B / B0). rewrite HC, log10_mirror by assumption. auto.
Qed.
(** A plain power law: the break is dropped *)
Lemma log_max fs : fs <> [] -> (forall f, In f fs -> 0 < f) -> exists m, In m fs /\ (forall f, In f fs -> f <= m) /\ rmax_of (map log10 fs) = log10 m.
Proof.
  intros N P. assert (H : forall l, (forall f, In f l -> 0 < f) -> forall d, 0 < d -> exists m, (In m l \/ m = d) /\ (forall f, In f l -> f <= m) /\ d <= m /\ fold_right Rmax (log10 d) (map log10 l) = log10 m).
  { induction l as [|a l IH]; intros Pl d Hd.
    - exists d. cbn. split; [now right|]. split; [intros f []|]. split; [lra|reflexivity].
    - destruct (IH (fun f Hf => Pl f (or_intror Hf)) d Hd) as (m & Im & Mm & Dm & E). cbn [map fold_right]. rewrite E. assert (Pa : 0 < a) by (apply Pl; now left).
      assert (Pm : 0 < m) by lra. unfold Rmax. destruct (Rle_dec (log10 a) (log10 m)) as [L|L].
      + apply (proj1 (log10_le a m Pa Pm)) in L. exists m. split; [destruct Im; [left; now right|now right]|]. split; [intros f [<-|Hf]; [exact L|now apply Mm]|]. auto.
      + assert (L' : m < a). { apply Rnot_le_lt. intros Z. apply L. now apply log10_le. } exists a. split; [left; now left|]. split; [intros f [<-|Hf]; [lra|specialize (Mm f Hf); lra]|]. split; [lra|reflexivity]. }
  destruct fs as [|d fs]; [contradiction|]. destruct (H (d :: fs) P d (P d (or_introl eq_refl))) as (m & Im & Mm & _ & E). exists m. split; [destruct Im as [Im| ->]; [exact Im|now left]|]. split; [exact Mm|]. exact E.
Qed.
Theorem law_plain o a low high ps A s B0 : low_limit to_freq nz (a_low a) low -> high_limit to_freq nz (a_high a) high -> v_ps1D o = Some ps -> length ps = nz -> regression ols ->
  0 < A -> 0 < B0 -> follows nz ps low high (fun f => A * Rpower f s) -> two_sided B0 (fitted_freqs nz low high) -> start_at B0 (a_breaks a) (a_log a) ->
  exists o' m, do_fit o a = (o', None) /\ v_ps1D o' = Some ps /\ slope o' = Ok [Fin s] /\ brk o' = Ok (ln m / ln 10) /\ In m (fitted_freqs nz low high) /\ forall f, In f (fitted_freqs nz low high) -> f <= m.
Proof.
  intros EL EH EP LP REG HA HB0 F T ST. apply low_limit_ok in EL. apply high_limit_ok in EH; [|exact NZ]. destruct (points_total ps low high) as [pts EQ].
  pose proof (law_points ps low high _ pts LP F EQ) as EPT. cbv beta in EPT. set (fs := fitted_freqs nz low high) in *.
  assert (PF : forall f, In f fs -> 0 < f) by (intros f Hf; eapply freqs_pos; exact Hf).
  assert (HX : vcs_x pts = map log10 fs) by (rewrite EPT; apply (law_x low high (fun f => A * Rpower f s))).
  assert (HY : map (fun p => flog10 (snd p)) pts = map Fin (map (fun v => log10 A + s * v) (map log10 fs))) by (rewrite EPT; now apply plaw_y).
  destruct (lm_straight ols (map log10 fs) None (log10 A) s (log10 B0) REG (log_sided B0 fs HB0 PF T) I) as (g & EG & HC & GF & GP & GE & _).
  cbn [option_map] in EG. destruct (straight_slopes g _ _ GF GP GE) as [errs GS].
  destruct (log_max fs) as (m & Im & Mm & EM); [|exact PF|].
  { destruct T as [(u & _ & Hu & _) _]. intros E. rewrite E in Hu. destruct Hu. }
  pose proof (given_start (with_high (with_low o low) high) (vcs_x pts) (map (fun p => flog10 (snd p)) pts) a B0 HB0 ST) as ES. rewrite <- HY, <- HX in EG.
  eexists. exists m. split; [apply (fit_from o a low high ps pts _ (Fin (log10 B0)) g _ _ EL EH EP EQ ES EG GS)|]. unfold slope, brk. cbn [v_ps1D v_slope v_fit]. rewrite HC, EM. auto.
Qed.
(** ... and a search among two breaks or more ends in an error *)
Lemma search_none x y bs o : (forall b, In b bs -> exists g, lm_seg_fit ols (map Fin x) y (Fin b) None = Ok g /\ is_ok (get_slopes g) = true /\ length (params g) <> 5%nat) ->
  exists o', search_breaks ols o x y bs = (o', Ok None) /\ (bs <> [] -> forall g, lm_seg_fit ols (map Fin x) y (Fin (last bs 0)) None = Ok g -> v_fit o' = Some (Some g)).
Proof.
  revert o. induction bs as [|b bs IH]; intros o H; [exists o; split; [reflexivity|intros N; contradiction]|]. destruct (H b (or_introl eq_refl)) as (g & EG & GS & L). cbn [search_breaks]. rewrite (attempt_fits ols o x y (Fin b) g EG GS).
  destruct (Nat.eqb_spec (length (params g)) 5); [contradiction|]. destruct (IH (with_fit o (Some g)) (fun c Hc => H c (or_intror Hc))) as (o' & E & K). exists o'. split; [exact E|]. intros _ g' Eg'. destruct bs as [|c bs].
  - cbn [last] in Eg'. cbn [search_breaks] in E. injection E as <-. cbn. congruence.
  - apply K; [discriminate|exact Eg'].
Qed.
Theorem law_search o a low high ps A s ks bs : low_limit to_freq nz (a_low a) low -> high_limit to_freq nz (a_high a) high -> v_ps1D o = Some ps -> length ps = nz -> regression ols ->
  0 < A -> follows nz ps low high (fun f => A * Rpower f s) -> a_breaks a = None ->
  knots (map log10 (fitted_freqs nz low high)) (map (fun f => Fin (log10 (A * Rpower f s))) (fitted_freqs nz low high)) = Ok ks -> vcs_start (map log10 (fitted_freqs nz low high)) ks = Ok bs ->
  (forall b, In b bs -> two_sided b (map log10 (fitted_freqs nz low high))) -> (2 <= length bs)%nat ->
  exists o' m, do_fit o a = (o', Some ValueError) /\ brk o' = Ok (ln m / ln 10) /\ v_low o' = Some low /\ v_high o' = Some high /\ In m (fitted_freqs nz low high) /\ forall f, In f (fitted_freqs nz low high) -> f <= m.
Proof.
  intros EL EH EP LP REG HA F NB EK EV T L2. apply low_limit_ok in EL. apply high_limit_ok in EH; [|exact NZ]. destruct (points_total ps low high) as [pts EQ].
  pose proof (law_points ps low high _ pts LP F EQ) as EPT. cbv beta in EPT. set (fs := fitted_freqs nz low high) in *.
  assert (PF : forall f, In f fs -> 0 < f) by (intros f Hf; eapply freqs_pos; exact Hf).
  assert (HX : vcs_x pts = map log10 fs) by (rewrite EPT; apply (law_x low high (fun f => A * Rpower f s))).
  assert (HY : map (fun p => flog10 (snd p)) pts = map Fin (map (fun v => log10 A + s * v) (map log10 fs))) by (rewrite EPT; now apply plaw_y).
  assert (EK' : knots (vcs_x pts) (map (fun p => flog10 (snd p)) pts) = Ok ks).
  { rewrite HX, HY, <- EK. f_equal. rewrite !map_map. apply map_ext_in. intros f Hf. f_equal. symmetry. apply log10_plaw; auto. }
  set (o0 := with_high (with_low o low) high).
  assert (AT : forall b, In b bs -> exists g, lm_seg_fit ols (map Fin (vcs_x pts)) (map (fun p => flog10 (snd p)) pts) (Fin b) None = Ok g /\ is_ok (get_slopes g) = true /\ length (params g) <> 5%nat /\ g_brk g = rmax_of (map log10 fs)).
  { intros b Hb. rewrite HX, HY. destruct (lm_straight ols (map log10 fs) None (log10 A) s b REG (T b Hb) I) as (g & EG & HC & GF & GP & GE & _). exists g. split; [exact EG|].
    destruct (straight_slopes g _ _ GF GP GE) as [errs ->]. split; [reflexivity|]. split; [|exact HC]. rewrite params_length, GP. discriminate. }
  destruct (search_none (vcs_x pts) (map (fun p => flog10 (snd p)) pts) bs o0) as (o' & ES & KS).
  { intros b Hb. destruct (AT b Hb) as (g & A1 & A2 & A3 & _). eauto. }
  assert (NB' : bs <> []) by (intros ->; cbn in L2; lia). assert (IL : In (last bs 0) bs). { clear -NB'. induction bs as [|b bs IH]; [contradiction|]. destruct bs as [|c bs]; [now left|]. right. apply IH. discriminate. }
  destruct (AT _ IL) as (g & A1 & _ & _ & A4). specialize (KS NB' g A1). pose proof (search_keeps ols (vcs_x pts) (map (fun p => flog10 (snd p)) pts) bs o0) as K. rewrite ES in K. cbn [fst] in K. destruct K as (_ & K2 & K3 & _).
  destruct (log_max fs) as (m & Im & Mm & EM); [|exact PF|]. { destruct (T _ IL) as [(u & _ & Hu & _) _]. intros E. rewrite E in Hu. destruct Hu. }
  exists o', m. split; [|unfold brk; rewrite KS, A4, EM, K2, K3; auto].
  unfold VcsRun.do_fit. rewrite EL, EH. cbv beta zeta. fold o0. change (v_ps1D o0) with (v_ps1D o). rewrite EP, EQ. unfold VcsRun.start. rewrite NB, EK', HX, EV, <- HX, ES. destruct bs as [|b1 [|b2 bs]]; cbn in L2; try lia. reflexivity.
Qed.
(** A search whose breaks are taken for no logarithms *)
Lemma start_below x ks bs b : vcs_start x ks = Ok bs -> (forall k, In k ks -> exists v, In v x /\ k <= v) -> (forall v, In v x -> v < 0) -> In b bs -> b < 0.
Proof.
  intros H K N I. unfold vcs_start in H. set (b0 := rev (drop_last (tl ks))) in H.
  assert (D : forall (l : list R) v, In v (drop_last l) -> In v l). { intros l v Hv. unfold drop_last in Hv. rewrite <- (firstn_skipn (length l - 1) l). apply in_or_app. now left. }
  assert (S0 : forall v, In v b0 -> In v ks). { intros v Hv. unfold b0 in Hv. rewrite <- in_rev in Hv. apply D in Hv. destruct ks; [exact Hv|now right]. }
  set (b1 := match b0 with b :: rest => if Reqb b (last x 0) then rest else b0 | [] => [] end) in H.
  assert (S1 : forall v, In v b1 -> In v ks). { intros v Hv. apply S0. unfold b1 in Hv. destruct b0 as [|c r]; [destruct Hv|]. destruct (Reqb c (last x 0)); [now right|exact Hv]. }
  set (b2 := match b1 with [] => [] | _ => if Reqb (last b1 0) (hd 0 x) then drop_last b1 else b1 end) in H.
  assert (S2 : forall v, In v b2 -> In v ks). { intros v Hv. apply S1. unfold b2 in Hv. destruct b1 as [|c r]; [destruct Hv|]. destruct (Reqb _ _); [now apply D|exact Hv]. }
  destruct (Nat.leb_spec (length x) 3) as [|Lx]; [discriminate|]. destruct b2 as [|c r].
  - injection H as <-. destruct I as [<-|[]]. assert (nth (length x - 1) x 0 < 0) by (apply N, nth_In; lia). assert (nth (length x - 3) x 0 < 0) by (apply N, nth_In; lia). lra.
  - injection H as <-. apply S2 in I. destruct (K b I) as (v & Hv & Lv). specialize (N v Hv). lra.
Qed.
Theorem search_not_logged o a : knots_inside knots -> (forall p, v_ps1D o = Some p -> length p = nz) -> a_breaks a = None -> a_log a = false -> snd (do_fit o a) <> None.
Proof.
  intros KI LP NB NL E. destruct (do_fit o a) as [o' e] eqn:D. cbn [snd] in E. subst e. destruct (fit_shown nz to_freq knots ols boot o a o' D) as (low & high & ps & pts & g & sl & er & b & EL & EH & EP & EQ & EG & _ & _ & ST). rewrite NB, NL in ST.
  destruct ST as (ks & bs & v & EK & EV & IV & ->). assert (N : forall w, In w (vcs_x pts) -> w < 0).
  { intros w Hw. unfold vcs_x in Hw. apply in_map_iff in Hw. destruct Hw as ([f p] & <- & Hp). cbn [fst]. pose proof (proj1 (points_in nz ps _ _ pts f p (LP ps EP) EQ) Hp) as (k & Hk & -> & _).
    assert (HN : 0 < INR nz) by (now apply lt_0_INR). assert (Hk0 : 0 < INR k) by (apply lt_0_INR; lia). pose proof ln10_pos.
    assert (L1 : INR k / INR nz < 1). { apply Rmult_lt_reg_r with (INR nz); [exact HN|]. unfold Rdiv. rewrite Rmult_assoc, Rinv_l, Rmult_1_l, Rmult_1_r by lra. apply lt_INR. pose proof (Nat.div_lt nz 2). lia. }
    assert (L2 : ln (INR k / INR nz) < 0). { rewrite <- ln_1. apply ln_increasing; [now apply Rdiv_lt_0_compat|exact L1]. }
    apply Ropp_lt_cancel. rewrite Ropp_0. replace (- (ln (INR k / INR nz) / ln 10)) with ((- ln (INR k / INR nz)) / ln 10) by (field; lra). apply Rdiv_lt_0_compat; lra. }
  pose proof (start_below _ ks bs v EV (fun k Hk => KI _ _ ks k EK Hk) N IV) as V. unfold as_start, flog10 in EG. destruct (Rltb_spec 0 v); [lra|]. destruct (Rltb_spec v 0); [|contradiction]. discriminate EG.
Qed.
End Laws.

(** ** The kind of errors *)
Theorem cov_ignored ols x y b w :
  (forall y w cols, f_params (ols HC3 y w cols) = f_params (ols Nonrobust y w cols) /\ f_resid (ols HC3 y w cols) = f_resid (ols Nonrobust y w cols)) ->
  forall asked, lm_seg_fit_cov ols asked x y b w = lm_seg_fit (ols Nonrobust) x y b w.
Proof.
  intros H asked. unfold lm_seg_fit_cov, lm_seg_fit. destruct (lm_seg_init x y b w) as [s|e]; [|reflexivity]. cbn [bind].
  assert (E : fit_model_cov s (fun c => ols c (seg_y s) (seg_weights s)) asked = fit_model s (ols Nonrobust (seg_y s) (seg_weights s)) true 100 (1 / 1000) 2 10 101); [|now rewrite E].
  unfold fit_model_cov, fit_model. unfold lm_fit at 1 2. destruct (Rltb_spec 10 (1 / 1000)); [lra|].
  assert (R' : f_resid (ols asked (seg_y s) (seg_weights s) (add_constant [seg_x s])) = f_resid (ols Nonrobust (seg_y s) (seg_weights s) (add_constant [seg_x s]))) by (destruct asked; [reflexivity|apply H]).
  destruct (seg_weights s) as [l|]; [destruct (Nat.eqb _ _); [|reflexivity]|]; cbv beta zeta; rewrite R'; (destruct (search_loop _ _ _ _ _ _ _) as [[c|e]|]; [|reflexivity|reflexivity]); unfold finish; rewrite R'; reflexivity.
Qed.
