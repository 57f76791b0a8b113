(** C259-C260: options of `run` of the delta variance and the wavelet transform, and of their
    distances, reach the steps they are documented for. *)
From Coq Require Import Reals String List Arith Bool Lia Lra.
From Verif Require Import Lib.PyBase Model.FitUtils Model.Kwargs Model.RunOptions Spec.Kwargs Spec.RunOptions
  Proofs.Kwargs_Proofs Proofs.RunOptions_Proofs Proofs.RunOptions2_Proofs.
Import ListNotations.
Local Open Scope string_scope.
Local Open Scope list_scope.

(** A user's dictionaries: fit options bootstrap=True, tol=0.01, cov_type='nonrobust'; options for a
    run (xlow, brk and fit options); nan_treatment for convolve_fft; a misspelt fit option; options
    of a wavelet run *)
Definition users : world := mk_w
  [[]; [("bootstrap", VBool true); ("tol", VNum (1/100)); ("cov_type", VStr "nonrobust")]; [("xlow", VQty 3); ("brk", VQty 8); ("fit_kwargs", VDict 6)];
   [("nan_treatment", VStr "interpolate")]; [("weigthed_fit", VBool true)]; [("brk", VQty 8); ("use_pyfftw", VBool true)]; [("bootstrap", VBool true); ("tol", VNum (1/100))]] [].
Definition call : dict := [("xlow", VQty 3); ("brk", VQty 8); ("use_pyfftw", VBool true); ("threads", VNum 4); ("fit_kwargs", VDict 6)].
Local Ltac cases := repeat match goal with
  | H : _ \/ _ |- _ => destruct H as [H|H]
  | H : False |- _ => destruct H
  end.
Lemma call_documented : forall k, documented (heap users) k [] call.
Proof.
  intros k. unfold documented. split; [intros kv H; cbn in H; cases; subst kv; destruct k; cbn; auto 20|].
  split; [intros kv []|]. split; [eexists; reflexivity|].
  split; [intros kv H; cbn in H; cases; subst kv; destruct k; cbn; auto 20|].
  split; [exists 0; split; reflexivity|]. intros _. exists 0. split; [reflexivity|]. intros n H. cbn in H. cases; subst n; reflexivity.
Qed.

(** * C259 *)
Theorem C259_reach_partial : forall pyfftw k o e x w w' u, run pyfftw k o e x w = (w', Ok u) -> nth 0 (heap w) [] = [] -> ran_with w w' k o (e ++ x).
Proof. exact run_reaches. Qed.
Print Assumptions C259_reach_partial.
Theorem C259_accepted_partial : forall pyfftw k o e x w, nth 0 (heap w) [] = [] -> documented (heap w) k e x ->
  exists w', run pyfftw k o e x w = (w', Ok tt) /\ heap w' = heap w.
Proof. exact run_accepts. Qed.
Print Assumptions C259_accepted_partial.
Example C259_call : forall k, exists w', run true k 1 [] call users = (w', Ok tt) /\ ran_with users w' k 1 call.
Proof.
  intros k. destruct (run_accepts true k 1 [] call users eq_refl (call_documented k)) as (w' & E & _). exists w'. split; [exact E|]. exact (run_reaches true k 1 [] call users w' tt E eq_refl).
Qed.
(** The segmented fit is made exactly when a break is given, with the options of fit_kwargs *)
Theorem C259_break_partial : forall pyfftw k o e x w w' u, run pyfftw k o e x w = (w', Ok u) -> nth 0 (heap w) [] = [] ->
  (chosen (e ++ x) "brk" VNone = VNone -> new_calls w w' o "fit_model" []) /\
  (chosen (e ++ x) "brk" VNone <> VNone -> exists c, new_calls w w' o "fit_model" [c] /\ gets c segmented_table (options_in (heap w) (e ++ x) "fit_kwargs")).
Proof.
  intros pyfftw k o e x w w' u H H0. destruct (segmented _ _ _ _ _ _ _ _ H H0) as [S1 S2]. split; [exact S1|]. intros N. destruct (S2 N) as (c & C & G & _). now exists c.
Qed.
Print Assumptions C259_break_partial.
Example C259_break_case : forall k, exists w' c, run false k 1 [] call users = (w', Ok tt) /\ new_calls users w' 1 "fit_model" [c] /\ get (e_args c) "tol" = Some (VNum (1/100)).
Proof.
  intros k. destruct (run_accepts false k 1 [] call users eq_refl (call_documented k)) as (w' & E & _). destruct (C259_break_partial false k 1 [] call users w' tt E eq_refl) as [_ S2].
  destruct S2 as (c & C & G); [discriminate|]. exists w', c. split; [exact E|]. split; [exact C|]. rewrite (G "tol" (VNum (1/1000))); [reflexivity|now left].
Qed.
(** The delta variance refuses a name it does not know *)
Theorem C259_misspelt_partial : forall pyfftw o e x w kv, In kv (e ++ x) -> ~ In (fst kv) (options_of DELTA) -> fst kv <> "self" ->
  run pyfftw DELTA o e x w = (w, Err TypeError).
Proof. exact misspelt. Qed.
Print Assumptions C259_misspelt_partial.
Example C259_misspelt_case : run true DELTA 1 [] [("x_low", VQty 3)] users = (users, Err TypeError).
Proof. apply (misspelt true 1 [] [("x_low", VQty 3)] users ("x_low", VQty 3)); [now left| |discriminate]. cbn. intros H. cases; discriminate. Qed.
(** The wavelet transform takes any name and does nothing with it *)
Theorem C259_swallowed_refuted : forall pyfftw o e x w n v, ~ In n (options_of WAVELET) -> n <> "self" -> get e n = None ->
  chosen (e ++ x) "verbose" (VBool false) = VBool false -> run pyfftw WAVELET o e (x ++ [(n, v)]) w = run pyfftw WAVELET o e x w.
Proof. exact swallowed. Qed.
Print Assumptions C259_swallowed_refuted.
Example C259_swallowed_case : exists w', run true WAVELET 1 [] (call ++ [("x_high", VQty 3)]) users = (w', Ok tt).
Proof.
  destruct (run_accepts true WAVELET 1 [] call users eq_refl (call_documented WAVELET)) as (w' & E & _). exists w'. rewrite <- E. apply swallowed; [cbn; intros H; cases; discriminate|discriminate|reflexivity|reflexivity].
Qed.
(** A name that means nothing is accepted in fit_kwargs, by both, and no fit takes it *)
Theorem C259_fit_option_refuted : forall pyfftw k o w r n v, nth 0 (heap w) [] = [] -> nth r (heap w) [] = [(n, v)] ->
  ~ In n ["self"; "xlow"; "xhigh"; "brk"; "verbose"] -> n <> "bootstrap_kwargs" ->
  exists w', run pyfftw k o [("fit_kwargs", VDict r)] [] w = (w', Ok tt) /\ new_calls w w' o "fit_model" [].
Proof. exact ignored. Qed.
Print Assumptions C259_fit_option_refuted.
Example C259_fit_option_case : forall k, exists w', run true k 1 [("fit_kwargs", VDict 4)] [] users = (w', Ok tt) /\ new_calls users w' 1 "fit_model" [].
Proof. intros k. apply (ignored true k 1 users 4 "weigthed_fit" (VBool true)); [reflexivity|reflexivity|cbn; intros H; cases; discriminate|discriminate]. Qed.
(** With a break, the covariance is HC3 whatever was asked *)
Theorem C259_cov_type_refuted : forall pyfftw k o e x w w' u, run pyfftw k o e x w = (w', Ok u) -> nth 0 (heap w) [] = [] -> chosen (e ++ x) "brk" VNone <> VNone ->
  exists c, new_calls w w' o "fit_model" [c] /\ get (e_more c) "cov_type" = Some (VStr "HC3").
Proof.
  intros pyfftw k o e x w w' u H H0 N. destruct (segmented _ _ _ _ _ _ _ _ H H0) as [_ S2]. destruct (S2 N) as (c & C & _ & G & _). now exists c.
Qed.
Print Assumptions C259_cov_type_refuted.
Example C259_cov_type_case : forall k, exists w', run true k 1 [("brk", VQty 8); ("fit_kwargs", VDict 1)] [] users = (w', Ok tt).
Proof.
  intros k. destruct (run_takes true k 1 [("brk", VQty 8); ("fit_kwargs", VDict 1)] [] users eq_refl) as (w' & E & _); [| | | | | |now exists w'].
  - intros kv H. cbn in H. cases; subst kv; destruct k; cbn; auto 20.
  - reflexivity.
  - now exists 1.
  - intros n H. cbn in H. cases; subst n; reflexivity.
  - exists 0. split; reflexivity.
  - intros _. exists 0. split; [reflexivity|]. intros n H. cbn in H. cases; subst n; reflexivity.
Qed.
(** With a break, the wavelet's segmented fit is verbose although verbose=False *)
Theorem C259_quiet_refuted : forall pyfftw o e x w w' u, run pyfftw WAVELET o e x w = (w', Ok u) -> nth 0 (heap w) [] = [] -> chosen (e ++ x) "brk" VNone <> VNone ->
  get (options_in (heap w) (e ++ x) "fit_kwargs") "verbose" = None ->
  exists c, new_calls w w' o "fit_model" [c] /\ get (e_args c) "verbose" = Some (VBool true).
Proof.
  intros pyfftw o e x w w' u H H0 N V. destruct (segmented _ _ _ _ _ _ _ _ H H0) as [_ S2]. destruct (S2 N) as (c & C & _ & _ & G). exists c. split; [exact C|]. rewrite G. unfold chosen. now rewrite V.
Qed.
Print Assumptions C259_quiet_refuted.
(** The delta variance's is as asked *)
Theorem C259_delta_quiet_partial : forall pyfftw o e x w w' u, run pyfftw DELTA o e x w = (w', Ok u) -> nth 0 (heap w) [] = [] -> chosen (e ++ x) "brk" VNone <> VNone ->
  exists c, new_calls w w' o "fit_model" [c] /\ get (e_args c) "verbose" = Some (chosen (e ++ x) "verbose" (VBool false)).
Proof.
  intros pyfftw o e x w w' u H H0 N. destruct (segmented _ _ _ _ _ _ _ _ H H0) as [_ S2]. destruct (S2 N) as (c & C & _ & _ & G). now exists c.
Qed.
Print Assumptions C259_delta_quiet_partial.
Example C259_quiet_case : forall k, exists w' c, run true k 1 [] call users = (w', Ok tt) /\ new_calls users w' 1 "fit_model" [c] /\
  get (e_args c) "verbose" = Some (VBool (match k with DELTA => false | WAVELET => true end)).
Proof.
  intros k. destruct (run_accepts true k 1 [] call users eq_refl (call_documented k)) as (w' & E & _). exists w'. destruct k.
  - destruct (C259_delta_quiet_partial true 1 [] call users w' tt E eq_refl) as (c & C & G); [discriminate|]. now exists c.
  - destruct (C259_quiet_refuted true 1 [] call users w' tt E eq_refl) as (c & C & G); [discriminate|reflexivity|]. now exists c.
Qed.
(** Options of convolve_fft that the wavelet transform sets itself cannot be given *)
Theorem C259_convolve_refuted : forall pyfftw o e x w r n, chosen (e ++ x) "convolve_kwargs" (VDict 0) = VDict r ->
  In n ["normalize_kernel"; "fftn"; "ifftn"; "nan_treatment"; "preserve_nan"] -> get (nth r (heap w) []) n <> None ->
  snd (run pyfftw WAVELET o e x w) = Err TypeError.
Proof. exact convolve_refused. Qed.
Print Assumptions C259_convolve_refuted.
Example C259_convolve_case : snd (run true WAVELET 1 [("convolve_kwargs", VDict 3)] [] users) = Err TypeError.
Proof. apply (convolve_refused true 1 [("convolve_kwargs", VDict 3)] [] users 3 "nan_treatment"); [reflexivity|cbn; auto|discriminate]. Qed.
(** threads and pyfftw_kwargs change nothing in the convolutions *)
Theorem C259_threads_refuted : forall pyfftw k o e x e' x' w w1 w2 u u', run pyfftw k o e x w = (w1, Ok u) -> run pyfftw k o e' x' w = (w2, Ok u') ->
  (forall n, n <> "threads" -> n <> "pyfftw_kwargs" -> get (e ++ x) n = get (e' ++ x') n) ->
  exists c, new_calls w w1 o "convolve_fft" [c] /\ new_calls w w2 o "convolve_fft" [c].
Proof.
  intros pyfftw k o e x e' x' w w1 w2 u u' H H' Same.
  assert (C : forall e x w1 u, run pyfftw k o e x w = (w1, Ok u) -> exists c, new_calls w w1 o "convolve_fft" [c]).
  { clear. intros e x w1 u H. destruct (run_trace _ _ _ _ _ _ _ _ H) as (a & am & ca & cm & va & vm & d & rf & fa & fm & tail & _ & _ & _ & _ & _ & _ & _ & E & F & _).
    destruct (calls_compute k o ca cm va vm fa fm tail w w1 F E) as (_ & _ & C3 & _). eexists. exact C3. }
  destruct (C _ _ _ _ H) as (c & C1). destruct (C _ _ _ _ H') as (c' & C2). exists c. split; [exact C1|]. now rewrite (convolve_same _ _ _ _ _ _ _ _ _ _ _ _ _ _ H H' Same C1 C2).
Qed.
Print Assumptions C259_threads_refuted.
Example C259_threads_case : forall k, exists w1 w2, run true k 1 [("threads", VNum 4)] [] users = (w1, Ok tt) /\ run true k 1 [("threads", VNum 1)] [] users = (w2, Ok tt).
Proof.
  assert (D : forall k r, documented (heap users) k [("threads", VNum r)] []).
  { intros k r. unfold documented. split; [intros kv H; cbn in H; cases; subst kv; destruct k; cbn; auto 20|]. split; [reflexivity|]. split; [now exists 0|]. split; [intros kv []|]. split; [exists 0; split; reflexivity|].
    intros _. exists 0. split; [reflexivity|]. intros n H. cbn in H. cases; subst n; reflexivity. }
  intros k. destruct (run_accepts true k 1 _ [] users eq_refl (D k 4%R)) as (w1 & E1 & _). destruct (run_accepts true k 1 _ [] users eq_refl (D k 1%R)) as (w2 & E2 & _). now exists w1, w2.
Qed.

(** * C260 *)
Theorem C260_delta_partial : forall pyfftw d1 d2 weights1 weights2 diam lags1 lags2 r kw2 w w' u, nth 0 (heap w) [] = [] ->
  (kw2 = VNone \/ exists r2, kw2 = VDict r2 /\ d2 <> Obj false true) ->
  delta_distance pyfftw d1 d2 weights1 weights2 diam lags1 lags2 true (VDict r) kw2 w = (w', Ok u) ->
  as_asked w w' DELTA 0 (to_run d1) (dict_for (heap w) (VDict r) kw2 0) /\ as_asked w w' DELTA 1 (to_run d2) (dict_for (heap w) (VDict r) kw2 1).
Proof. exact delta_asked. Qed.
Print Assumptions C260_delta_partial.
Theorem C260_delta_accepted_partial : forall pyfftw d1 d2 weights1 weights2 diam lags1 lags2 r kw2 w, nth 0 (heap w) [] = [] -> both_data_or_objects d1 d2 ->
  (kw2 = VNone \/ exists r2, kw2 = VDict r2) ->
  documented (heap w) DELTA [] (dict_for (heap w) (VDict r) kw2 0) -> documented (heap w) DELTA [] (dict_for (heap w) (VDict r) kw2 1) ->
  exists w', delta_distance pyfftw d1 d2 weights1 weights2 diam lags1 lags2 true (VDict r) kw2 w = (w', Ok tt) /\ heap w' = heap w.
Proof. exact delta_fine. Qed.
Print Assumptions C260_delta_accepted_partial.
Lemma dict_documented : forall k r, r = 2 \/ r = 5 \/ r = 0 -> documented (heap users) k [] (nth r (heap users) []).
Proof.
  intros k r H. unfold documented. split; [intros kv I; cases; subst r; cbn in I; cases; subst kv; destruct k; cbn; auto 20|]. split; [intros kv []|].
  split; [cases; subst r; eexists; reflexivity|]. split; [intros kv I; cases; subst r; cbn in I; cases; subst kv; destruct k; cbn; auto 20|].
  split; [exists 0; cases; subst r; split; reflexivity|]. intros _. exists 0. split; [cases; subst r; reflexivity|]. intros n I. cbn in I. cases; subst n; reflexivity.
Qed.
Example C260_delta_case : exists w', delta_distance true Data Data VNone VNone (VNum (3/2)) (VObj 5) (VObj 5) true (VDict 2) (VDict 5) users = (w', Ok tt) /\
  ran_with users w' DELTA 1 [("xlow", VQty 3); ("brk", VQty 8); ("fit_kwargs", VDict 6)] /\ ran_with users w' DELTA 2 [("brk", VQty 8); ("use_pyfftw", VBool true)].
Proof.
  destruct (delta_fine true Data Data VNone VNone (VNum (3/2)) (VObj 5) (VObj 5) 2 (VDict 5) users eq_refl I) as (w' & E & _); [right; now exists 5|apply (dict_documented DELTA 2); auto|apply (dict_documented DELTA 5); auto|].
  exists w'. split; [exact E|]. refine (delta_asked true Data Data _ _ _ _ _ 2 (VDict 5) users w' tt eq_refl _ E). right. exists 5. split; [reflexivity|discriminate].
Qed.
(** A second object that has the common lags but no fit is run with delvar_kwargs *)
Theorem C260_second_refuted : forall pyfftw f1 s1 weights1 weights2 diam lags1 lags2 r r2 w w' u, nth 0 (heap w) [] = [] ->
  delta_distance pyfftw (Obj f1 s1) (Obj false true) weights1 weights2 diam lags1 lags2 true (VDict r) (VDict r2) w = (w', Ok u) ->
  ran_with w w' DELTA 2 (nth r (heap w) []).
Proof. exact delta_wrong. Qed.
Print Assumptions C260_second_refuted.
Example C260_second_case : exists w', delta_distance true (Obj true true) (Obj false true) VNone VNone (VNum (3/2)) (VObj 5) (VObj 5) true (VDict 2) (VDict 5) users = (w', Ok tt) /\
  (exists c, new_calls users w' 2 "fit_plaw" [c] /\ get (e_args c) "xlow" = Some (VQty 3)) /\ ~ ran_with users w' DELTA 2 (nth 5 (heap users) []).
Proof.
  destruct (delta_fine true (Obj true true) (Obj false true) VNone VNone (VNum (3/2)) (VObj 5) (VObj 5) 2 (VDict 5) users eq_refl I) as (w' & E & _); [right; now exists 5|apply (dict_documented DELTA 2); auto|apply (dict_documented DELTA 5); auto|].
  exists w'. split; [exact E|]. destruct (delta_wrong true true true _ _ _ _ _ 2 5 users w' tt eq_refl E) as (_ & (c & C & G & _)).
  assert (X : get (e_args c) "xlow" = Some (VQty 3)) by (rewrite (G "xlow" VNone); [reflexivity|now left]). split; [exists c; split; [exact C|exact X]|].
  intros (_ & (c' & C' & G' & _)). pose proof (new_calls_same _ _ _ _ _ _ C C') as Q. injection Q as <-. rewrite (G' "xlow" VNone) in X; [discriminate|now left].
Qed.
(** An object cannot be compared with data *)
Theorem C260_mixed_refuted : forall pyfftw f s weights1 weights2 diam lags1 lags2 common kw kw2 w,
  delta_distance pyfftw Data (Obj f s) weights1 weights2 diam lags1 lags2 common kw kw2 w = (w, Err TypeError) /\
  exists e, delta_distance pyfftw (Obj f s) Data weights1 weights2 diam lags1 lags2 common kw kw2 w = (w, Err e).
Proof. intros. split; [reflexivity|]. destruct common; eexists; reflexivity. Qed.
Print Assumptions C260_mixed_refuted.
(** use_common_lags=False never works *)
Theorem C260_own_lags_refuted : forall pyfftw d1 d2 weights1 weights2 diam lags1 lags2 kw kw2 w, both_data_or_objects d1 d2 ->
  delta_distance pyfftw d1 d2 weights1 weights2 diam lags1 lags2 false kw kw2 w = (w, Err UnboundLocalError).
Proof. intros. destruct d1, d2; try contradiction; reflexivity. Qed.
Print Assumptions C260_own_lags_refuted.
Theorem C260_wavelet_partial : forall pyfftw d1 d2 scales low high r kw2 w w' u, nth 0 (heap w) [] = [] -> (kw2 = VNone \/ exists r2, kw2 = VDict r2) ->
  wavelet_distance pyfftw d1 d2 scales low high (VDict r) kw2 w = (w', Ok u) ->
  exists lo hi, (forall i, i < 2 -> limit_for low i = Some (lo i) /\ limit_for high i = Some (hi i)) /\
  as_asked w w' WAVELET 0 (needs_run d1) ([("xlow", lo 0); ("xhigh", hi 0)] ++ dict_for (heap w) (VDict r) kw2 0) /\
  as_asked w w' WAVELET 1 (needs_run d2) ([("xlow", lo 1); ("xhigh", hi 1)] ++ dict_for (heap w) (VDict r) kw2 1).
Proof. exact wavelet_asked. Qed.
Print Assumptions C260_wavelet_partial.
Theorem C260_wavelet_accepted_partial : forall pyfftw d1 d2 scales low high r kw2 w lo hi, nth 0 (heap w) [] = [] -> (kw2 = VNone \/ exists r2, kw2 = VDict r2) ->
  (forall i, i < 2 -> limit_for low i = Some (lo i) /\ limit_for high i = Some (hi i)) ->
  (forall i, i < 2 -> documented (heap w) WAVELET [("xlow", lo i); ("xhigh", hi i)] (dict_for (heap w) (VDict r) kw2 i)) ->
  exists w', wavelet_distance pyfftw d1 d2 scales low high (VDict r) kw2 w = (w', Ok tt) /\ heap w' = heap w.
Proof. exact wavelet_fine. Qed.
Print Assumptions C260_wavelet_accepted_partial.
Lemma with_limits : forall lo hi, documented (heap users) WAVELET [("xlow", lo); ("xhigh", hi)] (nth 5 (heap users) []).
Proof.
  intros lo hi. unfold documented. split; [intros kv I; cbn in I; cases; subst kv; cbn; auto 20|]. split; [intros kv I; cbn in I; cases; subst kv; reflexivity|].
  split; [eexists; reflexivity|]. split; [intros kv []|]. split; [exists 0; split; reflexivity|]. intros _. exists 0. split; [reflexivity|]. intros n I. cbn in I. cases; subst n; reflexivity.
Qed.
Example C260_wavelet_case : exists w', wavelet_distance true Raw (Object true VNone) VNone (LArrayQ [3; 4])%R LNone (VDict 5) VNone users = (w', Ok tt) /\
  ran_with users w' WAVELET 1 [("xlow", VQty 3); ("xhigh", VNone); ("brk", VQty 8); ("use_pyfftw", VBool true)] /\ (forall c, In c (steps w') -> e_of c <> 2).
Proof.
  destruct (wavelet_fine true Raw (Object true VNone) VNone (LArrayQ [3; 4])%R LNone 5 VNone users (fun i => match i with 0 => VQty 3 | _ => VQty 4 end) (fun _ => VNone) eq_refl) as (w' & E & _);
    [now left|intros i Hi; destruct i as [|[|]]; [split; reflexivity..|lia]|intros i Hi; destruct i as [|[|]]; [apply with_limits..|lia]|].
  exists w'. split; [exact E|]. destruct (wavelet_asked true Raw (Object true VNone) VNone (LArrayQ [3; 4])%R LNone 5 VNone users w' tt eq_refl (or_introl eq_refl) E) as (lo & hi & L & A1 & A2).
  destruct (L 0) as [L1 L2]; [lia|]. injection L1 as L1. injection L2 as L2. rewrite <- L1, <- L2 in A1. split; [exact A1|]. intros c I. exact (A2 (steps w') eq_refl c I).
Qed.
(** The limits are arguments of the distance, not of fit_kwargs *)
Theorem C260_wavelet_limits_partial : forall pyfftw d1 d2 scales low high r kw2 w, limits_fine low high -> needs_run d1 = true ->
  get (nth r (heap w) []) "xlow" <> None \/ get (nth r (heap w) []) "xhigh" <> None ->
  snd (wavelet_distance pyfftw d1 d2 scales low high (VDict r) kw2 w) = Err TypeError.
Proof. exact limits_twice. Qed.
Print Assumptions C260_wavelet_limits_partial.
Example C260_wavelet_limits_case : snd (wavelet_distance true Raw Raw VNone LNone LNone (VDict 2) VNone users) = Err TypeError.
Proof. apply limits_twice; [split; eexists; reflexivity|reflexivity|left; discriminate]. Qed.
