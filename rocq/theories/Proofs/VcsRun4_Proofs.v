(** Proofs about Model/VcsRun.v: the statements over histories. *)
From Coq Require Import Reals List Arith Bool Lia Lra.
From Verif Require Import Lib.PyBase Lib.RSum Lib.Fl Lib.Arr Model.Psds Model.EllipPlaw Model.Units Model.DeltaVar Model.LmSeg Model.BreakFit Model.VcsFit Model.VcsRun
  Spec.Segmented Spec.BreakFit Spec.VcsFit Spec.VcsRun Proofs.VcsFit_Proofs Proofs.VcsRun_Proofs Proofs.VcsRun2_Proofs Proofs.VcsRun3_Proofs.
Import ListNotations.
Local Open Scope R_scope.

Section Histories.
Variables nz ny nx : nat.
Variable cube : nat -> nat -> nat -> fl.
Variable to_freq : quantity -> result R.
Variable knots : list R -> list fl -> result (list R).
Variable ols : list R -> option (list R) -> list (list R) -> fit_result.
Variable boot : seg_fit -> list fl.
Hypothesis SZ : (1 <= nz)%nat /\ (1 <= ny)%nat /\ (1 <= nx)%nat.
Notation do_fit := (do_fit nz to_freq knots ols boot).
Notation run := (run nz ny nx cube to_freq knots ols boot).
Notation history := (history nz ny nx cube to_freq knots ols boot).
Notation spectrum := (vcs_ps1D nz ny nx cube).

Lemma spectrum_of h ps : v_ps1D (history fresh h) = Some ps -> ps = spectrum.
Proof. intros E. destruct (history_spectrum nz ny nx cube to_freq knots ols boot h fresh (or_introl eq_refl)) as [N|N]; congruence. Qed.
Theorem history_fit h a o' : do_fit (history fresh h) a = (o', None) \/ run (history fresh h) a = (o', None) ->
  exists low high pts b g slopes errs, low_limit to_freq nz (a_low a) low /\ high_limit to_freq nz (a_high a) high /\ points_of nz spectrum low high pts /\
    match a_breaks a with
    | Some v => b = as_start (a_log a) v
    | None => exists ks bs v, knots (vcs_x pts) (map (fun p => flog10 (snd p)) pts) = Ok ks /\ vcs_start (vcs_x pts) ks = Ok bs /\ In v bs /\ b = as_start (a_log a) v
    end /\
    lm_seg_fit ols (map Fin (vcs_x pts)) (map (fun p => flog10 (snd p)) pts) b None = Ok g /\ get_slopes g = Ok (slopes, errs) /\
    shown o' = (Ok slopes, Ok (if a_boot a then removelast (tl (boot g)) else errs), Ok (g_brk g), Ok (g_brk_err g)) /\ v_low o' = Some low /\ v_high o' = Some high.
Proof.
  destruct SZ as (Z & Y & X).
  assert (G : forall o, (v_ps1D o = None \/ v_ps1D o = Some spectrum) -> do_fit o a = (o', None) -> exists low high pts b g slopes errs, low_limit to_freq nz (a_low a) low /\ high_limit to_freq nz (a_high a) high /\ points_of nz spectrum low high pts /\
    match a_breaks a with
    | Some v => b = as_start (a_log a) v
    | None => exists ks bs v, knots (vcs_x pts) (map (fun p => flog10 (snd p)) pts) = Ok ks /\ vcs_start (vcs_x pts) ks = Ok bs /\ In v bs /\ b = as_start (a_log a) v
    end /\
    lm_seg_fit ols (map Fin (vcs_x pts)) (map (fun p => flog10 (snd p)) pts) b None = Ok g /\ get_slopes g = Ok (slopes, errs) /\
    shown o' = (Ok slopes, Ok (if a_boot a then removelast (tl (boot g)) else errs), Ok (g_brk g), Ok (g_brk_err g)) /\ v_low o' = Some low /\ v_high o' = Some high).
  { intros o P D. destruct (fit_shown nz to_freq knots ols boot o a o' D) as (low & high & ps & pts & g & sl & er & b & EL & EH & EP & EQ & EG & GS & -> & ST).
    assert (ps = spectrum) by (destruct P; congruence). subst ps. exists low, high, pts, b, g, sl, er. split; [now apply low_limit_ok|]. split; [apply high_limit_ok; [lia|exact EH]|].
    split; [apply points_filter; [lia|apply ps1D_length; lia|exact EQ]|]. split; [exact ST|]. split; [exact EG|]. split; [exact GS|]. split; [reflexivity|]. split; reflexivity. }
  intros [D|D]; [eapply G; [|exact D]|eapply G; [|exact D]].
  - apply history_spectrum. now left.
  - right. reflexivity.
Qed.
Theorem history_run h a : snd (run (history fresh h) a) = snd (run fresh a) /\ (snd (run fresh a) = None -> run (history fresh h) a = run fresh a).
Proof. apply fit_forgets. reflexivity. Qed.
Theorem unlogged h a : knots_inside knots -> a_breaks a = None -> a_log a = false -> snd (do_fit (history fresh h) a) <> None /\ snd (run (history fresh h) a) <> None.
Proof.
  intros K N L. destruct SZ as (Z & Y & X). split; apply search_not_logged; try assumption; try lia.
  - intros p E. rewrite (spectrum_of h p E). apply ps1D_length; lia.
  - intros p E. injection E as <-. apply ps1D_length; lia.
Qed.
Theorem run_broken h a low high A s1 s2 B B0 : low_limit to_freq nz (a_low a) low -> high_limit to_freq nz (a_high a) high -> regression ols ->
  0 < A -> 0 < B -> 0 < B0 -> s1 <> s2 -> follows nz spectrum low high (broken_plaw A s1 s2 B) ->
  two_sided B (fitted_freqs nz low high) -> same_gap B B0 (fitted_freqs nz low high) -> same_gap B (B * B / B0) (fitted_freqs nz low high) ->
  (start_at B0 (a_breaks a) (a_log a) \/
   a_breaks a = None /\ a_log a = true /\ exists ks rest, knots (map log10 (fitted_freqs nz low high)) (map (fun f => Fin (log10 (broken_plaw A s1 s2 B f))) (fitted_freqs nz low high)) = Ok ks /\
     vcs_start (map log10 (fitted_freqs nz low high)) ks = Ok (log10 B0 :: rest)) ->
  exists o' C, run (history fresh h) a = (o', None) /\ slope o' = Ok [Fin s1; Fin s2] /\ brk o' = Ok (ln C / ln 10) /\ (C = B0 \/ C = B * B / B0).
Proof.
  destruct SZ as (Z & Y & X). intros EL EH REG HA HB HB0 NE F T G G' ST.
  destruct (law_broken nz to_freq knots ols boot ltac:(lia) (compute nz ny nx cube (history fresh h)) a low high spectrum A s1 s2 B B0 EL EH eq_refl (ps1D_length nz ny nx cube Z Y X) REG HA HB HB0 NE F T G G' ST) as (o' & E & C & _ & S & K & HC).
  exists o', C. auto.
Qed.
Theorem run_plain h a low high A s B0 : low_limit to_freq nz (a_low a) low -> high_limit to_freq nz (a_high a) high -> regression ols ->
  0 < A -> 0 < B0 -> follows nz spectrum low high (fun f => A * Rpower f s) -> two_sided B0 (fitted_freqs nz low high) -> start_at B0 (a_breaks a) (a_log a) ->
  exists o' m, run (history fresh h) a = (o', None) /\ slope o' = Ok [Fin s] /\ brk o' = Ok (ln m / ln 10) /\ In m (fitted_freqs nz low high) /\ forall f, In f (fitted_freqs nz low high) -> f <= m.
Proof.
  destruct SZ as (Z & Y & X). intros EL EH REG HA HB0 F T ST.
  destruct (law_plain nz to_freq knots ols boot ltac:(lia) (compute nz ny nx cube (history fresh h)) a low high spectrum A s B0 EL EH eq_refl (ps1D_length nz ny nx cube Z Y X) REG HA HB0 F T ST) as (o' & m & E & _ & S & K & HC).
  exists o', m. auto.
Qed.
Theorem run_search h a low high A s ks bs : low_limit to_freq nz (a_low a) low -> high_limit to_freq nz (a_high a) high -> regression ols ->
  0 < A -> follows nz spectrum low high (fun f => A * Rpower f s) -> a_breaks a = None ->
  knots (map log10 (fitted_freqs nz low high)) (map (fun f => Fin (log10 (A * Rpower f s))) (fitted_freqs nz low high)) = Ok ks -> vcs_start (map log10 (fitted_freqs nz low high)) ks = Ok bs ->
  (forall b, In b bs -> two_sided b (map log10 (fitted_freqs nz low high))) -> (2 <= length bs)%nat -> snd (run (history fresh h) a) = Some ValueError.
Proof.
  destruct SZ as (Z & Y & X). intros EL EH REG HA F N EK EV T L.
  destruct (law_search nz to_freq knots ols boot ltac:(lia) (compute nz ny nx cube (history fresh h)) a low high spectrum A s ks bs EL EH eq_refl (ps1D_length nz ny nx cube Z Y X) REG HA F N EK EV T L) as (o' & m & E & _). unfold VcsRun.run. now rewrite E.
Qed.
End Histories.
