(** Property C267: fits of power spectra with a break. *)
From Coq Require Import String Reals List ZArith Arith Bool Lia Lra.
From Verif Require Import Lib.PyBase Lib.Fl Spec.Blank Spec.Segmented Spec.BreakFit Spec.PspecFit
  Model.Units Model.EllipPlaw Model.LmSeg Model.BreakFit Model.PspecFit Model.DeltaVar Model.FitState
  Proofs.Ols_Proofs Proofs.BreakFit_Proofs Proofs.BreakFit2_Proofs Proofs.BreakFit3_Proofs Proofs.BreakFit4_Proofs Proofs.BreakFit5_Proofs.
Import ListNotations.
Local Open Scope R_scope.

(** ** C267.  A spectrum that is exactly a broken power law.
    Its two slopes and its amplitude come out of the fit when the start of the break and its
    mirror image lie between the same two frequencies as the break.  Missing: the break, which is
    the start or its mirror image; other starts. *)
Theorem C267_binned_partial : forall ols boot line err o a ps freqs ps1D sd low high A s1 s2 B B0,
  o_ps2D o = Some ps -> o_freqs o = Some freqs -> o_ps1D o = Some ps1D -> o_stddev o = Some sd -> f_unbinned a = false ->
  (f_low a = Some low \/ (f_low a = None /\ low = 2 / INR (Nat.max (length ps) (length (hd [] ps))) /\ (0 < Nat.max (length ps) (length (hd [] ps)))%nat)) ->
  (f_high a = Some high \/ (f_high a = None /\ is_max high freqs)) -> 0 <= low ->
  regression ols -> s1 <> s2 -> 0 < A -> 0 < B -> 0 < B0 -> start_at B0 (f_brk a) (f_log_break a) ->
  let used := filter (fun b => within low high (fst (fst b))) (bins_of freqs ps1D sd) in
  let fs := map (fun b => fst (fst b)) used in
  (forall b, In b used -> counted (f_weighted a) b /\ power_is (broken_plaw A s1 s2 B (fst (fst b))) b) ->
  two_sided B fs -> same_gap B B0 fs -> same_gap B (B * B / B0) fs -> (f_min_pts a <= count_below B fs)%nat ->
  exists o' C, do_fit line err (pspec_seg ols boot (f_weighted a)) o a = Ok o' /\ t_slope (o_state o') = Some [Fin s1; Fin s2] /\ o_amp o' = Some (Fin (log10 A)) /\
    t_brk (o_state o') = Some (Some C) /\ (C = B0 \/ C = B * B / B0).
Proof. exact binned_broken. Qed.
Print Assumptions C267_binned_partial.
Example C267_binned_case : forall line err boot weighted, exists o' C, do_fit line err (pspec_seg ols0 boot weighted) spectrum4 (ask4 (9 / 64) false weighted) = Ok o' /\
  t_slope (o_state o') = Some [Fin (-1); Fin (-3)] /\ t_brk (o_state o') = Some (Some C) /\ (C = 9 / 64 \/ C = 1 / 9).
Proof. exact fit4. Qed.

Theorem C267_unbinned_partial : forall ols boot line err o a ny nx image low high A s1 s2 B B0, (1 <= ny)%nat -> (1 <= nx)%nat -> holds_spectrum o ny nx image ->
  f_unbinned a = true -> f_weighted a = false ->
  (f_low a = Some low \/ (f_low a = None /\ low = 2 / INR (Nat.max ny nx))) ->
  (f_high a = Some high \/ (f_high a = None /\ is_max high (map (mode_freq ny nx) (modes ny nx)))) -> 0 <= low ->
  regression ols -> s1 <> s2 -> 0 < A -> 0 < B -> 0 < B0 -> start_at B0 (f_brk a) (f_log_break a) ->
  let fs := map (mode_freq ny nx) (filter (fun k => within low high (mode_freq ny nx k)) (modes ny nx)) in
  (forall k, In k (modes ny nx) -> low < mode_freq ny nx k <= high -> mode_power ny nx image k = broken_plaw A s1 s2 B (mode_freq ny nx k)) ->
  two_sided B fs -> same_gap B B0 fs -> same_gap B (B * B / B0) fs -> (f_min_pts a <= count_below B fs)%nat ->
  exists o' C, do_fit line err (pspec_seg ols boot false) o a = Ok o' /\ t_slope (o_state o') = Some [Fin s1; Fin s2] /\ o_amp o' = Some (Fin (log10 A)) /\
    t_brk (o_state o') = Some (Some C) /\ (C = B0 \/ C = B * B / B0).
Proof. exact unbinned_broken. Qed.
Print Assumptions C267_unbinned_partial.
Example C267_unbinned_case : forall line err boot, holds_spectrum spectrum9 1 9 image9 /\ exists o' C, do_fit line err (pspec_seg ols0 boot false) spectrum9 (ask9 (2 / 7)) = Ok o' /\
  t_slope (o_state o') = Some [Fin (-1); Fin (-3)] /\ t_brk (o_state o') = Some (Some C) /\ (C = 2 / 7 \/ C = 5 / 18 * (5 / 18) / (2 / 7)).
Proof. intros line err boot. split; [reflexivity|]. exact (fit9 line err boot). Qed.

(** The break itself is not found: a fit started beside it returns the start or its mirror image. *)
Theorem C267_break_refuted : forall line err boot weighted,
  regression ols0 /\ (forall f, In f freqs4 -> 0 < f) /\ o_freqs spectrum4 = Some freqs4 /\ o_ps1D spectrum4 = Some (map (fun f => Fin (broken_plaw 1 (-1) (-3) (1 / 8) f)) freqs4) /\
  exists o' C, do_fit line err (pspec_seg ols0 boot weighted) spectrum4 (ask4 (9 / 64) false weighted) = Ok o' /\ t_brk (o_state o') = Some (Some C) /\ C <> 1 / 8.
Proof. exact break_missed. Qed.
Print Assumptions C267_break_refuted.

(** A break given as a frequency and one given as its log10 are the same. *)
Theorem C267_log_break : forall line err seg o a B, 0 < B ->
  do_fit line err seg o (mk_f (f_unbinned a) (Some B) false (f_low a) (f_high a) (f_min_pts a) (f_weighted a) (f_bootstrap a)) =
  do_fit line err seg o (mk_f (f_unbinned a) (Some (log10 B)) true (f_low a) (f_high a) (f_min_pts a) (f_weighted a) (f_bootstrap a)).
Proof. exact log_break_same. Qed.
Print Assumptions C267_log_break.
Example C267_log_break_case : forall line err boot, is_ok (do_fit line err (pspec_seg ols0 boot false) spectrum4 (ask4 (9 / 64) false false)) = true /\ 0 < 9 / 64.
Proof. intros line err boot. destruct (fit4 line err boot false) as (o'&C&E&_). rewrite E. split; [reflexivity|lra]. Qed.
