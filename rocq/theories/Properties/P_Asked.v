(** Property C284: a break asked for of a plain power law. *)
From Coq Require Import String Reals List ZArith Arith Bool Lia Lra.
From Verif Require Import Lib.PyBase Lib.Fl Spec.Blank Spec.Segmented Spec.BreakFit Spec.PspecFit Spec.MexHat Spec.ScfSpectrum Model.Units Model.EllipPlaw Model.PspecFit Model.DeltaVar Model.Wavelet Model.FitState Model.DeltaVarRun Model.LmSeg Model.BreakFit Model.WaveletRun
  Spec.WaveletRun Spec.Asked Proofs.ScfSpectrum2_Proofs Proofs.Ols_Proofs Proofs.DeltaVarRun_Proofs Proofs.BreakFit4_Proofs Proofs.BreakFit5_Proofs Proofs.BreakFit6_Proofs Proofs.WaveletRun6_Proofs Proofs.Asked_Proofs Proofs.Asked2_Proofs.
Import ListNotations.
Local Open Scope R_scope.

(** ** C284.  Power spectra: binned ... *)
Theorem C284_binned : forall ols boot line err seg o a ps freqs ps1D sd low high A s B0,
  o_ps2D o = Some ps -> o_freqs o = Some freqs -> o_ps1D o = Some ps1D -> o_stddev o = Some sd -> f_unbinned a = false ->
  (f_low a = Some low \/ (f_low a = None /\ low = 2 / INR (Nat.max (length ps) (length (hd [] ps))) /\ (0 < Nat.max (length ps) (length (hd [] ps)))%nat)) ->
  (f_high a = Some high \/ (f_high a = None /\ is_max high freqs)) -> 0 <= low ->
  regression ols -> least_squares line -> answers line -> 0 < A -> 0 < B0 -> start_at B0 (PspecFit.f_brk a) (f_log_break a) ->
  let used := filter (fun b => within low high (fst (fst b))) (bins_of freqs ps1D sd) in
  (forall b, In b used -> counted (f_weighted a) b /\ power_is (A * Rpower (fst (fst b)) s) b) -> two_sided B0 (map (fun b => fst (fst b)) used) ->
  exists o1 o2, do_fit line err (pspec_seg ols boot (f_weighted a)) o a = Ok o1 /\ do_fit line err seg o (without_break a) = Ok o2 /\ same_but_error o1 o2 /\
    t_brk (o_state o1) = Some None /\ t_slope (o_state o1) = Some [Fin s] /\ o_amp o1 = Some (Fin (EllipPlaw.log10 A)) /\
    t_brk_err (o_state o1) = t_brk_err (o_state o) /\ t_brk_err (o_state o2) = Some None.
Proof. exact binned_asked. Qed.
Print Assumptions C284_binned.
Example C284_binned_case : forall err seg boot weighted, exists o1 o2, do_fit solver_1D err (pspec_seg ols0 boot weighted) plain4 (ask4 (1 / 8) false weighted) = Ok o1 /\
  do_fit solver_1D err seg plain4 (without_break (ask4 (1 / 8) false weighted)) = Ok o2 /\ same_but_error o1 o2 /\ t_slope (o_state o1) = Some [Fin (-2)] /\ t_brk_err (o_state o1) = None /\ t_brk_err (o_state o2) = Some None.
Proof. exact fit_plain4. Qed.
(** ... and not. *)
Theorem C284_unbinned : forall ols boot line err seg o a ny nx image low high A s B0, (1 <= ny)%nat -> (1 <= nx)%nat -> holds_spectrum o ny nx image ->
  f_unbinned a = true -> f_weighted a = false ->
  (f_low a = Some low \/ (f_low a = None /\ low = 2 / INR (Nat.max ny nx))) ->
  (f_high a = Some high \/ (f_high a = None /\ is_max high (map (mode_freq ny nx) (modes ny nx)))) -> 0 <= low ->
  regression ols -> least_squares line -> answers line -> 0 < A -> 0 < B0 -> start_at B0 (PspecFit.f_brk a) (f_log_break a) ->
  (forall k, In k (modes ny nx) -> low < mode_freq ny nx k <= high -> mode_power ny nx image k = A * Rpower (mode_freq ny nx k) s) ->
  two_sided B0 (map (mode_freq ny nx) (filter (fun k => within low high (mode_freq ny nx k)) (modes ny nx))) ->
  exists o1 o2, do_fit line err (pspec_seg ols boot false) o a = Ok o1 /\ do_fit line err seg o (without_break a) = Ok o2 /\ same_but_error o1 o2 /\
    t_brk (o_state o1) = Some None /\ t_slope (o_state o1) = Some [Fin s] /\ o_amp o1 = Some (Fin (EllipPlaw.log10 A)) /\
    t_brk_err (o_state o1) = t_brk_err (o_state o) /\ t_brk_err (o_state o2) = Some None.
Proof. exact unbinned_asked. Qed.
Print Assumptions C284_unbinned.
Example C284_unbinned_case : forall err seg boot, holds_spectrum plain9 1 9 plain_image9 /\ exists o1 o2, do_fit solver_1D err (pspec_seg ols0 boot false) plain9 (ask9 (2 / 7)) = Ok o1 /\
  do_fit solver_1D err seg plain9 (without_break (ask9 (2 / 7))) = Ok o2 /\ same_but_error o1 o2 /\ t_slope (o_state o1) = Some [Fin (-2)].
Proof. exact fit_plain9. Qed.

(** Delta variance: the run leaves the very object it leaves without the break. *)
Theorem C284_delta_variance : forall ols boot e o c a ers A s B0, v_seg e = dv_seg ols boot -> known (c_boundary c) = true ->
  (forall l c', In l (d_lags o) -> c_boundary c' = c_boundary c -> c_others c' = c_others c -> v_value e c' l = (Fin (A * Rpower l s), Fin (ers l))) ->
  (forall l, In l (d_lags o) -> 0 < l /\ ers l <> 0) -> f_xlow a = None -> f_xhigh a = None -> DeltaVarRun.in_pixels (v_stat e) (DeltaVarRun.f_brk a) = Ok (Some B0) ->
  regression ols -> 0 < A -> 0 < B0 -> two_sided B0 (d_lags o) ->
  DeltaVarRun.run e o c a = DeltaVarRun.run e o c (dv_without_break a) /\ snd (DeltaVarRun.run e o c a) = None.
Proof. exact dv_run_asked. Qed.
Print Assumptions C284_delta_variance.
Example C284_delta_variance_case : forall boot, exists o o', new_dv (env_plain boot) (LNumbers lags5) 25 = Ok o /\ DeltaVarRun.run (env_plain boot) o wrap BreakFit6_Proofs.at9 = (o', None) /\
  DeltaVarRun.run (env_plain boot) o wrap (dv_without_break BreakFit6_Proofs.at9) = (o', None) /\ t_slope (d_fit o') <> None.
Proof. exact dv_plain5. Qed.

(** Wavelet transform, within any limits. *)
Theorem C284_wavelet : forall e o norm a l lo hi A p B0, regression (e_ols e) -> (3 <= e_ny e)%nat -> (3 <= e_nx e)%nat -> reached e o -> scales_are e o l -> limits_are e a lo hi -> in_pixels (e_stat e) (a_brk a) = Ok (Some B0) ->
  0 < A -> 0 < B0 -> two_sided B0 (scales_within lo hi l) ->
  (forall s ve, In (s, ve) (combine l (compute_transform (e_half e) (e_ny e) (e_nx e) (e_img e) norm l)) -> inside lo hi s -> fst ve = Fin (A * Rpower s p) /\ (a_weighted a = true -> exists r, snd ve = Fin r /\ 0 < r)) ->
  exists o', run e o norm a = (o', None) /\ run e o norm (w_without_break a) = (o', None) /\ one_slope o' p /\ model_is o' (ln A / ln 10) p.
Proof. exact wavelet_asked. Qed.
Print Assumptions C284_wavelet.
Example C284_wavelet_case : forall norm : bool, exists o', run sky (sky_object scales4) norm asked = (o', None) /\ run sky (sky_object scales4) norm (w_without_break asked) = (o', None) /\ one_slope o' (if norm then -2 else 0).
Proof. exact sky_asked. Qed.
