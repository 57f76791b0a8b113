(** Property C268: fits of delta variances with a break. *)
From Coq Require Import String Reals List ZArith Arith Bool Lia Lra.
From Verif Require Import Lib.PyBase Lib.Fl Spec.Blank Spec.Segmented Spec.BreakFit
  Model.Units Model.EllipPlaw Model.LmSeg Model.BreakFit Model.PspecFit Model.DeltaVar Model.FitState Model.DeltaVarRun
  Proofs.Ols_Proofs Proofs.DeltaVarRun_Proofs Proofs.BreakFit6_Proofs.
Import ListNotations.
Local Open Scope R_scope.

(** ** C268.  A run of the delta variance on a curve that is exactly a broken power law.  Missing:
    the break; limits; other starts. *)
Theorem C268_slopes_partial : forall ols boot e o c a ers A s1 s2 B B0, v_seg e = dv_seg ols boot -> known (c_boundary c) = true ->
  (forall l c', In l (d_lags o) -> c_boundary c' = c_boundary c -> c_others c' = c_others c -> v_value e c' l = (Fin (broken_plaw A s1 s2 B l), Fin (ers l))) ->
  (forall l, In l (d_lags o) -> 0 < l /\ ers l <> 0) -> f_xlow a = None -> f_xhigh a = None -> DeltaVarRun.in_pixels (v_stat e) (DeltaVarRun.f_brk a) = Ok (Some B0) ->
  regression ols -> s1 <> s2 -> 0 < A -> 0 < B -> 0 < B0 ->
  two_sided B (d_lags o) -> same_gap B B0 (d_lags o) -> same_gap B (B * B / B0) (d_lags o) -> (3 <= count_below B (d_lags o))%nat ->
  exists o' C, run e o c a = (o', None) /\ t_slope (d_fit o') = Some [Fin s1; Fin s2] /\ t_brk (d_fit o') = Some (Some C) /\ (C = B0 \/ C = B * B / B0).
Proof. exact run_broken. Qed.
Print Assumptions C268_slopes_partial.
Example C268_slopes_case : forall boot, exists o o' C, new_dv (env5 boot) (LNumbers lags5) 25 = Ok o /\ run (env5 boot) o wrap at9 = (o', None) /\
  t_slope (d_fit o') = Some [Fin 1; Fin 2] /\ t_brk (d_fit o') = Some (Some C) /\ (C = 9 \/ C = 64 / 9).
Proof. exact run5. Qed.

(** The break is not found here either. *)
Theorem C268_break_refuted : forall boot, exists o o' C, new_dv (env5 boot) (LNumbers lags5) 25 = Ok o /\ run (env5 boot) o wrap at9 = (o', None) /\
  d_curve o' = Some (map (fun l => (Fin (broken_plaw 1 1 2 8 l), Fin (1 / 10))) lags5) /\ t_brk (d_fit o') = Some (Some C) /\ C <> 8.
Proof. exact break5_missed. Qed.
Print Assumptions C268_break_refuted.
