(** A run of the delta variance on a curve that is a broken power law. *)
From Coq Require Import String Reals List ZArith Arith Bool Lia Lra.
From Verif Require Import Lib.PyBase Lib.Fl Lib.RSum Spec.Blank Spec.Segmented Spec.BreakFit
  Model.Units Model.EllipPlaw Model.LmSeg Model.BreakFit Model.PspecFit Model.DeltaVar Model.FitState Model.DeltaVarRun
  Proofs.Fl_Proofs Proofs.Ols_Proofs Proofs.BreakFit_Proofs Proofs.BreakFit2_Proofs Proofs.BreakFit3_Proofs Proofs.DeltaVarRun_Proofs.
Import ListNotations.
Local Open Scope R_scope.

Theorem run_broken : forall ols boot e o c a ers A s1 s2 B B0, v_seg e = dv_seg ols boot -> known (c_boundary c) = true ->
  (forall l c', In l (d_lags o) -> c_boundary c' = c_boundary c -> c_others c' = c_others c -> v_value e c' l = (Fin (broken_plaw A s1 s2 B l), Fin (ers l))) ->
  (forall l, In l (d_lags o) -> 0 < l /\ ers l <> 0) -> f_xlow a = None -> f_xhigh a = None -> DeltaVarRun.in_pixels (v_stat e) (DeltaVarRun.f_brk a) = Ok (Some B0) ->
  regression ols -> s1 <> s2 -> 0 < A -> 0 < B -> 0 < B0 ->
  two_sided B (d_lags o) -> same_gap B B0 (d_lags o) -> same_gap B (B * B / B0) (d_lags o) -> (3 <= count_below B (d_lags o))%nat ->
  exists o' C, run e o c a = (o', None) /\ t_slope (d_fit o') = Some [Fin s1; Fin s2] /\ t_brk (d_fit o') = Some (Some C) /\ (C = B0 \/ C = B * B / B0).
Proof.
  intros ols boot e o c a ers A s1 s2 B B0 ES K V P XL XH XB REG NE HA HB HB0 T G G' MP. unfold run, compute.
  destruct (d_lags o) as [|l0 ls] eqn:EL; [cbn in MP; lia|]. cbn [c_boundary c_keep]. rewrite K. cbn [also]. rewrite <- EL in *.
  assert (E1 : map fst (map (fun l => (l, ers l)) (d_lags o)) = d_lags o) by (rewrite map_map; cbn [fst]; apply map_id).
  apply (dv_broken ols boot e _ a (map (fun l => (l, ers l)) (d_lags o)) A s1 s2 B B0); rewrite ?E1; auto.
  - cbn [d_curve]. apply f_equal. rewrite map_map. cbn [fst snd]. apply map_ext_in. intros l Hl. now apply V.
  - intros p Hp. apply in_map_iff in Hp. destruct Hp as [l [<- Hl]]. cbn [fst snd]. now apply P.
Qed.

(** A curve that steepens at a lag of 8 pixels, measured at five lags. *)
Definition lags5 : list R := [3; 4; 5; 12; 24].
Definition env5 (boot : LmSeg.seg_fit -> list fl) : dv_env :=
  mk_dv (mk_stat (Some 1) None) 48 (fun _ l => (Fin (broken_plaw 1 1 2 8 l), Fin (1 / 10))) (fun _ _ => []) (fun _ => (NaN, NaN)) (fun _ _ => (NaN, NaN)) (dv_seg ols0 boot).
Definition at9 : fargs := mk_fargs None None (Some (mk_q [9] pix)) false.
Lemma gap5 c : 5 < c < 12 -> same_gap 8 c lags5.
Proof. intros H v Hv. repeat (destruct Hv as [<-|Hv]; [lra|]). destruct Hv. Qed.
Theorem run5 : forall boot, exists o o' C, new_dv (env5 boot) (LNumbers lags5) 25 = Ok o /\ run (env5 boot) o wrap at9 = (o', None) /\
  t_slope (d_fit o') = Some [Fin 1; Fin 2] /\ t_brk (d_fit o') = Some (Some C) /\ (C = 9 \/ C = 64 / 9).
Proof.
  intros boot. unfold new_dv, lags_of. cbn [bind]. change (v_side (env5 boot)) with 48%nat. rewrite lags_ok_toy by (unfold lags5; cbn; repeat constructor; lra). cbn [bind].
  eexists. destruct (run_broken ols0 boot (env5 boot) (mk_dvo lags5 None [("_convolved_arrays"%string, []); ("_convolved_weights"%string, [])] None unfitted) wrap at9 (fun _ => 1 / 10) 1 1 2 8 9)
    as (o'&C&E&S&K&H); cbn [d_lags]; try reflexivity; try exact regression_ols0; try lra.
  - intros l Hl. split; [|lra]. unfold lags5 in Hl. repeat (destruct Hl as [<-|Hl]; [lra|]). destruct Hl.
  - split; [exists 3, 4|exists 12, 24]; unfold lags5; cbn [In]; (split; [tauto|]); (split; [tauto|]); lra.
  - apply gap5. lra.
  - apply gap5. lra.
  - unfold count_below, lags5. cbn [filter]. destruct (Rlt_dec 3 8); [|lra]. destruct (Rlt_dec 4 8); [|lra]. destruct (Rlt_dec 5 8); [|lra]. destruct (Rlt_dec 12 8); [lra|]. destruct (Rlt_dec 24 8); [lra|]. cbn. lia.
  - exists o', C. split; [reflexivity|]. split; [exact E|]. split; [exact S|]. split; [exact K|]. destruct H as [H|H]; [now left|right; lra].
Qed.
Theorem break5_missed : forall boot, exists o o' C, new_dv (env5 boot) (LNumbers lags5) 25 = Ok o /\ run (env5 boot) o wrap at9 = (o', None) /\
  d_curve o' = Some (map (fun l => (Fin (broken_plaw 1 1 2 8 l), Fin (1 / 10))) lags5) /\ t_brk (d_fit o') = Some (Some C) /\ C <> 8.
Proof.
  intros boot. destruct (run5 boot) as (o&o'&C&E1&E2&_&K&H). exists o, o', C. split; [exact E1|]. split; [exact E2|]. split; [|split; [exact K|destruct H; lra]].
  revert E1 E2. unfold new_dv, lags_of. cbn [bind]. change (v_side (env5 boot)) with 48%nat. rewrite lags_ok_toy by (unfold lags5; cbn; repeat constructor; lra). cbn [bind].
  intros E1. injection E1 as <-. unfold run, compute. cbn [d_lags]. change (d_lags _) with lags5.
  intros E2. apply (f_equal fst) in E2. cbn [fst] in E2. rewrite <- E2. unfold lags5 at 1. cbn [c_boundary wrap known String.eqb Ascii.eqb Bool.eqb orb also].
  destruct (fit_lags (env5 boot) (mk_dvo lags5 (Some (map (v_value (env5 boot) (mk_copts (c_boundary wrap) false (c_others wrap))) lags5)) [("_convolved_arrays"%string, []); ("_convolved_weights"%string, [])] None unfitted) at9) as [_ L].
  exact L.
Qed.
