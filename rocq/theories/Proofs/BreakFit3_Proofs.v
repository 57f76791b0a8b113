(** Proofs about Model/BreakFit.v: broken power laws in the fit of the delta variance. *)
From Coq Require Import String Reals List ZArith Arith Bool Lia Lra.
From Verif Require Import Lib.PyBase Lib.Arr Lib.Fl Lib.RSum Spec.Blank Spec.Segmented Spec.BreakFit Spec.ScfSpectrum
  Model.Units Model.EllipPlaw Model.LmSeg Model.BreakFit Model.PspecFit Model.DeltaVar Model.FitState Model.DeltaVarRun
  Proofs.Fl_Proofs Proofs.DeltaVar2_Proofs Proofs.Wavelet3_Proofs Proofs.BreakFit_Proofs Proofs.BreakFit2_Proofs.
Import ListNotations.
Local Open Scope R_scope.

Lemma dv_seg_rows ols boot pts b0 bs : dv_seg ols boot pts b0 bs =
  (out <- pspec_seg ols boot true (map (fun r => (Fin (fst (fst r)), snd (fst r), snd r)) pts) (Fin b0) ;;
   match out with
   | None => Ok Unbroken
   | Some (b, be, slopes, errs, boot, amp) => Ok (Broken b be slopes errs boot (below_break b (map (fun r => (Fin (fst (fst r)), snd (fst r), snd r)) pts)))
   end).
Proof.
  unfold dv_seg, pspec_seg. rewrite !map_map. cbn [fst snd]. destruct (lm_seg_fit _ _ _ _ _) as [g|x]; [|reflexivity]. cbn [bind]. destruct (read_break boot g) as [[[[[[[b be] sl] er] bt] amp]|]|x]; cbn [bind]; try reflexivity.
  apply f_equal. f_equal. unfold below_break. induction pts as [|r pts IH]; [reflexivity|]. cbn [map filter fst snd]. destruct (fltb (Fin (fst (fst r))) (Fin b)); cbn [length]; now rewrite IH.
Qed.

Lemma points_rows A s1 s2 B (lv : list (R * R)) : 0 < A -> (forall p, In p lv -> 0 < fst p /\ snd p <> 0) ->
  exists fs, map (fun r => (Fin (fst (fst r)), snd (fst r), snd r)) (points None None (map fst lv) (map (fun p => (Fin (broken_plaw A s1 s2 B (fst p)), Fin (snd p))) lv)) = map (broken_row A s1 s2 B) fs /\
    map fst fs = map fst lv /\ forall f, In f fs -> 0 < fst f /\ 0 < snd f.
Proof.
  intros HA. unfold points. induction lv as [|[l e] lv IH]; intros HP.
  - exists []. split; [reflexivity|]. split; [reflexivity|]. intros f [].
  - destruct IH as [fs [E1 [E2 E3]]]; [intros; apply HP; now right|]. destruct (HP (l, e) (or_introl eq_refl)) as [Hl He]. cbn [fst snd] in Hl, He.
    exists ((l, 1 / (e * e)) :: fs). cbn [map combine filter fst snd above_limit below_limit andb]. cbn [above_limit below_limit andb fst snd] in E1. rewrite E1. cbn [map fst]. rewrite E2.
    assert (Z : e * e <> 0) by (intros Z; apply Rmult_integral in Z; tauto). split; [|split; [reflexivity|]].
    + f_equal. unfold broken_row, as_row. cbn [fst snd]. unfold fsqr. cbn [fmul]. rewrite fdiv_fin by exact Z. unfold DeltaVar.flog10. pose proof (broken_pos A s1 s2 B l HA). destruct (Rltb_spec 0 (broken_plaw A s1 s2 B l)); [|lra]. reflexivity.
    + intros f [<-|Hf]; [|auto]. cbn [fst snd]. split; [exact Hl|]. apply Rdiv_lt_0_compat; [lra|]. change (0 < Rsqr e). now apply Rsqr_pos_lt.
Qed.

Theorem dv_broken : forall ols boot e o a lv A s1 s2 B B0, v_seg e = dv_seg ols boot ->
  d_lags o = map fst lv -> d_curve o = Some (map (fun p => (Fin (broken_plaw A s1 s2 B (fst p)), Fin (snd p))) lv) ->
  (forall p, In p lv -> 0 < fst p /\ snd p <> 0) -> f_xlow a = None -> f_xhigh a = None -> DeltaVarRun.in_pixels (v_stat e) (DeltaVarRun.f_brk a) = Ok (Some B0) ->
  regression ols -> s1 <> s2 -> 0 < A -> 0 < B -> 0 < B0 ->
  two_sided B (map fst lv) -> same_gap B B0 (map fst lv) -> same_gap B (B * B / B0) (map fst lv) -> (3 <= count_below B (map fst lv))%nat ->
  exists o' C, fit_plaw e o a = (o', None) /\ t_slope (d_fit o') = Some [Fin s1; Fin s2] /\ t_brk (d_fit o') = Some (Some C) /\ (C = B0 \/ C = B * B / B0).
Proof.
  intros ols boot e o a lv A s1 s2 B B0 ES EL EC HP XL XH XB REG NE HA HB HB0 T G G' MP. unfold fit_plaw. rewrite EC, XL, XH. cbn [DeltaVarRun.in_pixels]. cbn [d_lags d_curve d_kept d_range d_fit].
  rewrite EL. rewrite !map_length, Nat.eqb_refl. cbn [negb]. rewrite XB. cbn [given_or fst snd].
  pose proof (gap_sided _ _ _ G T) as T0. destruct T0 as [(u&_&Hu&_&_&U&_) (q&_&Hq&_&_&Q&_)].
  assert (NN : map fst lv <> []) by (intros Z; rewrite Z in Hu; destruct Hu).
  assert (POS : forall l, In l (map fst lv) -> 0 < l) by (intros l Hl; apply in_map_iff in Hl; destruct Hl as [p [<- Hp]]; now apply HP).
  pose proof (min_list_le _ _ Hu) as MN. pose proof (max_list_ge _ _ Hq) as MX. assert (MP0 : 0 < DeltaVar.rmin_list (map fst lv)) by (apply rmin_pos; [exact NN|now apply Forall_forall]).
  unfold default_range. cbn [fst snd]. destruct (Rltb_spec B0 (99 / 100 * DeltaVar.rmin_list (map fst lv))); [lra|]. destruct (Rltb_spec (101 / 100 * DeltaVar.rmax_list (map fst lv)) B0); [lra|]. cbn [orb].
  destruct (points_rows A s1 s2 B lv HA HP) as [fs [R1 [R2 R3]]].
  rewrite ES, dv_seg_rows, R1. rewrite <- R2 in T, G, G', MP.
  destruct (seg_rows ols boot true A s1 s2 B B0 fs REG NE HA HB HB0 R3 T G G') as (C&be&errs&bt&E&HC&PC&GC).
  change (DeltaVarRun.log10 B0) with (EllipPlaw.log10 B0). rewrite E. cbn [bind]. rewrite (count_rows A s1 s2 B C fs PC R3 GC).
  eexists. exists C. split; [reflexivity|]. cbn [d_fit fit_step]. destruct (Nat.ltb_spec (count_below B (map fst fs)) 3); [lia|]. cbn [t_slope t_brk fst snd]. rewrite pow10_log10 by exact PC. auto.
Qed.
