(** Proofs about Model/WaveletRun.v: transforms that are broken power laws. *)
From Coq Require Import Reals List ZArith Arith Bool Lia Lra.
From Verif Require Import Lib.PyBase Lib.Fl Lib.RSum Spec.Segmented Spec.BreakFit Spec.MexHat Spec.ScfSpectrum Model.Units Model.EllipPlaw Model.PspecFit Model.DeltaVar Model.BaseStat Model.Wavelet Model.FitState Model.DeltaVarRun Model.LmSeg Model.BreakFit Model.WaveletRun
  Spec.WaveletRun Proofs.Fl_Proofs Proofs.Ols_Proofs Proofs.DeltaVar2_Proofs Proofs.DeltaVarRun3_Proofs Proofs.Wavelet3_Proofs Proofs.BreakFit_Proofs Proofs.BreakFit2_Proofs Proofs.BreakFit3_Proofs Proofs.WaveletRun_Proofs Proofs.WaveletRun2_Proofs Proofs.WaveletRun3_Proofs Proofs.WaveletRun4_Proofs.
Import ListNotations.
Local Open Scope R_scope.

Lemma in_limits lo hi s : 0 < s -> (forall v, lo = Some v -> 0 < v) -> (forall v, hi = Some v -> 0 < v) ->
  above_limit lo s && below_limit hi s = match lo with Some v => if Rle_dec v s then true else false | None => true end && match hi with Some v => if Rle_dec s v then true else false | None => true end.
Proof.
  intros P L H. unfold above_limit, below_limit. f_equal.
  - destruct lo as [v|]; [|reflexivity]. specialize (L v eq_refl). destruct (Rltb_spec 0 v); [|lra]. rewrite log10_order by assumption. destruct (Rleb_spec v s), (Rle_dec v s); try reflexivity; lra.
  - destruct hi as [v|]; [|reflexivity]. specialize (H v eq_refl). destruct (Rltb_spec 0 v); [|lra]. rewrite log10_order by assumption. destruct (Rleb_spec s v), (Rle_dec s v); try reflexivity; lra.
Qed.
Definition any_row (weighted : bool) (r : point) : fl * fl * fl := (Fin (fst (fst r)), snd (fst r), if weighted then snd r else Fin 1).

Lemma broken_points weighted A s1 s2 B lo hi : 0 < A -> (forall v, lo = Some v -> 0 < v) -> (forall v, hi = Some v -> 0 < v) -> forall l curve, length curve = length l -> Forall (fun s => 0 < s) l ->
  (forall s ve, In (s, ve) (combine l curve) -> inside lo hi s -> fst ve = Fin (broken_plaw A s1 s2 B s) /\ (weighted = true -> exists r, snd ve = Fin r /\ 0 < r)) ->
  exists fs, map (any_row weighted) (fit_points lo hi l curve) = map (broken_row A s1 s2 B) fs /\ map fst fs = scales_within lo hi l /\ forall f, In f fs -> 0 < fst f /\ 0 < snd f.
Proof.
  intros HA PLo PHi. induction l as [|s l IH]; intros curve L PL H.
  - exists []. destruct curve; [|discriminate L]. split; [reflexivity|]. split; [reflexivity|]. intros f [].
  - destruct curve as [|ve curve]; [discriminate L|]. inversion PL as [|? ? P1 P2]; subst. destruct (IH curve) as (fs&E1&E2&E3); [now injection L|assumption|intros; apply H; [now right|assumption]|].
    unfold fit_points in *. cbn [combine filter fst snd]. unfold scales_within in *. cbn [filter]. rewrite <- in_limits by assumption.
    destruct (above_limit lo s && below_limit hi s) eqn:IN; [|exists fs; auto].
    destruct (H s ve (or_introl eq_refl) (limits_inside _ _ _ P1 PLo PHi IN)) as [V W]. pose proof (broken_pos A s1 s2 B s HA) as BP.
    assert (F : exists w, 0 < w /\ (if weighted then weight_of ve else Fin 1) = Fin w).
    { destruct weighted; [|exists 1; split; [lra|reflexivity]]. destruct (W eq_refl) as (r&Er&Pr). destruct ve as [v0 e0]. cbn [fst snd] in *. subst v0 e0. rewrite weight_sound by lra. destruct (Req_EM_T r 0); [lra|]. eexists. split; [|reflexivity].
      assert (0 < 434 / 1000 * r / broken_plaw A s1 s2 B s) by (apply Rdiv_lt_0_compat; lra). apply Rdiv_lt_0_compat; [lra|]. now apply Rmult_lt_0_compat. }
    destruct F as (w&Pw&Ew). exists ((s, w) :: fs). cbn [map fst]. rewrite E1, E2. split; [|split; [reflexivity|]].
    + f_equal. unfold any_row, broken_row, as_row. cbn [fst snd]. rewrite Ew, V. unfold DeltaVar.flog10. destruct (Rltb_spec 0 (broken_plaw A s1 s2 B s)); [|lra]. reflexivity.
    + intros f [<-|Hf]; [cbn [fst snd]; auto|auto].
Qed.

Lemma segmented_rows e weighted pts b out : pspec_seg (e_ols e) (e_boot e) weighted (map (any_row weighted) pts) (DeltaVar.flog10 (Fin b)) = Ok (Some out) ->
  exists g, segmented e weighted pts b = Ok (g, match out with (b, be, slopes, errs, boot, amp) => Broken b be slopes errs boot (below_break b (map (any_row weighted) pts)) end).
Proof.
  unfold pspec_seg, segmented. rewrite !map_map. cbn [any_row fst snd].
  replace (if weighted then Some (map (fun x : point => if weighted then snd x else Fin 1) pts) else None) with (if weighted then Some (map snd pts) else None) by (destruct weighted; reflexivity).
  intros E. match goal with |- context [bind ?L _] => match L with lm_seg_fit _ _ _ _ _ => change (bind L (read_break (e_boot e)) = Ok (Some out)) in E; destruct L as [g|x]; [|discriminate E] end end. cbn [bind] in *. rewrite E. cbn [bind]. exists g. destruct out as [[[[[b1 be] sl] er] bt] amp]. do 3 f_equal.
  unfold below_break. clear. induction pts as [|r pts IH]; [reflexivity|]. cbn [map filter any_row fst snd]. destruct (fltb (Fin (fst (fst r))) (Fin b1)); cbn [length]; now rewrite IH.
Qed.

Lemma within_bounds lo hi l u : In u (scales_within lo hi l) -> Forall (fun s => 0 < s) l -> fst (fit_range l lo hi) <= u <= snd (fit_range l lo hi).
Proof.
  intros H P. unfold scales_within in H. apply filter_In in H. destruct H as [I1 B]. apply andb_prop in B. destruct B as [B1 B2]. unfold fit_range. cbn [fst snd].
  pose proof (min_list_le _ _ I1) as MN. pose proof (max_list_ge _ _ I1) as MX. rewrite Forall_forall in P. pose proof (P _ I1).
  assert (0 < DeltaVar.rmin_list l) by (apply rmin_pos; [intros Z; rewrite Z in I1; destruct I1|now apply Forall_forall]).
  split; [destruct lo as [v|]; [destruct (Rle_dec v u); [assumption|discriminate]|lra]|destruct hi as [v|]; [destruct (Rle_dec u v); [assumption|discriminate]|lra]].
Qed.

Theorem fit_broken : forall e o a l curve lo hi A s1 s2 B B0, scales_are e o l -> Forall (fun s => 0 < s) l -> w_curve o = Some curve -> length curve = length l -> limits_are e a lo hi -> in_pixels (e_stat e) (a_brk a) = Ok (Some B0) ->
  regression (e_ols e) -> s1 <> s2 -> 0 < A -> 0 < B -> 0 < B0 ->
  (forall s ve, In (s, ve) (combine l curve) -> inside lo hi s -> fst ve = Fin (broken_plaw A s1 s2 B s) /\ (a_weighted a = true -> exists r, snd ve = Fin r /\ 0 < r)) ->
  two_sided B (scales_within lo hi l) -> same_gap B B0 (scales_within lo hi l) -> same_gap B (B * B / B0) (scales_within lo hi l) -> (a_min_pts a <= count_below B (scales_within lo hi l))%nat ->
  exists o' C, do_call e o (Fit a) = (o', None) /\ t_slope (w_state o') = Some [Fin s1; Fin s2] /\ t_brk (w_state o') = Some (Some C) /\ (C = B0 \/ C = B * B / B0) /\ w_range o' = Some (fit_range l lo hi).
Proof.
  intros e o a l curve lo hi A s1 s2 B B0 (p&EP&<-) PL EC L (X1&X2&X3&X4) XB REG NE HA HB HB0 H T G G' MP. cbn [do_call]. unfold fit_transform. rewrite EP, EC, X1, X2. cbv zeta. rewrite L, Nat.eqb_refl. cbn [negb]. rewrite XB.
  pose proof (gap_sided _ _ _ G T) as T0. destruct T0 as [(u&_&Hu&_&_&U&_) (q&_&Hq&_&_&Q&_)].
  pose proof (within_bounds lo hi _ _ Hu PL) as WU. pose proof (within_bounds lo hi _ _ Hq PL) as WQ.
  destruct (Rltb_spec B0 (fst (fit_range (q_vals p) lo hi))); [lra|]. destruct (Rltb_spec (snd (fit_range (q_vals p) lo hi)) B0); [lra|]. cbn [orb].
  destruct (broken_points (a_weighted a) A s1 s2 B lo hi HA X3 X4 _ curve L PL H) as (fs&R1&R2&R3). rewrite <- R2 in T, G, G', MP.
  destruct (seg_rows (e_ols e) (e_boot e) (a_weighted a) A s1 s2 B B0 fs REG NE HA HB HB0 R3 T G G') as (C&be&errs&bt&E&HC&PC&GC).
  rewrite <- R1 in E. assert (EB : DeltaVar.flog10 (Fin B0) = Fin (EllipPlaw.log10 B0)). { unfold DeltaVar.flog10. destruct (Rltb_spec 0 B0); [reflexivity|lra]. }
  rewrite <- EB in E. destruct (segmented_rows e (a_weighted a) _ B0 _ E) as (g&SG). rewrite SG. rewrite R1, (count_rows A s1 s2 B C fs PC R3 GC). cbn [kept]. destruct (Nat.ltb_spec (count_below B (map fst fs)) (a_min_pts a)); [lia|]. cbn [negb].
  eexists. exists C. split; [reflexivity|]. cbn [w_state w_range fit_step]. destruct (Nat.ltb_spec (count_below B (map fst fs)) (a_min_pts a)); [lia|]. cbn [t_slope t_brk fst snd]. rewrite pow10_log10 by exact PC. auto.
Qed.
