(** A spectrum and a delta variance with a break, and where the fit leaves it. *)
From Coq Require Import String Reals List ZArith Arith Bool Lia Lra.
From Verif Require Import Lib.PyBase Lib.Fl Spec.Blank Spec.Segmented Spec.BreakFit Spec.PspecFit
  Model.Units Model.EllipPlaw Model.LmSeg Model.BreakFit Model.PspecFit Model.DeltaVar Model.FitState
  Proofs.Fl_Proofs Proofs.Ols_Proofs Proofs.BreakFit_Proofs Proofs.BreakFit2_Proofs.
Import ListNotations.
Local Open Scope R_scope.

(** Four bins, slopes -1 and -3, the break at 1/8 *)
Definition freqs4 : list R := [1 / 32; 1 / 16; 1 / 4; 1 / 2].
Definition power4 (f : R) : R := broken_plaw 1 (-1) (-3) (1 / 8) f.
Definition spectrum4 : pobj := mk_p (Some [[Fin 1]]) (Some freqs4) (Some (map (fun f => Fin (power4 f)) freqs4)) (Some [Fin 1; Fin 1; Fin 1; Fin 1]) None None None unfitted None None.
Definition ask4 (start : R) (log_break weighted : bool) : fit_args := mk_f false (Some start) log_break (Some (1 / 64)) None 2 weighted false.
Lemma used4 : filter (fun b => within (1 / 64) (1 / 2) (fst (fst b))) (bins_of freqs4 (map (fun f => Fin (power4 f)) freqs4) [Fin 1; Fin 1; Fin 1; Fin 1]) =
  map (fun f => (f, Fin (power4 f), Fin 1)) freqs4.
Proof.
  unfold bins_of, freqs4. cbn [map combine filter fst snd]. unfold within.
  destruct (Rlt_dec (1 / 64) (1 / 32)); [|lra]. destruct (Rle_dec (1 / 32) (1 / 2)); [|lra]. destruct (Rlt_dec (1 / 64) (1 / 16)); [|lra]. destruct (Rle_dec (1 / 16) (1 / 2)); [|lra].
  destruct (Rlt_dec (1 / 64) (1 / 4)); [|lra]. destruct (Rle_dec (1 / 4) (1 / 2)); [|lra]. destruct (Rlt_dec (1 / 64) (1 / 2)); [|lra]. destruct (Rle_dec (1 / 2) (1 / 2)); [|lra]. reflexivity.
Qed.
Lemma freqs4_of : map (fun b : R * fl * fl => fst (fst b)) (map (fun f => (f, Fin (power4 f), Fin 1)) freqs4) = freqs4.
Proof. reflexivity. Qed.
Lemma counted4 weighted b : In b (map (fun f => (f, Fin (power4 f), Fin 1)) freqs4) -> counted weighted b /\ power_is (power4 (fst (fst b))) b.
Proof. intros H. apply in_map_iff in H. destruct H as [f [<- _]]. cbn [fst snd counted power_is]. split; [|reflexivity]. split; [eauto|]. intros _. exists 1. split; [reflexivity|lra]. Qed.
Lemma sided4 : two_sided (1 / 8) freqs4.
Proof.
  unfold freqs4. split; [exists (1 / 32), (1 / 16)|exists (1 / 4), (1 / 2)]; cbn [In].
  - split; [now left|]. split; [right; now left|]. lra.
  - split; [right; right; now left|]. split; [right; right; right; now left|]. lra.
Qed.
Lemma gap4 c : 1 / 16 < c < 1 / 4 -> same_gap (1 / 8) c freqs4.
Proof. intros H v [<-|[<-|[<-|[<-|[]]]]]; lra. Qed.
Lemma count4 : count_below (1 / 8) freqs4 = 2%nat.
Proof.
  unfold count_below, freqs4. cbn [filter]. destruct (Rlt_dec (1 / 32) (1 / 8)); [|lra]. destruct (Rlt_dec (1 / 16) (1 / 8)); [|lra]. destruct (Rlt_dec (1 / 4) (1 / 8)); [lra|]. destruct (Rlt_dec (1 / 2) (1 / 8)); [lra|]. reflexivity.
Qed.
Lemma max4 : is_max (1 / 2) freqs4.
Proof. split; [right; right; right; now left|]. intros y [<-|[<-|[<-|[<-|[]]]]]; lra. Qed.
Lemma fit4 line err boot weighted : exists o' C, do_fit line err (pspec_seg ols0 boot weighted) spectrum4 (ask4 (9 / 64) false weighted) = Ok o' /\
  t_slope (o_state o') = Some [Fin (-1); Fin (-3)] /\ t_brk (o_state o') = Some (Some C) /\ (C = 9 / 64 \/ C = 1 / 9).
Proof.
  destruct (binned_broken ols0 boot line err spectrum4 (ask4 (9 / 64) false weighted) _ _ _ _ (1 / 64) (1 / 2) 1 (-1) (-3) (1 / 8) (9 / 64) eq_refl eq_refl eq_refl eq_refl eq_refl
    (or_introl eq_refl) (or_intror (conj eq_refl max4)) ltac:(lra) regression_ols0 ltac:(lra) ltac:(lra) ltac:(lra) ltac:(lra) eq_refl) as (o'&C&E&S&_&K&H); rewrite ?used4, ?freqs4_of.
  - intros b Hb. exact (counted4 weighted b Hb).
  - exact sided4.
  - apply gap4. lra.
  - replace (1 / 8 * (1 / 8) / (9 / 64)) with (1 / 9) by lra. apply gap4. lra.
  - rewrite count4. cbn. lia.
  - exists o', C. split; [exact E|]. split; [exact S|]. split; [exact K|]. destruct H as [H|H]; [now left|right; lra].
Qed.
Theorem break_missed : forall line err boot weighted,
  regression ols0 /\ (forall f, In f freqs4 -> 0 < f) /\ o_freqs spectrum4 = Some freqs4 /\ o_ps1D spectrum4 = Some (map (fun f => Fin (broken_plaw 1 (-1) (-3) (1 / 8) f)) freqs4) /\
  exists o' C, do_fit line err (pspec_seg ols0 boot weighted) spectrum4 (ask4 (9 / 64) false weighted) = Ok o' /\ t_brk (o_state o') = Some (Some C) /\ C <> 1 / 8.
Proof.
  intros line err boot weighted. split; [exact regression_ols0|]. split; [intros f [<-|[<-|[<-|[<-|[]]]]]; lra|]. split; [reflexivity|]. split; [reflexivity|].
  destruct (fit4 line err boot weighted) as (o'&C&E&_&K&H). exists o', C. split; [exact E|]. split; [exact K|]. destruct H; lra.
Qed.
