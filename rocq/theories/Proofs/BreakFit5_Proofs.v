(** A row of nine pixels whose power spectrum is a broken power law, and a delta variance with a
    break. *)
From Coq Require Import String Reals List ZArith Arith Bool Lia Lra.
From Coquelicot Require Import Complex.
From Verif Require Import Lib.PyBase Lib.DFT Lib.DFT2 Lib.DFT3 Lib.Fl Lib.RSum Spec.Blank Spec.Segmented Spec.BreakFit Spec.PspecFit
  Model.Units Model.EllipPlaw Model.LmSeg Model.BreakFit Model.PspecFit Model.DeltaVar Model.FitState Model.Psds
  Proofs.Fl_Proofs Proofs.Ols_Proofs Proofs.BreakFit_Proofs Proofs.BreakFit2_Proofs.
Import ListNotations.
Local Open Scope R_scope.

Definition row_of (n : nat) (a : nat -> R) (y x : nat) : R := fst (idft1 n (fun k => RtoC (a k)) x).
Lemma neg_involutive n k : (k < n)%nat -> ((n - (n - k) mod n) mod n = k)%nat.
Proof.
  intros H. destruct (Nat.eq_dec k 0) as [->|N].
  - rewrite Nat.sub_0_r, Nat.mod_same by lia. rewrite Nat.sub_0_r. now apply Nat.mod_same; lia.
  - rewrite (Nat.mod_small (n - k)) by lia. replace (n - (n - k))%nat with k by lia. apply Nat.mod_small. exact H.
Qed.
Lemma row_real n a x : (0 < n)%nat -> (forall k, (k < n)%nat -> a ((n - k) mod n) = a k) -> RtoC (row_of n a 0 x) = idft1 n (fun k => RtoC (a k)) x.
Proof.
  intros Hn S. unfold row_of. set (z := idft1 n (fun k => RtoC (a k)) x). assert (E : Cconj z = z); [|destruct z as [p q]; cbn in *; injection E as E; apply Ceq; cbn; lra].
  unfold z, idft1. rewrite Cconj_mult, Cconj_RtoC, csum_conj. f_equal.
  rewrite <- (csum_reindex n (fun k => Cmult (RtoC (a k)) (Cconj (tw n x k))) (fun k => ((n - k) mod n)%nat)).
  - apply csum_ext. intros k Hk. rewrite Cconj_mult, Cconj_conj, Cconj_RtoC, tw_neg_r by lia. rewrite Cconj_conj, S by exact Hk. reflexivity.
  - intros k Hk. apply Nat.mod_upper_bound. lia.
  - intros i j Hi Hj E. rewrite <- (neg_involutive n i Hi), <- (neg_involutive n j Hj). now rewrite E.
Qed.
Lemma row_power n a k : (0 < n)%nat -> (forall k, (k < n)%nat -> a ((n - k) mod n) = a k) -> (k < n)%nat -> mode_power 1 n (row_of n a) (0%nat, k) = (a k)².
Proof.
  intros Hn S Hk. unfold mode_power. cbn [fst snd]. rewrite <- (Cnorm2_RtoC (a k)). f_equal. rewrite dft2_rows. unfold dft1 at 1. cbn [csum]. rewrite tw_0_l.
  rewrite (dft1_ext n _ (idft1 n (fun k => RtoC (a k)))) by (intros j Hj; apply row_real; assumption). rewrite dft1_idft1 by exact Hk. apply Ceq; cbn; ring.
Qed.

(** Frequencies 1/9, 2/9 below the break, 3/9, 4/9 above *)
Definition freq9 (k : nat) : R := INR (Nat.min k (9 - k)) / 9.
Definition power9 (f : R) : R := broken_plaw 1 (-1) (-3) (5 / 18) f.
Definition image9 : nat -> nat -> R := row_of 9 (fun k => sqrt (power9 (freq9 k))).
Lemma sym9 k : (k < 9)%nat -> freq9 ((9 - k) mod 9) = freq9 k.
Proof. intros H. do 9 (destruct k as [|k]; [reflexivity|]). lia. Qed.
Lemma freq9_mode k : (k < 9)%nat -> mode_freq 1 9 (0%nat, k) = freq9 k.
Proof.
  intros H. unfold mode_freq. cbn [fst snd]. change (axis_freq 1 0) with (0 / 1).
  replace ((0 / 1) ^ 2 + axis_freq 9 k ^ 2) with (Rsqr (axis_freq 9 k)) by (unfold Rsqr; field). rewrite sqrt_Rsqr_abs.
  assert (P : 0 <= freq9 k) by (unfold freq9; apply Rmult_le_pos; [apply pos_INR|lra]). rewrite <- (Rabs_pos_eq (freq9 k) P). unfold axis_freq, freq9.
  do 9 (destruct k as [|k]; [cbn; split_Rabs; lra|]). lia.
Qed.
Lemma power9_mode k : (k < 9)%nat -> mode_power 1 9 image9 (0%nat, k) = power9 (freq9 k).
Proof.
  intros H. unfold image9. rewrite row_power; [|lia| |exact H]; [|intros j Hj; now rewrite sym9]. apply Rsqr_sqrt. left. apply broken_pos. lra.
Qed.
Lemma modes9 : modes 1 9 = map (fun k => (0%nat, k)) (seq 0 9).
Proof. reflexivity. Qed.
Definition ask9 (start : R) : fit_args := mk_f true (Some start) false (Some (1 / 10)) (Some (1 / 2)) 4 false false.
Definition spectrum9 : pobj := mk_p (Some (map (map Fin) (power_ps2D 1 9 image9))) None None None None None None unfitted None None.
Lemma fs9 : map (mode_freq 1 9) (filter (fun k => within (1 / 10) (1 / 2) (mode_freq 1 9 k)) (modes 1 9)) = [1 / 9; 2 / 9; 3 / 9; 4 / 9; 4 / 9; 3 / 9; 2 / 9; 1 / 9].
Proof.
  rewrite modes9. cbn [seq map filter]. rewrite !freq9_mode by lia.
  assert (F0 : freq9 0 = 0) by (unfold freq9; cbn; lra). assert (F1 : freq9 1 = 1 / 9) by (unfold freq9; cbn; lra). assert (F2 : freq9 2 = 2 / 9) by (unfold freq9; cbn; lra).
  assert (F3 : freq9 3 = 3 / 9) by (unfold freq9; cbn; lra). assert (F4 : freq9 4 = 4 / 9) by (unfold freq9; cbn; lra). assert (F5 : freq9 5 = 4 / 9) by (unfold freq9; cbn; lra).
  assert (F6 : freq9 6 = 3 / 9) by (unfold freq9; cbn; lra). assert (F7 : freq9 7 = 2 / 9) by (unfold freq9; cbn; lra). assert (F8 : freq9 8 = 1 / 9) by (unfold freq9; cbn; lra).
  rewrite F0, F1, F2, F3, F4, F5, F6, F7, F8. unfold within.
  destruct (Rlt_dec (1 / 10) 0); [lra|]. destruct (Rlt_dec (1 / 10) (1 / 9)); [|lra]. destruct (Rle_dec (1 / 9) (1 / 2)); [|lra]. destruct (Rlt_dec (1 / 10) (2 / 9)); [|lra]. destruct (Rle_dec (2 / 9) (1 / 2)); [|lra].
  destruct (Rlt_dec (1 / 10) (3 / 9)); [|lra]. destruct (Rle_dec (3 / 9) (1 / 2)); [|lra]. destruct (Rlt_dec (1 / 10) (4 / 9)); [|lra]. destruct (Rle_dec (4 / 9) (1 / 2)); [|lra].
  cbn [map]. rewrite !freq9_mode by lia. rewrite F1, F2, F3, F4, F5, F6, F7, F8. reflexivity.
Qed.
Lemma gap9 c : 2 / 9 < c < 3 / 9 -> same_gap (5 / 18) c [1 / 9; 2 / 9; 3 / 9; 4 / 9; 4 / 9; 3 / 9; 2 / 9; 1 / 9].
Proof. intros H v Hv. repeat (destruct Hv as [<-|Hv]; [lra|]). destruct Hv. Qed.
Lemma fit9 line err boot : exists o' C, do_fit line err (pspec_seg ols0 boot false) spectrum9 (ask9 (2 / 7)) = Ok o' /\
  t_slope (o_state o') = Some [Fin (-1); Fin (-3)] /\ t_brk (o_state o') = Some (Some C) /\ (C = 2 / 7 \/ C = 5 / 18 * (5 / 18) / (2 / 7)).
Proof.
  destruct (unbinned_broken ols0 boot line err spectrum9 (ask9 (2 / 7)) 1 9 image9 (1 / 10) (1 / 2) 1 (-1) (-3) (5 / 18) (2 / 7) (le_n 1) ltac:(lia) eq_refl eq_refl eq_refl
    (or_introl eq_refl) (or_introl eq_refl) ltac:(lra) regression_ols0 ltac:(lra) ltac:(lra) ltac:(lra) ltac:(lra) eq_refl) as (o'&C&E&S&_&K&H); rewrite ?fs9.
  - intros k Hk _. rewrite modes9 in Hk. apply in_map_iff in Hk. destruct Hk as [j [<- Hj]]. apply in_seq in Hj. rewrite power9_mode, freq9_mode by lia. reflexivity.
  - split; [exists (1 / 9), (2 / 9)|exists (3 / 9), (4 / 9)]; cbn [In].
    + split; [now left|]. split; [right; now left|]. lra.
    + split; [right; right; now left|]. split; [right; right; right; now left|]. lra.
  - apply gap9. lra.
  - apply gap9. lra.
  - unfold count_below. cbn [filter]. destruct (Rlt_dec (1 / 9) (5 / 18)); [|lra]. destruct (Rlt_dec (2 / 9) (5 / 18)); [|lra]. destruct (Rlt_dec (3 / 9) (5 / 18)); [lra|]. destruct (Rlt_dec (4 / 9) (5 / 18)); [lra|]. cbn. lia.
  - exists o', C. auto.
Qed.
