From Coq Require Import Reals List Bool ZArith Lia Lra Arith.
From Verif Require Import Lib.PyBase Lib.RSum Lib.Fl Lib.Arr Spec.Blank Spec.Bins Spec.Tree Model.StatsUtils Model.Dendro Proofs.Dendro_Proofs.
Import ListNotations.
Local Open Scope R_scope.

Lemma argmax_from_spec l : forall pre pos, (pos < length pre)%nat -> first_largest (fun k => nth k (pre ++ l) 0) (length pre) pos ->
  first_largest (fun k => nth k (pre ++ l) 0) (length (pre ++ l)) (argmax_from (nth pos (pre ++ l) 0) pos (length pre) l).
Proof.
  induction l as [|x l IH]; intros pre pos Hp F; cbn [argmax_from]; [rewrite app_nil_r in *; exact F|].
  assert (E : pre ++ x :: l = (pre ++ [x]) ++ l) by now rewrite <- app_assoc.
  assert (L : S (length pre) = length (pre ++ [x])) by (rewrite app_length; cbn; lia).
  assert (X : nth (length pre) (pre ++ x :: l) 0 = x) by (rewrite app_nth2 by lia; now rewrite Nat.sub_diag).
  destruct (Rltb_spec (nth pos (pre ++ x :: l) 0) x) as [G|G].
  - pose proof (IH (pre ++ [x]) (length pre)) as Q. rewrite <- E, <- L, X in Q. apply Q; [lia|]. split; [lia|]. intros j Hj. destruct F as [_ F]. rewrite X.
    destruct (Nat.eq_dec j (length pre)) as [->|N]; [rewrite X; split; [lra|lia]|]. destruct (F j ltac:(lia)). split; [lra|intros; lra].
  - pose proof (IH (pre ++ [x]) pos) as Q. rewrite <- E, <- L in Q. apply Q; [lia|]. destruct F as [F1 F]. split; [lia|]. intros j Hj.
    destruct (Nat.eq_dec j (length pre)) as [->|N]; [rewrite X; split; [lra|lia]|]. apply F. lia.
Qed.
Lemma argmax_spec l p : argmax l = Ok p -> first_largest (fun k => nth k l 0) (length l) p.
Proof.
  destruct l as [|x l]; [discriminate|]. cbn [argmax]. intros E. inversion E; subst. apply (argmax_from_spec l [x] 0%nat); [cbn; lia|]. cbn [length]. split; [lia|]. intros j Hj. assert (j = 0)%nat by lia. subst j. split; [lra|lia].
Qed.
Lemma argmax_ok l : l <> [] -> exists p, argmax l = Ok p.
Proof. destruct l; [contradiction|]. eexists; reflexivity. Qed.

Lemma half_odd h : ((2 * h + 1 - 1) / 2 = h)%nat.
Proof. replace (2 * h + 1 - 1)%nat with (h * 2)%nat by lia. apply Nat.div_mul. lia. Qed.
Lemma half_even h : (1 <= h)%nat -> ((2 * h - 1) / 2 = h - 1)%nat.
Proof. intros H. replace (2 * h - 1)%nat with (1 + (h - 1) * 2)%nat by lia. rewrite Nat.div_add by lia. reflexivity. Qed.

Lemma std_window_odd y h : (1 <= h)%nat -> (2 * h + 1 <= length y)%nat ->
  exists b, std_window y (2 * h + 1) = Ok b /\ (h <= b)%nat /\ (b + h < length y)%nat /\
    first_largest (fun k => sqrt (rvar (window y k (2 * h)))) (length y - 2 * h) (b - h).
Proof.
  intros H L. unfold std_window. rewrite half_odd. destruct (Nat.ltb_spec (length y + 1) (2 * h + 1)); [lia|]. destruct (Nat.ltb_spec (length y + 1 - (2 * h + 1)) (length y - 2 * h)); [lia|].
  destruct (Nat.eqb_spec h 0); [lia|]. set (l := map _ _). assert (LL : length l = (length y - 2 * h)%nat) by (unfold l; now rewrite map_length, seq_length).
  destruct (argmax_ok l) as [p E]; [intros Z; rewrite Z in LL; cbn in LL; lia|]. rewrite E. cbn [bind]. apply argmax_spec in E. rewrite LL in E. exists (p + h)%nat. split; [reflexivity|]. destruct E as [E1 E2].
  assert (N : forall k, (k < length y - 2 * h)%nat -> nth k l 0 = sqrt (rvar (window y k (2 * h)))).
  { intros k Hk. unfold l. erewrite nth_indep by (rewrite map_length, seq_length; exact Hk). rewrite (map_nth (fun k => sqrt (rvar (firstn (2 * h) (skipn k y)))) _ 0%nat). now rewrite seq_nth by exact Hk. }
  split; [lia|]. split; [lia|]. replace (p + h - h)%nat with p by lia. split; [exact E1|]. intros j Hj. rewrite <- !N by lia. now apply E2.
Qed.
Lemma std_window_short y size : (length y + 1 < size)%nat -> std_window y size = Err ValueError.
Proof. intros H. unfold std_window. destruct (Nat.ltb_spec (length y + 1) size); [reflexivity|lia]. Qed.
Lemma std_window_even y h : (1 <= h)%nat -> (2 * h <= length y + 1)%nat -> std_window y (2 * h) = Err IndexError.
Proof.
  intros H L. unfold std_window. rewrite half_even by exact H. destruct (Nat.ltb_spec (length y + 1) (2 * h)); [lia|]. destruct (Nat.ltb_spec (length y + 1 - 2 * h) (length y - 2 * (h - 1))); [reflexivity|lia].
Qed.

Lemma rvar2 a b : rvar [a; b] = (a - b) * (a - b) / 4.
Proof. unfold rvar, rmean. cbn [map lsum fold_right length INR]. field. Qed.
Lemma rvar3 a b c : rvar [a; b; c] = (a * a + b * b + c * c) / 3 - ((a + b + c) / 3) * ((a + b + c) / 3).
Proof. unfold rvar, rmean. cbn [map lsum fold_right length INR]. field. Qed.
Lemma std_window_cex : exists b, std_window [0; 2; 0; 3] 3 = Ok b /\ ~ first_largest (fun k => sqrt (rvar (window [0; 2; 0; 3] k 3))) 2 (b - 1).
Proof.
  exists 1%nat. split.
  - unfold std_window. change ((3 - 1) / 2)%nat with 1%nat. cbn [length Nat.add Nat.ltb Nat.leb Nat.mul Nat.sub Nat.eqb seq map]. 
    cbn [firstn skipn argmax argmax_from]. rewrite !rvar2. replace ((2 - 0) * (2 - 0) / 4) with 1 by field. replace ((0 - 2) * (0 - 2) / 4) with 1 by field. rewrite sqrt_1. destruct (Rltb_spec 1 1); [lra|]. reflexivity.
  - intros [_ F]. destruct (F 1%nat ltac:(lia)) as [F1 _]. unfold window in F1. cbn [skipn firstn Nat.sub] in F1. rewrite !rvar3 in F1.
    assert (G : sqrt ((0 * 0 + 2 * 2 + 0 * 0) / 3 - (0 + 2 + 0) / 3 * ((0 + 2 + 0) / 3)) < sqrt ((2 * 2 + 0 * 0 + 3 * 3) / 3 - (2 + 0 + 3) / 3 * ((2 + 0 + 3) / 3))) by (apply sqrt_lt_1; lra). lra.
Qed.

(** The points of the tail fit. *)
Lemma fit_points deltas nums h pts : (1 <= h)%nat -> length deltas = length nums ->
  fit_numfeat deltas nums (2 * h + 1) = Ok pts ->
  let kept := filter (fun p => Nat.ltb 1 (snd p)) (combine deltas nums) in
  exists b, pts = skipn b kept /\ (h <= b)%nat /\ (h + 1 <= length pts)%nat /\ (b + length pts = length kept)%nat /\
    first_largest (fun k => sqrt (rvar (window (map (fun p => INR (snd p)) kept) k (2 * h)))) (length kept - 2 * h) (b - h).
Proof.
  cbn zeta. intros H L. unfold fit_numfeat. destruct (Nat.eqb (length nums) 1); [discriminate|]. set (kept := filter _ _). intros E.
  destruct (le_lt_dec (2 * h + 1) (length kept)) as [G|G].
  - destruct (std_window_odd (map (fun p => INR (snd p)) kept) h H) as [b [Eb [B1 [B2 B3]]]]; [now rewrite map_length|]. rewrite Eb in E. cbn [bind] in E. rewrite map_length in *.
    assert (SL : length (skipn b kept) = (length kept - b)%nat) by apply skipn_length.
    destruct (Nat.ltb_spec (length (skipn b kept)) 2); [discriminate|]. inversion E; subst. exists b. rewrite SL. repeat split; try lia; apply B3; assumption.
  - exfalso. unfold std_window in E. rewrite half_odd, map_length in E. destruct (Nat.ltb_spec (length kept + 1) (2 * h + 1)); [discriminate|].
    destruct (Nat.ltb_spec (length kept + 1 - (2 * h + 1)) (length kept - 2 * h)); [discriminate|]. destruct (Nat.eqb_spec h 0); [lia|].
    replace (length kept - 2 * h)%nat with 0%nat in E by lia. cbn in E. discriminate.
Qed.
Lemma fit_ok deltas nums h : (1 <= h)%nat -> (2 <= length nums)%nat -> 
  (2 * h + 1 <= length (filter (fun p : R * nat => Nat.ltb 1 (snd p)) (combine deltas nums)))%nat ->
  exists pts, fit_numfeat deltas nums (2 * h + 1) = Ok pts.
Proof.
  intros H L G. unfold fit_numfeat. destruct (Nat.eqb_spec (length nums) 1); [lia|]. set (kept := filter _ _) in *.
  destruct (std_window_odd (map (fun p => INR (snd p)) kept) h H) as [b [Eb [B1 [B2 B3]]]]; [now rewrite map_length|]. rewrite Eb. cbn [bind]. rewrite map_length in B2.
  assert (SL : length (skipn b kept) = (length kept - b)%nat) by apply skipn_length.
  destruct (Nat.ltb_spec (length (skipn b kept)) 2); [lia|]. eexists; reflexivity.
Qed.
Lemma fit_fail deltas nums h : (1 <= h)%nat -> 
  (length (filter (fun p : R * nat => Nat.ltb 1 (snd p)) (combine deltas nums)) < 2 * h + 1)%nat -> fit_numfeat deltas nums (2 * h + 1) = Err ValueError.
Proof.
  intros H G. unfold fit_numfeat. destruct (Nat.eqb_spec (length nums) 1); [reflexivity|]. set (kept := filter _ _) in *.
  unfold std_window. rewrite half_odd, map_length. destruct (Nat.ltb_spec (length kept + 1) (2 * h + 1)); [reflexivity|].
  destruct (Nat.ltb_spec (length kept + 1 - (2 * h + 1)) (length kept - 2 * h)); [lia|]. destruct (Nat.eqb_spec h 0); [lia|].
  replace (length kept - 2 * h)%nat with 0%nat by lia. reflexivity.
Qed.
