(** More list lemmas: slices as firstn/skipn, l2 distance of lists. *)
From Coq Require Import Reals List ZArith Lia Lra Arith.
From Verif Require Import Lib.RSum Lib.Fl Lib.PySlice.
Import ListNotations.
Local Open Scope R_scope.

Lemma map_nth_seq {A} (d : A) l : forall i k, (i + k <= length l)%nat ->
  map (fun j => nth j l d) (seq i k) = firstn k (skipn i l).
Proof.
  intros i k H. apply nth_ext with (d := d) (d' := d).
  - rewrite map_length, seq_length, firstn_length, skipn_length. lia.
  - rewrite map_length, seq_length. intros j Hj.
    rewrite nth_indep with (d' := nth 0%nat l d) by (rewrite map_length, seq_length; auto).
    rewrite (map_nth (fun j => nth j l d)), seq_nth by auto.
    rewrite <- (firstn_skipn i l) at 1. rewrite app_nth2; rewrite firstn_length_le by lia; [|lia].
    replace (i + j - i)%nat with j by lia.
    rewrite <- (firstn_skipn k (skipn i l)) at 1. rewrite app_nth1; [reflexivity|].
    rewrite firstn_length, skipn_length. lia.
Qed.

Lemma slice_range {A} (l : list A) (i j : nat) : (j <= length l)%nat ->
  slice (Some (Z.of_nat i)) (Some (Z.of_nat j)) 1 l = firstn (j - i) (skipn i l).
Proof.
  intros H. destruct l as [|a l'] eqn:E.
  - cbn in H. assert (j = 0%nat) by lia. subst.
    rewrite skipn_nil, firstn_nil. unfold slice. rewrite slice_idx_range by (cbn; lia). reflexivity.
  - rewrite <- E in *. rewrite (slice_map a) by lia. rewrite slice_idx_range by auto.
    destruct (le_lt_dec i j).
    + apply map_nth_seq. lia.
    + replace (j - i)%nat with 0%nat by lia. reflexivity.
Qed.

Lemma slice_from {A} (l : list A) (i : nat) : slice (Some (Z.of_nat i)) None 1 l = skipn i l.
Proof.
  destruct l as [|a l'] eqn:E; [rewrite skipn_nil; unfold slice; rewrite slice_idx_from; reflexivity|]. rewrite <- E.
  rewrite (slice_map a), slice_idx_from by lia.
  destruct (le_lt_dec i (length l)).
  - rewrite map_nth_seq by lia. rewrite firstn_all2; [reflexivity|rewrite skipn_length; lia].
  - rewrite skipn_all2 by lia. now replace (length l - i)%nat with 0%nat by lia.
Qed.

Lemma slice_to {A} (l : list A) (j : nat) : slice None (Some (Z.of_nat j)) 1 l = firstn j l.
Proof.
  destruct l as [|a l'] eqn:E; [rewrite firstn_nil; unfold slice; rewrite slice_idx_to, Nat.min_0_r; reflexivity|]. rewrite <- E.
  rewrite (slice_map a), slice_idx_to by lia. rewrite map_nth_seq by lia. cbn [skipn].
  destruct (le_lt_dec j (length l)).
  - now rewrite Nat.min_l by lia.
  - rewrite Nat.min_r by lia. now rewrite !firstn_all2 by lia.
Qed.

Lemma map2_map_l {A B C D} (f : B -> C -> D) (g : A -> B) l1 l2 : map2 f (map g l1) l2 = map2 (fun a c => f (g a) c) l1 l2.
Proof. revert l2. induction l1 as [|a l1 IH]; intros [|c l2]; cbn; auto. now rewrite IH. Qed.
Lemma map2_map_r {A B C D} (f : A -> C -> D) (g : B -> C) l1 l2 : map2 f l1 (map g l2) = map2 (fun a b => f a (g b)) l1 l2.
Proof. revert l2. induction l1 as [|a l1 IH]; intros [|c l2]; cbn; auto. now rewrite IH. Qed.
Lemma map_map2 {A B C D} (g : C -> D) (f : A -> B -> C) l1 l2 : map g (map2 f l1 l2) = map2 (fun a b => g (f a b)) l1 l2.
Proof. revert l2. induction l1 as [|a l1 IH]; intros [|c l2]; cbn; auto. now rewrite IH. Qed.

Lemma lsum_map2 (f : R -> R -> R) a b : length a = length b ->
  lsum (map2 f a b) = rsum (length a) (fun i => f (nth i a 0) (nth i b 0)).
Proof.
  intros H. rewrite (lsum_nth _ 0), map2_length, H, Nat.min_id. apply rsum_ext. intros i Hi.
  apply map2_nth; lia.
Qed.

Lemma lsum_map2_nonneg (f : R -> R -> R) a b : (forall x y, 0 <= f x y) -> 0 <= lsum (map2 f a b).
Proof.
  intros H. revert b. induction a as [|x a IH]; intros [|y b]; cbn [map2]; try (cbn; lra).
  rewrite lsum_cons. specialize (H x y). specialize (IH b). lra.
Qed.

Lemma slice_from_neg {A} (l : list A) (k : nat) : (1 <= k <= length l)%nat ->
  slice (Some (- Z.of_nat k)%Z) None 1 l = skipn (length l - k) l.
Proof.
  intros H. rewrite <- slice_from. unfold slice. f_equal. unfold slice_idx, slice_bounds, adjust. change (1 <? 0)%Z with false. cbv beta iota zeta.
  destruct (Z.ltb_spec (- Z.of_nat k) 0); [|lia]. destruct (Z.ltb_spec (Z.of_nat (length l - k)) 0); [lia|].
  replace (Z.max 0 (- Z.of_nat k + Z.of_nat (length l))) with (Z.min (Z.of_nat (length l)) (Z.of_nat (length l - k))) by lia. reflexivity.
Qed.
Lemma slice_to_neg {A} (l : list A) (k : nat) : (1 <= k <= length l)%nat ->
  slice None (Some (- Z.of_nat k)%Z) 1 l = firstn (length l - k) l.
Proof.
  intros H. rewrite <- slice_to. unfold slice. f_equal. unfold slice_idx, slice_bounds, adjust. change (1 <? 0)%Z with false. cbv beta iota zeta.
  destruct (Z.ltb_spec (- Z.of_nat k) 0); [|lia]. destruct (Z.ltb_spec (Z.of_nat (length l - k)) 0); [lia|].
  replace (Z.max 0 (- Z.of_nat k + Z.of_nat (length l))) with (Z.min (Z.of_nat (length l)) (Z.of_nat (length l - k))) by lia. reflexivity.
Qed.
