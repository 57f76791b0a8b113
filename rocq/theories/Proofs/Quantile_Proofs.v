(** np.percentile gives quantiles; quantiles under increasing functions. *)
From Coq Require Import Reals List Arith ZArith Lia Lra Permutation Sorted.
From Verif Require Import Lib.RSum Model.EllipPlaw Spec.Quantile Proofs.EllipFit_Proofs.
Import ListNotations.
Local Open Scope R_scope.

Lemma filter_firstn : forall (P : R -> bool) l k, (forall i, (i < k)%nat -> P (nth i l 0) = true) -> (k <= length l)%nat -> (k <= length (filter P l))%nat.
Proof.
  induction l as [|x l IH]; intros k H Hk; [cbn in *; lia|]. destruct k as [|k]; [lia|]. pose proof (H 0%nat ltac:(lia)) as H0. cbn in H0. cbn. rewrite H0. cbn. cbn in Hk. apply le_n_S. apply IH; [|lia]. intros i Hi. apply (H (S i)). lia.
Qed.
Lemma filter_skipn : forall (P : R -> bool) l k, (forall i, (k <= i < length l)%nat -> P (nth i l 0) = true) -> (length l - k <= length (filter P l))%nat.
Proof.
  induction l as [|x l IH]; intros k H; [cbn; lia|]. destruct k as [|k].
  - pose proof (H 0%nat ltac:(cbn; lia)) as H0. cbn in H0. cbn. rewrite H0. cbn. apply le_n_S. rewrite <- (Nat.sub_0_r (length l)) at 1. apply IH. intros i Hi. apply (H (S i)). cbn. lia.
  - cbn. assert (length l - k <= length (filter P l))%nat by (apply IH; intros i Hi; apply (H (S i)); cbn; lia). destruct (P x); cbn; lia.
Qed.
Lemma filter_perm : forall (P : R -> bool) l l', Permutation l l' -> length (filter P l) = length (filter P l').
Proof. intros P l l' H. induction H; cbn; repeat match goal with |- context [if ?c then _ else _] => destruct c end; cbn; lia. Qed.
Lemma sorted_quantile l q : StronglySorted Rle l -> l <> [] -> 0 <= q <= 100 -> quantile l q (percentile l q).
Proof.
  intros Hs Hl Hq. assert (Hn : (0 < length l)%nat) by (destruct l; [contradiction|cbn; lia]). unfold quantile, percentile. cbv zeta.
  assert (HN : INR (length l) - 1 = INR (length l - 1)) by (rewrite minus_INR by lia; reflexivity). rewrite HN. set (pos := q / 100 * INR (length l - 1)).
  pose proof (pos_INR (length l - 1)) as P.
  assert (B : 0 <= pos <= INR (length l - 1)). { unfold pos. split; [apply Rmult_le_pos; lra|]. rewrite <- (Rmult_1_l (INR (length l - 1))) at 2. apply Rmult_le_compat_r; lra. }
  destruct (Int_part_lt _ _ B) as [I G]. set (i := Z.to_nat (Int_part pos)) in *. set (a := nth i l 0). set (b := nth (Nat.min (S i) (length l - 1)) l 0).
  assert (M : a <= b) by (apply sorted_nth; [exact Hs|lia|lia]).
  assert (V1 : a <= a + (pos - INR i) * (b - a)) by (assert (0 <= (pos - INR i) * (b - a)) by (apply Rmult_le_pos; lra); lra).
  assert (V2 : a + (pos - INR i) * (b - a) <= b) by (assert ((pos - INR i) * (b - a) <= 1 * (b - a)) by (apply Rmult_le_compat_r; lra); lra).
  set (v := a + (pos - INR i) * (b - a)) in *. split.
  - assert (C : (S i <= at_or_below v l)%nat).
    { apply filter_firstn; [|lia]. intros j Hj. destruct (Rle_dec (nth j l 0) v) as [|N]; [reflexivity|]. elim N. apply Rle_trans with a; [|exact V1]. apply sorted_nth; [exact Hs|lia|lia]. }
    apply le_INR in C. rewrite S_INR in C. lra.
  - replace ((1 - q / 100) * INR (length l - 1)) with (INR (length l - 1) - pos) by (unfold pos; ring).
    destruct (Rle_lt_dec (pos - INR i) 0) as [Z|Z].
    + assert (E : v = a) by (unfold v; replace (pos - INR i) with 0 by lra; ring).
      assert (C : (length l - i <= at_or_above v l)%nat).
      { apply filter_skipn. intros j Hj. destruct (Rle_dec v (nth j l 0)) as [|N]; [reflexivity|]. elim N. rewrite E. apply sorted_nth; [exact Hs|lia|lia]. }
      apply le_INR in C. rewrite minus_INR in C by lia. rewrite minus_INR in * by lia. cbn [INR] in *. lra.
    + assert (L : (i < length l - 1)%nat). { apply INR_lt. lra. }
      assert (C : (length l - S i <= at_or_above v l)%nat).
      { apply filter_skipn. intros j Hj. destruct (Rle_dec v (nth j l 0)) as [|N]; [reflexivity|]. elim N. apply Rle_trans with b; [exact V2|]. apply sorted_nth; [exact Hs|lia|lia]. }
      apply le_INR in C. replace (length l - S i)%nat with (length l - 1 - i)%nat in C by lia. rewrite (minus_INR (length l - 1)) in C by lia. lra.
Qed.
Lemma percentile_quantile l q : l <> [] -> 0 <= q <= 100 -> quantile l q (percentile (sort_r l) q).
Proof.
  intros Hl Hq. assert (N : sort_r l <> []). { intros E. pose proof (sort_perm l) as P. rewrite E in P. apply Permutation_nil in P. congruence. }
  destruct (sorted_quantile (sort_r l) q (sort_sorted l) N Hq) as [A B]. unfold quantile, at_or_below, at_or_above in *.
  rewrite (filter_perm _ _ _ (sort_perm l)) in A. rewrite (filter_perm _ _ _ (sort_perm l)) in B. rewrite (Permutation_length (sort_perm l)) in A, B. auto.
Qed.
Lemma filter_map_length : forall (P Q : R -> bool) (f : R -> R) l, (forall x, P (f x) = Q x) -> length (filter P (map f l)) = length (filter Q l).
Proof. intros P Q f l H. induction l as [|x l IH]; [reflexivity|]. cbn. rewrite H. destruct (Q x); cbn; lia. Qed.
Lemma quantile_map l q v f : (forall a b, a < b -> f a < f b) -> quantile l q v -> quantile (map f l) q (f v).
Proof.
  intros F [A B]. assert (M : forall a b, f a <= f b <-> a <= b).
  { intros a b. split; intros H; [destruct (Rle_lt_dec a b) as [|C]; [assumption|apply F in C; lra]|]. destruct (Rle_lt_or_eq_dec a b H) as [C|C]; [apply F in C; lra|subst; lra]. }
  unfold quantile, at_or_below, at_or_above in *. rewrite map_length.
  rewrite (filter_map_length (fun x => if Rle_dec x (f v) then true else false) (fun x => if Rle_dec x v then true else false) f);
    [|intros x; destruct (Rle_dec (f x) (f v)), (Rle_dec x v); try reflexivity; exfalso; rewrite M in *; contradiction].
  rewrite (filter_map_length (fun x => if Rle_dec (f v) x then true else false) (fun x => if Rle_dec v x then true else false) f);
    [|intros x; destruct (Rle_dec (f v) (f x)), (Rle_dec v x); try reflexivity; exfalso; rewrite M in *; contradiction].
  auto.
Qed.
