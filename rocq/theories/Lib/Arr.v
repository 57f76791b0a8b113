(** Arrays as lists of rows / planes, and slice assignment. *)
From Coq Require Import List ZArith Lia Arith.
From Verif Require Import Lib.PySlice.
Import ListNotations.

(** The list [f 0; ...; f (n-1)], and its 2D and 3D versions. *)
Definition tab1 {A} (n : nat) (f : nat -> A) : list A := map f (seq 0 n).
Definition tab2 {A} (n0 n1 : nat) (f : nat -> nat -> A) : list (list A) :=
  tab1 n0 (fun i => tab1 n1 (f i)).
Definition tab3 {A} (n0 n1 n2 : nat) (f : nat -> nat -> nat -> A) : list (list (list A)) :=
  tab1 n0 (fun i => tab2 n1 n2 (f i)).

Fixpoint upd {A} (l : list A) (i : nat) (v : A) : list A :=
  match l, i with
  | [], _ => []
  | _ :: r, O => v :: r
  | x :: r, S j => x :: upd r j v
  end.

(** [a[start:stop:step] = vals] for [vals] of the length of the slice (numpy
    raises ValueError otherwise). The right-hand side is evaluated before the
    assignment, as numpy guarantees for overlapping memory. *)
Definition assign_slice {A} (start stop : option Z) (step : Z) (l vals : list A) : list A :=
  fold_left (fun acc p => upd acc (fst p) (snd p))
            (combine (slice_idx start stop step (length l)) vals) l.

Lemma tab1_length {A} n (f : nat -> A) : length (tab1 n f) = n.
Proof. unfold tab1. now rewrite map_length, seq_length. Qed.

Lemma tab1_nth {A} n (f : nat -> A) i d : (i < n)%nat -> nth i (tab1 n f) d = f i.
Proof.
  intros Hi. unfold tab1. rewrite nth_indep with (d' := f 0%nat) by (rewrite map_length, seq_length; auto).
  rewrite map_nth, seq_nth; auto.
Qed.

Lemma tab1_nth_error {A} n (f : nat -> A) i : (i < n)%nat -> nth_error (tab1 n f) i = Some (f i).
Proof.
  intros Hi. rewrite nth_error_nth' with (d := f 0%nat) by (rewrite tab1_length; auto).
  now rewrite tab1_nth.
Qed.

Lemma tab1_ext {A} n (f g : nat -> A) : (forall i, (i < n)%nat -> f i = g i) -> tab1 n f = tab1 n g.
Proof. intros H. apply map_ext_in. intros i Hi. apply in_seq in Hi. apply H; lia. Qed.

Lemma tab2_ext {A} n0 n1 (f g : nat -> nat -> A) :
  (forall i j, (i < n0)%nat -> (j < n1)%nat -> f i j = g i j) -> tab2 n0 n1 f = tab2 n0 n1 g.
Proof. intros H. apply tab1_ext; intros. apply tab1_ext; auto. Qed.

Lemma tab3_ext {A} n0 n1 n2 (f g : nat -> nat -> nat -> A) :
  (forall i j k, (i < n0)%nat -> (j < n1)%nat -> (k < n2)%nat -> f i j k = g i j k) ->
  tab3 n0 n1 n2 f = tab3 n0 n1 n2 g.
Proof. intros H. apply tab1_ext; intros. apply tab2_ext; auto. Qed.

Lemma tab1_map {A B} n (f : nat -> A) (g : A -> B) : map g (tab1 n f) = tab1 n (fun i => g (f i)).
Proof. unfold tab1. now rewrite map_map. Qed.

Lemma tab1_S {A} n (f : nat -> A) : tab1 (S n) f = f 0%nat :: tab1 n (fun i => f (S i)).
Proof. unfold tab1. cbn [seq map]. now rewrite <- seq_shift, map_map. Qed.

Lemma tab1_app {A} m n (f g : nat -> A) :
  tab1 m f ++ tab1 n g = tab1 (m + n) (fun i => if Nat.ltb i m then f i else g (i - m)%nat).
Proof.
  unfold tab1. rewrite seq_app, map_app. f_equal.
  - apply map_ext_in. intros i Hi. apply in_seq in Hi. destruct (Nat.ltb_spec i m); [reflexivity|lia].
  - cbn [plus]. revert f g. induction n as [|n IH]; intros f g; [reflexivity|].
    rewrite !seq_S, !map_app, IH with (f := f). f_equal. cbn [map plus].
    destruct (Nat.ltb_spec (m + n) m); [lia|]. do 2 f_equal. lia.
Qed.

Lemma list_tab {A} (l : list A) d : l = tab1 (length l) (fun i => nth i l d).
Proof.
  apply nth_ext with (d := d) (d' := d); [now rewrite tab1_length|].
  intros n Hn. now rewrite tab1_nth.
Qed.

Lemma slice_tab1 {A} start stop step n (f : nat -> A) : (step <> 0)%Z ->
  slice start stop step (tab1 n f) = map f (slice_idx start stop step n).
Proof.
  intros Hs. rewrite (slice_map (f 0%nat)) by auto. rewrite tab1_length.
  apply map_ext_in. intros i Hi. apply slice_idx_in in Hi; auto. now rewrite tab1_nth.
Qed.

Lemma upd_length {A} (l : list A) i v : length (upd l i v) = length l.
Proof. revert i; induction l as [|x l IH]; intros [|i]; cbn; auto. Qed.

Lemma upd_nth {A} (l : list A) i v j d : (i < length l)%nat ->
  nth j (upd l i v) d = if Nat.eqb i j then v else nth j l d.
Proof.
  revert i j; induction l as [|x l IH]; intros [|i] [|j] H; cbn in *; try lia; auto.
  rewrite IH by lia. reflexivity.
Qed.

(** Descending slices [a[-k:0:-1]] and [a[:0:-1]]. *)
Lemma slice_idx_desc (k m : nat) : (1 <= k <= m)%nat ->
  slice_idx (Some (- Z.of_nat k)%Z) (Some 0%Z) (-1) m = tab1 (m - k) (fun j => (m - k - j)%nat).
Proof.
  intros Hk. unfold slice_idx, slice_bounds, adjust. change (-1 <? 0)%Z with true. cbv beta iota zeta.
  destruct (Z.ltb_spec (- Z.of_nat k) 0); [|lia].
  change (0 <? 0)%Z with false. cbv iota.
  replace (Z.max (-1) (- Z.of_nat k + Z.of_nat m)) with (Z.of_nat (m - k)) by lia.
  unfold slice_count. change (-1 <? 0)%Z with true. cbv iota.
  destruct (Nat.eq_dec (m - k) 0) as [E|E].
  - rewrite E. destruct (Z.ltb_spec (Z.min (Z.of_nat m - 1) 0) (Z.of_nat 0)) as [L|L].
    + destruct m; [|lia]. lia.
    + reflexivity.
  - replace (Z.min (Z.of_nat m - 1) 0) with 0%Z by lia.
    destruct (Z.ltb_spec 0 (Z.of_nat (m - k))); [|lia].
    replace (Z.to_nat ((Z.of_nat (m - k) - 0 - 1) / - -1 + 1)) with (m - k)%nat.
    + apply map_ext_in. intros j Hj. apply in_seq in Hj. lia.
    + change (- -1)%Z with 1%Z. rewrite Z.div_1_r. lia.
Qed.

Lemma slice_idx_rev_tail (m : nat) : (1 <= m)%nat ->
  slice_idx None (Some 0%Z) (-1) m = tab1 (m - 1) (fun j => (m - 1 - j)%nat).
Proof.
  intros Hm. unfold slice_idx, slice_bounds, adjust. change (-1 <? 0)%Z with true. cbv beta iota zeta.
  change (0 <? 0)%Z with false. cbv iota.
  replace (Z.min (Z.of_nat m - 1) 0) with 0%Z by lia.
  unfold slice_count. change (-1 <? 0)%Z with true. cbv iota.
  destruct (Z.ltb_spec 0 (Z.of_nat m - 1)).
  - replace (Z.to_nat ((Z.of_nat m - 1 - 0 - 1) / - -1 + 1)) with (m - 1)%nat.
    + apply map_ext_in. intros j Hj. apply in_seq in Hj. lia.
    + change (- -1)%Z with 1%Z. rewrite Z.div_1_r. lia.
  - replace (m - 1)%nat with 0%nat by lia. reflexivity.
Qed.

(** Writing a whole block of consecutive positions. *)
Lemma upd_block {A} (vals : list A) : forall (l : list A) s,
  (s + length vals <= length l)%nat ->
  fold_left (fun acc p => upd acc (fst p) (snd p)) (combine (seq s (length vals)) vals) l
  = firstn s l ++ vals ++ skipn (s + length vals) l.
Proof.
  induction vals as [|v vals IH]; intros l s H; cbn [length seq combine fold_left].
  - cbn [app]. rewrite Nat.add_0_r. symmetry. apply firstn_skipn.
  - cbn [fst snd]. cbn [length] in H. rewrite IH by (rewrite upd_length; lia).
    assert (G : forall (l : list A) s, (s < length l)%nat ->
              firstn (S s) (upd l s v) = firstn s l ++ [v] /\
              forall k, skipn (S s + k) (upd l s v) = skipn (S s + k) l).
    { clear. induction l as [|x l IH]; intros s Hs; [cbn in Hs; lia|].
      destruct s as [|s].
      - split; [reflexivity|intros; reflexivity].
      - cbn [length] in Hs. destruct (IH s) as [E1 E2]; [lia|]. split.
        + cbn [upd]. rewrite firstn_cons, E1. reflexivity.
        + intros k. apply E2. }
    destruct (G l s) as [E1 E2]; [lia|].
    rewrite E1, E2. rewrite <- app_assoc. cbn [app].
    replace (S s + length vals)%nat with (s + S (length vals))%nat by lia. reflexivity.
Qed.

(** [a[1::] = vals] with len(vals) = len(a) - 1 keeps the head only. *)
Lemma assign_slice_tail {A} (x : A) l vals : length vals = length l ->
  assign_slice (Some 1%Z) None 1 (x :: l) vals = x :: vals.
Proof.
  intros H. unfold assign_slice. change 1%Z with (Z.of_nat 1) at 1. rewrite slice_idx_from.
  cbn [length]. replace (S (length l) - 1)%nat with (length vals) by lia.
  rewrite upd_block by (cbn [length]; lia).
  rewrite skipn_all2 by (cbn [length]; lia). rewrite app_nil_r. reflexivity.
Qed.

Lemma assign_slice_tail_tab {A} n (f g : nat -> A) :
  assign_slice (Some 1%Z) None 1 (tab1 n f) (tab1 (n - 1) g)
  = tab1 n (fun i => match i with O => f 0%nat | S j => g j end).
Proof.
  destruct n as [|n].
  - reflexivity.
  - rewrite !tab1_S. cbn [Nat.sub]. rewrite Nat.sub_0_r.
    rewrite assign_slice_tail by (rewrite !tab1_length; auto). reflexivity.
Qed.
