(** Python slices.  [slice_idx start stop step len] is the list of indices
    selected by [a[start:stop:step]] on a sequence of length [len]: a
    transcription of CPython's [slice.indices] (Objects/sliceobject.c,
    PySlice_AdjustIndices).  [None] is an omitted bound. *)
From Coq Require Import List ZArith Lia Bool Arith.
Import ListNotations.
Local Open Scope Z_scope.

Definition adjust (lower upper : Z) (len : Z) (i : Z) : Z :=
  if i <? 0 then Z.max lower (i + len) else Z.min upper i.

Definition slice_bounds (start stop : option Z) (step : Z) (len : Z) : Z * Z :=
  let lower := if step <? 0 then -1 else 0 in
  let upper := if step <? 0 then len - 1 else len in
  let s := match start with
           | None => if step <? 0 then upper else lower
           | Some i => adjust lower upper len i
           end in
  let e := match stop with
           | None => if step <? 0 then lower else upper
           | Some i => adjust lower upper len i
           end in
  (s, e).

Definition slice_count (s e step : Z) : Z :=
  if step <? 0 then (if e <? s then (s - e - 1) / (- step) + 1 else 0)
  else (if s <? e then (e - s - 1) / step + 1 else 0).

Definition slice_idx (start stop : option Z) (step : Z) (len : nat) : list nat :=
  let '(s, e) := slice_bounds start stop step (Z.of_nat len) in
  map (fun j => Z.to_nat (s + Z.of_nat j * step)) (seq 0 (Z.to_nat (slice_count s e step))).

(** Elements at a list of indices (all in range when produced by [slice_idx]). *)
Definition pick {A} (l : list A) (idx : list nat) : list A :=
  flat_map (fun i => match nth_error l i with Some x => [x] | None => [] end) idx.

(** [a[start:stop:step]] *)
Definition slice {A} (start stop : option Z) (step : Z) (l : list A) : list A :=
  pick l (slice_idx start stop step (length l)).

(** ** Lemmas *)

Lemma pick_map {A} (l : list A) (d : A) idx :
  (forall i, In i idx -> (i < length l)%nat) -> pick l idx = map (fun i => nth i l d) idx.
Proof.
  induction idx as [|i idx IH]; intros H; [reflexivity|].
  cbn [pick flat_map map]. fold (@pick A l idx).
  rewrite IH by (intros; apply H; now right).
  rewrite (nth_error_nth' l d) by (apply H; now left). reflexivity.
Qed.

Lemma slice_idx_in start stop step len i : step <> 0 ->
  In i (slice_idx start stop step len) -> (i < len)%nat.
Proof.
  intros Hstep. unfold slice_idx.
  destruct (slice_bounds start stop step (Z.of_nat len)) as [s e] eqn:E.
  intros Hin. apply in_map_iff in Hin. destruct Hin as [j [<- Hj]].
  apply in_seq in Hj. unfold slice_bounds in E. unfold slice_count in Hj.
  destruct (Z.ltb_spec step 0) as [Hneg|Hpos].
  - destruct (Z.ltb_spec e s) as [Hse|Hse]; [|cbn in Hj; lia].
    injection E as Es Ee.
    assert (Hs : s <= Z.of_nat len - 1).
    { subst s. destruct start as [i|]; [|lia]. unfold adjust. destruct (Z.ltb_spec i 0); lia. }
    assert (He : -1 <= e).
    { subst e. destruct stop as [i|]; [|lia]. unfold adjust. destruct (Z.ltb_spec i 0); lia. }
    assert (Hq : (s - e - 1) / - step >= 0) by (apply Z.le_ge, Z.div_pos; lia).
    assert (Hj' : Z.of_nat j <= (s - e - 1) / - step) by lia.
    assert (Hm : Z.of_nat j * - step <= s - e - 1).
    { pose proof (Z.mul_div_le (s - e - 1) (- step)). nia. }
    nia.
  - destruct (Z.ltb_spec s e) as [Hse|Hse]; [|cbn in Hj; lia].
    injection E as Es Ee.
    assert (Hs : 0 <= s).
    { subst s. destruct start as [i|]; [|lia]. unfold adjust. destruct (Z.ltb_spec i 0); lia. }
    assert (He : e <= Z.of_nat len).
    { subst e. destruct stop as [i|]; [|lia]. unfold adjust. destruct (Z.ltb_spec i 0); lia. }
    assert (Hq : (e - s - 1) / step >= 0) by (apply Z.le_ge, Z.div_pos; lia).
    assert (Hj' : Z.of_nat j <= (e - s - 1) / step) by lia.
    assert (Hm : Z.of_nat j * step <= e - s - 1).
    { pose proof (Z.mul_div_le (e - s - 1) step). nia. }
    nia.
Qed.

Lemma slice_map {A} (d : A) start stop step l : step <> 0 ->
  slice start stop step l = map (fun i => nth i l d) (slice_idx start stop step (length l)).
Proof.
  intros H. unfold slice. apply pick_map. intros i Hi. eapply slice_idx_in; eauto.
Qed.

(** Closed forms of the slices used in the code base. *)

(** [a[i:]] for i >= 0 *)
Lemma slice_idx_from (i : nat) len :
  slice_idx (Some (Z.of_nat i)) None 1 len = seq i (len - i).
Proof.
  unfold slice_idx, slice_bounds, adjust. change (1 <? 0) with false. cbv beta iota zeta.
  destruct (Z.ltb_spec (Z.of_nat i) 0); [lia|].
  unfold slice_count. change (1 <? 0) with false. cbv beta iota zeta.
  destruct (Z.ltb_spec (Z.min (Z.of_nat len) (Z.of_nat i)) (Z.of_nat len)).
  - rewrite Z.min_r by lia. rewrite Z.div_1_r.
    replace (Z.to_nat (Z.of_nat len - Z.of_nat i - 1 + 1)) with (len - i)%nat by lia.
    apply nth_ext with (d := 0%nat) (d' := 0%nat).
    + rewrite map_length, !seq_length; reflexivity.
    + rewrite map_length, seq_length. intros n Hn.
      rewrite nth_indep with (d' := Z.to_nat (Z.of_nat i + Z.of_nat 0 * 1))
        by (rewrite map_length, seq_length; auto).
      rewrite (map_nth (fun j => Z.to_nat (Z.of_nat i + Z.of_nat j * 1))).
      rewrite !seq_nth by auto. lia.
  - replace (len - i)%nat with 0%nat by lia. reflexivity.
Qed.

(** [a[:j]] for j >= 0 *)
Lemma slice_idx_to (j : nat) len :
  slice_idx None (Some (Z.of_nat j)) 1 len = seq 0 (Nat.min j len).
Proof.
  unfold slice_idx, slice_bounds, adjust. change (1 <? 0) with false. cbv beta iota zeta.
  destruct (Z.ltb_spec (Z.of_nat j) 0); [lia|].
  unfold slice_count. change (1 <? 0) with false. cbv beta iota zeta.
  assert (G : forall k, map (fun j0 => Z.to_nat (0 + Z.of_nat j0 * 1)) (seq 0 k) = seq 0 k).
  { intros k. rewrite <- (map_id (seq 0 k)) at 2. apply map_ext. intros; lia. }
  destruct (Z.ltb_spec 0 (Z.min (Z.of_nat len) (Z.of_nat j))).
  - rewrite G, Z.div_1_r. f_equal. lia.
  - replace (Nat.min j len) with 0%nat by lia. reflexivity.
Qed.

(** General step +1 slice between in-range bounds. *)
Lemma slice_idx_range (i j : nat) len : (j <= len)%nat ->
  slice_idx (Some (Z.of_nat i)) (Some (Z.of_nat j)) 1 len = seq i (j - i).
Proof.
  intros Hj. unfold slice_idx, slice_bounds, adjust. change (1 <? 0) with false. cbv beta iota zeta.
  destruct (Z.ltb_spec (Z.of_nat i) 0); [lia|].
  destruct (Z.ltb_spec (Z.of_nat j) 0); [lia|].
  unfold slice_count. change (1 <? 0) with false. cbv beta iota zeta.
  rewrite (Z.min_r (Z.of_nat len) (Z.of_nat j)) by lia.
  destruct (Z.ltb_spec (Z.min (Z.of_nat len) (Z.of_nat i)) (Z.of_nat j)).
  - rewrite Z.min_r by lia. rewrite Z.div_1_r.
    replace (Z.to_nat (Z.of_nat j - Z.of_nat i - 1 + 1)) with (j - i)%nat by lia.
    apply nth_ext with (d := 0%nat) (d' := 0%nat).
    + rewrite map_length, !seq_length; reflexivity.
    + rewrite map_length, seq_length. intros n Hn.
      rewrite nth_indep with (d' := Z.to_nat (Z.of_nat i + Z.of_nat 0 * 1))
        by (rewrite map_length, seq_length; auto).
      rewrite (map_nth (fun j => Z.to_nat (Z.of_nat i + Z.of_nat j * 1))).
      rewrite !seq_nth by auto. lia.
  - replace (j - i)%nat with 0%nat by lia. reflexivity.
Qed.

(** General negative-step slice: count and entries. *)
Lemma slice_idx_nth start stop step len j (d : nat) :
  let '(s, e) := slice_bounds start stop step (Z.of_nat len) in
  (j < Z.to_nat (slice_count s e step))%nat ->
  nth j (slice_idx start stop step len) d = Z.to_nat (s + Z.of_nat j * step).
Proof.
  unfold slice_idx. destruct (slice_bounds start stop step (Z.of_nat len)) as [s e].
  intros Hj. rewrite nth_indep with (d' := Z.to_nat (s + Z.of_nat 0 * step))
    by (rewrite map_length, seq_length; auto).
  rewrite (map_nth (fun j => Z.to_nat (s + Z.of_nat j * step))).
  now rewrite seq_nth.
Qed.

Lemma slice_idx_length start stop step len :
  let '(s, e) := slice_bounds start stop step (Z.of_nat len) in
  length (slice_idx start stop step len) = Z.to_nat (slice_count s e step).
Proof.
  unfold slice_idx. destruct (slice_bounds start stop step (Z.of_nat len)) as [s e].
  now rewrite map_length, seq_length.
Qed.

(** [a[-k:]] for k >= 1 *)
Lemma slice_idx_last (k len : nat) : (1 <= k)%nat ->
  slice_idx (Some (- Z.of_nat k)%Z) None 1 len = seq (len - k) (Nat.min k len).
Proof.
  intros Hk. destruct (Nat.le_gt_cases k len) as [L|L].
  - transitivity (slice_idx (Some (Z.of_nat (len - k))) None 1 len).
    + unfold slice_idx, slice_bounds, adjust. change (1 <? 0)%Z with false. cbv beta iota zeta.
      destruct (Z.ltb_spec (- Z.of_nat k) 0); [|lia].
      destruct (Z.ltb_spec (Z.of_nat (len - k)) 0); [lia|].
      replace (Z.max 0 (- Z.of_nat k + Z.of_nat len)) with (Z.min (Z.of_nat len) (Z.of_nat (len - k))) by lia.
      reflexivity.
    + rewrite slice_idx_from. f_equal. lia.
  - transitivity (slice_idx (Some (Z.of_nat 0)) None 1 len).
    + unfold slice_idx, slice_bounds, adjust. change (1 <? 0)%Z with false. cbv beta iota zeta.
      destruct (Z.ltb_spec (- Z.of_nat k) 0); [|lia].
      replace (Z.max 0 (- Z.of_nat k + Z.of_nat len)) with 0%Z by lia.
      change (Z.of_nat 0 <? 0)%Z with false. cbv iota.
      replace (Z.min (Z.of_nat len) (Z.of_nat 0)) with 0%Z by lia. reflexivity.
    + rewrite slice_idx_from. replace (len - k)%nat with 0%nat by lia. f_equal. lia.
Qed.


(** [a[:-k]] for k >= 1 *)
Lemma slice_idx_butlast (k len : nat) : (1 <= k)%nat ->
  slice_idx None (Some (- Z.of_nat k)) 1 len = seq 0 (len - k).
Proof.
  intros Hk. transitivity (slice_idx None (Some (Z.of_nat (len - k))) 1 len).
  - unfold slice_idx, slice_bounds, adjust. change (1 <? 0)%Z with false. cbv beta iota zeta.
    destruct (Z.ltb_spec (- Z.of_nat k) 0); [|lia].
    destruct (Z.ltb_spec (Z.of_nat (len - k)) 0); [lia|].
    replace (Z.max 0 (- Z.of_nat k + Z.of_nat len)) with (Z.min (Z.of_nat len) (Z.of_nat (len - k))) by lia.
    reflexivity.
  - rewrite slice_idx_to. f_equal. lia.
Qed.
