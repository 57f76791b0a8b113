(** Finite sums of reals indexed by naturals, and their algebra. *)
From Coq Require Import Reals List Arith Lia Lra Permutation.
Import ListNotations.
Local Open Scope R_scope.

(** [rsum n f] is f 0 + ... + f (n-1). *)
Fixpoint rsum (n : nat) (f : nat -> R) : R :=
  match n with
  | O => 0
  | S k => rsum k f + f k
  end.

(** Sum of a list. *)
Definition lsum (l : list R) : R := fold_right Rplus 0 l.

Lemma rsum_ext n f g : (forall i, (i < n)%nat -> f i = g i) -> rsum n f = rsum n g.
Proof.
  induction n as [|n IH]; intros H; cbn [rsum]; [reflexivity|].
  rewrite IH, H; auto.
Qed.

Lemma rsum_0 n : rsum n (fun _ => 0) = 0.
Proof. induction n as [|n IH]; cbn [rsum]; [reflexivity|]. rewrite IH; lra. Qed.

Lemma rsum_zero n f : (forall i, (i < n)%nat -> f i = 0) -> rsum n f = 0.
Proof. intros H. rewrite (rsum_ext n f (fun _ => 0)); auto using rsum_0. Qed.

Lemma rsum_const n c : rsum n (fun _ => c) = INR n * c.
Proof.
  induction n as [|n IH]; cbn [rsum]; [cbn; lra|].
  rewrite IH, S_INR; lra.
Qed.

Lemma rsum_plus n f g : rsum n (fun i => f i + g i) = rsum n f + rsum n g.
Proof. induction n as [|n IH]; cbn [rsum]; [lra|]. rewrite IH; lra. Qed.

Lemma rsum_minus n f g : rsum n (fun i => f i - g i) = rsum n f - rsum n g.
Proof. induction n as [|n IH]; cbn [rsum]; [lra|]. rewrite IH; lra. Qed.

Lemma rsum_opp n f : rsum n (fun i => - f i) = - rsum n f.
Proof. induction n as [|n IH]; cbn [rsum]; [lra|]. rewrite IH; lra. Qed.

Lemma rsum_scal n c f : rsum n (fun i => c * f i) = c * rsum n f.
Proof. induction n as [|n IH]; cbn [rsum]; [lra|]. rewrite IH; lra. Qed.

Lemma rsum_scal_r n c f : rsum n (fun i => f i * c) = rsum n f * c.
Proof. induction n as [|n IH]; cbn [rsum]; [lra|]. rewrite IH; lra. Qed.

Lemma rsum_div n c f : rsum n (fun i => f i / c) = rsum n f / c.
Proof. unfold Rdiv. apply rsum_scal_r. Qed.

Lemma rsum_le n f g : (forall i, (i < n)%nat -> f i <= g i) -> rsum n f <= rsum n g.
Proof.
  induction n as [|n IH]; intros H; cbn [rsum]; [lra|].
  apply Rplus_le_compat; auto.
Qed.

Lemma rsum_nonneg n f : (forall i, (i < n)%nat -> 0 <= f i) -> 0 <= rsum n f.
Proof. intros H. rewrite <- (rsum_0 n). apply rsum_le; auto. Qed.

Lemma rsum_pos n f : (0 < n)%nat -> (forall i, (i < n)%nat -> 0 < f i) -> 0 < rsum n f.
Proof.
  intros Hn H. destruct n as [|n]; [lia|]. cbn [rsum].
  assert (0 <= rsum n f) by (apply rsum_nonneg; intros i Hi; left; auto).
  specialize (H n (Nat.lt_succ_diag_r n)). lra.
Qed.

Lemma rsum_nonneg_eq0 n f : (forall i, (i < n)%nat -> 0 <= f i) -> rsum n f = 0 ->
  forall i, (i < n)%nat -> f i = 0.
Proof.
  induction n as [|n IH]; cbn [rsum]; intros H E i Hi; [lia|].
  assert (H1 : 0 <= rsum n f) by (apply rsum_nonneg; auto).
  assert (H2 : 0 <= f n) by auto.
  destruct (Nat.eq_dec i n) as [->|Hne]; [lra|].
  apply IH; auto; [lra|lia].
Qed.

Lemma rsum_term_le n f i : (forall j, (j < n)%nat -> 0 <= f j) -> (i < n)%nat -> f i <= rsum n f.
Proof.
  induction n as [|n IH]; cbn [rsum]; intros H Hi; [lia|].
  assert (H1 : 0 <= rsum n f) by (apply rsum_nonneg; auto).
  assert (H2 : 0 <= f n) by auto.
  destruct (Nat.eq_dec i n) as [->|Hne]; [lra|].
  assert (f i <= rsum n f) by (apply IH; auto; lia). lra.
Qed.

Lemma rsum_abs n f : Rabs (rsum n f) <= rsum n (fun i => Rabs (f i)).
Proof.
  induction n as [|n IH]; cbn [rsum]; [rewrite Rabs_R0; lra|].
  eapply Rle_trans; [apply Rabs_triang|]. lra.
Qed.

Lemma rsum_exchange m n (f : nat -> nat -> R) :
  rsum m (fun i => rsum n (fun j => f i j)) = rsum n (fun j => rsum m (fun i => f i j)).
Proof.
  induction m as [|m IH]; cbn [rsum].
  - now rewrite rsum_0.
  - rewrite IH, <- rsum_plus. apply rsum_ext; intros; reflexivity.
Qed.

Lemma rsum_mult m n f g :
  rsum m f * rsum n g = rsum m (fun i => rsum n (fun j => f i * g j)).
Proof.
  rewrite <- rsum_scal_r. apply rsum_ext; intros i Hi. now rewrite rsum_scal.
Qed.

Lemma rsum_split m n f : rsum (m + n) f = rsum m f + rsum n (fun i => f (m + i)%nat).
Proof.
  induction n as [|n IH]; cbn [rsum]; [rewrite Nat.add_0_r; lra|].
  rewrite Nat.add_succ_r; cbn [rsum]. rewrite IH; lra.
Qed.

Lemma rsum_S_l n f : rsum (S n) f = f 0%nat + rsum n (fun i => f (S i)).
Proof. change (S n) with (1 + n)%nat. rewrite rsum_split. cbn [rsum]. cbn. lra. Qed.

Lemma rsum_single n f k : (k < n)%nat -> (forall i, (i < n)%nat -> i <> k -> f i = 0) ->
  rsum n f = f k.
Proof.
  induction n as [|n IH]; intros Hk H; [lia|]. cbn [rsum].
  destruct (Nat.eq_dec k n) as [->|Hne].
  - rewrite rsum_zero; [lra|]. intros i Hi. apply H; lia.
  - rewrite IH; [|lia|intros i Hi Hn; apply H; lia].
    rewrite (H n); [lra|lia|lia].
Qed.

(** ** Sums of lists *)

Lemma lsum_cons x l : lsum (x :: l) = x + lsum l.
Proof. reflexivity. Qed.

Lemma lsum_app l1 l2 : lsum (l1 ++ l2) = lsum l1 + lsum l2.
Proof. induction l1 as [|x l IH]; cbn [app lsum fold_right]; [unfold lsum; lra|].
  fold (lsum (l ++ l2)) (lsum l). rewrite IH; lra. Qed.

Lemma lsum_perm l1 l2 : Permutation l1 l2 -> lsum l1 = lsum l2.
Proof.
  induction 1 as [|x l l' _ IH|x y l|l l' l'' _ IH1 _ IH2]; rewrite ?lsum_cons; try lra.
Qed.

Lemma rsum_lsum n f : rsum n f = lsum (map f (seq 0 n)).
Proof.
  induction n as [|n IH]; [reflexivity|].
  rewrite seq_S, map_app, lsum_app, <- IH. cbn. lra.
Qed.

Lemma lsum_nth l d : lsum l = rsum (length l) (fun i => nth i l d).
Proof.
  induction l as [|x l IH]; [reflexivity|].
  cbn [length]. rewrite rsum_S_l. cbn [nth]. rewrite lsum_cons, IH. reflexivity.
Qed.

Lemma lsum_map_plus {A} (f g : A -> R) l :
  lsum (map (fun x => f x + g x) l) = lsum (map f l) + lsum (map g l).
Proof. induction l as [|x l IH]; cbn [map]; rewrite ?lsum_cons; [cbn; lra|]. rewrite IH; lra. Qed.

Lemma lsum_map_minus {A} (f g : A -> R) l :
  lsum (map (fun x => f x - g x) l) = lsum (map f l) - lsum (map g l).
Proof. induction l as [|x l IH]; cbn [map]; rewrite ?lsum_cons; [cbn; lra|]. rewrite IH; lra. Qed.

Lemma lsum_map_scal {A} c (f : A -> R) l :
  lsum (map (fun x => c * f x) l) = c * lsum (map f l).
Proof. induction l as [|x l IH]; cbn [map]; rewrite ?lsum_cons; [cbn; lra|]. rewrite IH; lra. Qed.

Lemma lsum_map_scal_r {A} c (f : A -> R) l :
  lsum (map (fun x => f x * c) l) = lsum (map f l) * c.
Proof. induction l as [|x l IH]; cbn [map]; rewrite ?lsum_cons; [cbn; lra|]. rewrite IH; lra. Qed.

Lemma lsum_map_const {A} c (l : list A) : lsum (map (fun _ => c) l) = INR (length l) * c.
Proof.
  induction l as [|x l IH]; [cbn; lra|]. cbn [map]. rewrite lsum_cons, IH.
  cbn [length]. rewrite S_INR. lra.
Qed.

Lemma lsum_map_le {A} (f g : A -> R) l :
  (forall x, In x l -> f x <= g x) -> lsum (map f l) <= lsum (map g l).
Proof.
  induction l as [|x l IH]; intros H; cbn [map]; rewrite ?lsum_cons; [lra|].
  apply Rplus_le_compat; [apply H; now left|apply IH; intros; apply H; now right].
Qed.

Lemma lsum_map_ext {A} (f g : A -> R) l :
  (forall x, In x l -> f x = g x) -> lsum (map f l) = lsum (map g l).
Proof. intros H. f_equal. apply map_ext_in. exact H. Qed.

Lemma lsum_nonneg l : (forall x, In x l -> 0 <= x) -> 0 <= lsum l.
Proof.
  induction l as [|x l IH]; intros H; cbn; [lra|]. fold (lsum l).
  assert (0 <= x) by (apply H; now left).
  assert (0 <= lsum l) by (apply IH; intros; apply H; now right). lra.
Qed.

Lemma lsum_nonneg_eq0 l : (forall x, In x l -> 0 <= x) -> lsum l = 0 ->
  forall x, In x l -> x = 0.
Proof.
  induction l as [|y l IH]; intros H E x Hx; [destruct Hx|].
  rewrite lsum_cons in E.
  assert (0 <= y) by (apply H; now left).
  assert (0 <= lsum l) by (apply lsum_nonneg; intros; apply H; now right).
  destruct Hx as [<-|Hx]; [lra|]. apply IH; auto; [intros; apply H; now right|lra].
Qed.

(** ** Re-indexing *)

Lemma perm_seq_inj n (p : nat -> nat) :
  (forall i, (i < n)%nat -> (p i < n)%nat) ->
  (forall i j, (i < n)%nat -> (j < n)%nat -> p i = p j -> i = j) ->
  Permutation (map p (seq 0 n)) (seq 0 n).
Proof.
  intros Hr Hi.
  apply NoDup_Permutation_bis.
  - assert (G : forall l, NoDup l -> (forall i, In i l -> (i < n)%nat) -> NoDup (map p l)).
    { induction l as [|a l IH]; intros Hnd Hl; cbn [map]; [constructor|].
      inversion Hnd as [|? ? Hna Hnd']; subst. constructor.
      - intros Hin. apply in_map_iff in Hin. destruct Hin as [b [Eb Hb]].
        apply Hna. replace a with b; auto. apply Hi; auto.
        + apply Hl; now right.
        + apply Hl; now left.
      - apply IH; auto. intros; apply Hl; now right. }
    apply G; [apply seq_NoDup|]. intros i Hin. apply in_seq in Hin. lia.
  - rewrite map_length. lia.
  - intros x Hx. apply in_map_iff in Hx. destruct Hx as [i [<- Hin]].
    apply in_seq in Hin. apply in_seq. specialize (Hr i). lia.
Qed.

Lemma rsum_reindex n f (p : nat -> nat) :
  (forall i, (i < n)%nat -> (p i < n)%nat) ->
  (forall i j, (i < n)%nat -> (j < n)%nat -> p i = p j -> i = j) ->
  rsum n (fun i => f (p i)) = rsum n f.
Proof.
  intros Hr Hi. rewrite !rsum_lsum.
  rewrite <- (map_map p f). apply lsum_perm. apply Permutation_map.
  apply perm_seq_inj; auto.
Qed.

Lemma rsum_rev n f : rsum n (fun i => f (n - 1 - i)%nat) = rsum n f.
Proof. apply rsum_reindex with (p := fun i => (n - 1 - i)%nat); intros; lia. Qed.

Lemma add_mod_inj n s i j : (i < n)%nat -> (j < n)%nat ->
  ((i + s) mod n = (j + s) mod n)%nat -> i = j.
Proof.
  intros Hi Hj E.
  assert (Hn : n <> 0%nat) by lia.
  pose proof (Nat.div_mod (i + s) n Hn) as E1.
  pose proof (Nat.div_mod (j + s) n Hn) as E2.
  pose proof (Nat.mod_upper_bound (i + s) n Hn).
  rewrite E in E1.
  remember ((i + s) / n)%nat as a. remember ((j + s) / n)%nat as b.
  remember ((j + s) mod n)%nat as r.
  destruct (Nat.lt_trichotomy a b) as [L|[L|L]]; nia.
Qed.

Lemma rsum_shift n f s : rsum n (fun i => f ((i + s) mod n)%nat) = rsum n f.
Proof.
  destruct (Nat.eq_dec n 0) as [->|Hn]; [reflexivity|].
  apply rsum_reindex with (p := fun i => ((i + s) mod n)%nat).
  - intros; apply Nat.mod_upper_bound; auto.
  - intros i j Hi Hj. apply add_mod_inj; auto.
Qed.

Lemma neg_mod_val n i : (i < n)%nat -> ((n - i) mod n = if Nat.eqb i 0 then 0 else n - i)%nat.
Proof.
  intros Hi. destruct (Nat.eqb_spec i 0) as [->|Hne].
  - rewrite Nat.sub_0_r. apply Nat.mod_same; lia.
  - apply Nat.mod_small; lia.
Qed.

Lemma rsum_neg n f : rsum n (fun i => f ((n - i) mod n)%nat) = rsum n f.
Proof.
  destruct (Nat.eq_dec n 0) as [->|Hn]; [reflexivity|].
  apply rsum_reindex with (p := fun i => ((n - i) mod n)%nat).
  - intros; apply Nat.mod_upper_bound; auto.
  - intros i j Hi Hj. rewrite !neg_mod_val by auto.
    destruct (Nat.eqb_spec i 0), (Nat.eqb_spec j 0); lia.
Qed.

(** ** Inequalities *)

Lemma rsum_cauchy_schwarz n f g :
  (rsum n (fun i => f i * g i))² <= rsum n (fun i => (f i)²) * rsum n (fun i => (g i)²).
Proof.
  set (a := rsum n (fun i => (f i)²)). set (b := rsum n (fun i => f i * g i)).
  set (c := rsum n (fun i => (g i)²)).
  assert (Q : forall t, 0 <= a + 2 * t * b + t * t * c).
  { intros t.
    replace (a + 2 * t * b + t * t * c) with (rsum n (fun i => (f i + t * g i)²)).
    - apply rsum_nonneg; intros; apply Rle_0_sqr.
    - unfold a, b, c. rewrite <- !rsum_scal, <- !rsum_plus.
      apply rsum_ext; intros i _. unfold Rsqr; ring. }
  assert (Hc : 0 <= c) by (apply rsum_nonneg; intros; apply Rle_0_sqr).
  assert (Ha : 0 <= a) by (apply rsum_nonneg; intros; apply Rle_0_sqr).
  destruct (Req_dec c 0) as [Hc0|Hc0].
  - rewrite Hc0 in *. assert (b = 0).
    { destruct (Req_dec b 0) as [|Hb]; auto. exfalso.
      specialize (Q (- (a + 1) / (2 * b))).
      replace (a + 2 * (- (a + 1) / (2 * b)) * b + - (a + 1) / (2 * b) * (- (a + 1) / (2 * b)) * 0)
        with (- 1) in Q by (field; auto). lra. }
    rewrite H. unfold Rsqr; lra.
  - specialize (Q (- b / c)).
    replace (a + 2 * (- b / c) * b + - b / c * (- b / c) * c) with ((a * c - b²) / c) in Q
      by (unfold Rsqr; field; auto).
    assert (0 < c) by lra.
    assert (0 <= a * c - b²).
    { replace (a * c - b²) with ((a * c - b²) / c * c) by (field; auto).
      apply Rmult_le_pos; lra. }
    lra.
Qed.

(** Minkowski: the triangle inequality of the l2 norm. *)
Lemma rsum_minkowski n f g :
  sqrt (rsum n (fun i => (f i + g i)²)) <=
  sqrt (rsum n (fun i => (f i)²)) + sqrt (rsum n (fun i => (g i)²)).
Proof.
  set (a := rsum n (fun i => (f i)²)). set (c := rsum n (fun i => (g i)²)).
  set (b := rsum n (fun i => f i * g i)).
  assert (Hc : 0 <= c) by (apply rsum_nonneg; intros; apply Rle_0_sqr).
  assert (Ha : 0 <= a) by (apply rsum_nonneg; intros; apply Rle_0_sqr).
  replace (rsum n (fun i => (f i + g i)²)) with (a + 2 * b + c).
  2:{ unfold a, b, c. rewrite <- rsum_scal, <- !rsum_plus.
      apply rsum_ext; intros i _. unfold Rsqr; ring. }
  assert (CS : b² <= a * c) by (apply rsum_cauchy_schwarz).
  assert (Hb : b <= sqrt a * sqrt c).
  { rewrite <- sqrt_mult by auto. apply Rle_trans with (Rabs b); [apply Rle_abs|].
    rewrite <- sqrt_Rsqr_abs. apply sqrt_le_1; auto; [apply Rle_0_sqr|nra]. }
  pose proof (sqrt_pos a) as Pa. pose proof (sqrt_pos c) as Pc.
  apply Rsqr_incr_0_var; [|lra].
  destruct (Rle_lt_dec 0 (a + 2 * b + c)) as [Hp|Hp].
  - rewrite Rsqr_sqrt by auto. rewrite Rsqr_plus, !Rsqr_sqrt by auto. lra.
  - rewrite (sqrt_neg_0 (a + 2 * b + c)) by lra. unfold Rsqr at 1. rewrite Rmult_0_l.
    apply Rle_0_sqr.
Qed.

(** The same on lists of pairs. *)
Lemma lsum_map_nth {A} (f : A -> R) l d :
  lsum (map f l) = rsum (length l) (fun i => f (nth i l d)).
Proof.
  induction l as [|x l IH]; [reflexivity|].
  cbn [length map]. rewrite rsum_S_l, lsum_cons, IH. reflexivity.
Qed.
