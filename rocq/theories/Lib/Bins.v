(** scipy.stats.binned_statistic. *)
From Coq Require Import Reals List Lia Lra Arith Bool Permutation.
From Verif Require Import Lib.Fl Lib.Arr Lib.RSum Spec.Bins.
Import ListNotations.
Local Open Scope R_scope.

(** scipy/stats/_binned_statistic.py (_bin_numbers): np.digitize (the number of
    edges <= x), then values equal to the last edge are moved into the last
    bin.  (scipy compares with the last edge after rounding to the
    precision of the bin widths; the model compares exactly.)  [None] is an
    outlier. *)
Definition bin_number (edges : list R) (x : R) : option nat :=
  let c := length (filter (fun e => Rleb e x) edges) in
  let c := if Reqb x (last edges 0) then (c - 1)%nat else c in
  if (Nat.eqb c 0 || Nat.leb (length edges) c)%bool then None else Some (c - 1)%nat.

Definition opt_eqb (o : option nat) (i : nat) : bool :=
  match o with Some j => Nat.eqb j i | None => false end.

(** The values whose sample falls in bin [i]. *)
Definition in_bin_values {V} (edges : list R) (sample : list R) (values : list V) (i : nat) : list V :=
  map snd (filter (fun p => opt_eqb (bin_number edges (fst p)) i) (combine sample values)).

(** binned_statistic(sample, values, bins=edges, statistic=stat)[0] *)
Definition binned_statistic {V W} (stat : list V -> W) (edges : list R) (sample : list R) (values : list V) : list W :=
  tab1 (length edges - 1) (fun i => stat (in_bin_values edges sample values i)).

(** ** Lemmas *)

Lemma increasing_cons a l : increasing (a :: l) <-> increasing l /\ (forall e, In e l -> a < e).
Proof.
  split.
  - intros H. split.
    + intros i j Hij. apply (H (S i) (S j)). cbn; lia.
    + intros e He. apply In_nth with (d := 0) in He. destruct He as [k [Hk <-]].
      apply (H 0%nat (S k)). cbn; lia.
  - intros [H1 H2] [|i] [|j] Hij; cbn in Hij; try lia.
    + cbn [nth]. apply H2, nth_In. lia.
    + apply H1. lia.
Qed.

Lemma count_le_spec edges x : increasing edges ->
  let c := length (filter (fun e => Rleb e x) edges) in
  (c <= length edges)%nat /\
  (forall i, (i < c)%nat -> nth i edges 0 <= x) /\
  (forall i, (c <= i < length edges)%nat -> x < nth i edges 0).
Proof.
  induction edges as [|a l IH]; intros H; cbn zeta.
  - cbn. split; [lia|]. split; intros; lia.
  - apply increasing_cons in H. destruct H as [H1 H2]. destruct (IH H1) as [I1 [I2 I3]].
    cbn [filter]. destruct (Rleb_spec a x) as [L|L].
    + cbn [length]. split; [lia|]. split.
      * intros [|i] Hi; cbn [nth]; [exact L|]. apply I2. lia.
      * intros [|i] Hi; cbn [nth]; [lia|]. apply I3. lia.
    + assert (E : filter (fun e => Rleb e x) l = []).
      { clear -H2 L. induction l as [|b l IH]; [reflexivity|]. cbn [filter].
        destruct (Rleb_spec b x) as [C|C].
        - assert (a < b) by (apply H2; now left). lra.
        - apply IH. intros; apply H2; now right. }
      rewrite E. cbn [length]. split; [lia|]. split; [intros; lia|].
      intros [|i] Hi; cbn [nth]; [lra|].
      assert (a < nth i l 0) by (apply H2, nth_In; cbn in Hi; lia). lra.
Qed.

Lemma last_nth (l : list R) d : last l d = nth (length l - 1) l d.
Proof.
  induction l as [|a l IH]; [reflexivity|]. destruct l as [|b l]; [reflexivity|].
  change (last (a :: b :: l) d) with (last (b :: l) d). rewrite IH. cbn [length].
  replace (S (S (length l)) - 1)%nat with (S (length l)) by lia.
  replace (S (length l) - 1)%nat with (length l) by lia. reflexivity.
Qed.

Lemma bin_number_spec edges x i : increasing edges -> (2 <= length edges)%nat ->
  bin_number edges x = Some i <-> in_bin edges i x.
Proof.
  intros Hinc Hlen. unfold bin_number, in_bin.
  destruct (count_le_spec edges x Hinc) as [C1 [C2 C3]].
  set (c := length (filter (fun e => Rleb e x) edges)) in *.
  rewrite last_nth. set (n := length edges) in *.
  destruct (Reqb_spec x (nth (n - 1) edges 0)) as [E|E].
  - assert (Ec : c = n).
    { destruct (Nat.eq_dec c n) as [|Hne]; auto. exfalso.
      assert (x < nth (n - 1) edges 0) by (apply C3; lia). lra. }
    rewrite Ec. destruct (Nat.eqb_spec (n - 1) 0); [lia|].
    destruct (Nat.leb_spec n (n - 1)); [lia|]. cbn [orb]. split.
    + intros HS. injection HS as <-. split; [lia|]. split; [apply C2; lia|].
      right. replace (S (n - 1 - 1)) with (n - 1)%nat by lia. split; [lia|auto].
    + intros [H1 [H2 [H3|[H3 H4]]]].
      * exfalso. assert (nth (S i) edges 0 <= x) by (apply C2; lia). lra.
      * f_equal. lia.
  - destruct (Nat.eqb_spec c 0) as [Hc0|Hc0]; cbn [orb].
    + split; [discriminate|]. intros [H1 [H2 H3]]. exfalso.
      assert (x < nth i edges 0) by (apply C3; lia). lra.
    + destruct (Nat.leb_spec n c) as [Hn|Hn].
      * split; [discriminate|]. intros [H1 [H2 [H3|[H3 H4]]]]; exfalso.
        -- assert (nth (S i) edges 0 <= x) by (apply C2; lia). lra.
        -- apply E. rewrite H4. f_equal. lia.
      * split.
        -- intros H. injection H as <-. split; [lia|]. split; [apply C2; lia|].
           left. apply C3. lia.
        -- intros [H1 [H2 [H3|[H3 H4]]]].
           ++ f_equal. assert (~ (c <= i)%nat).
              { intros L. assert (x < nth i edges 0) by (apply C3; lia). lra. }
              assert (~ (S i < c)%nat).
              { intros L. assert (nth (S i) edges 0 <= x) by (apply C2; lia). lra. }
              lia.
           ++ exfalso. apply E. rewrite H4. f_equal. lia.
Qed.

Lemma bin_number_range edges x : increasing edges -> (2 <= length edges)%nat ->
  (exists i, bin_number edges x = Some i) <-> in_range edges x.
Proof.
  intros Hinc Hlen. unfold in_range. set (n := length edges) in *. split.
  - intros [i H]. apply bin_number_spec in H; auto. destruct H as [H1 [H2 H3]]. fold n in H1, H3. split.
    + destruct i as [|i]; [auto|]. assert (nth 0 edges 0 < nth (S i) edges 0) by (apply Hinc; fold n; lia). lra.
    + destruct (Nat.eq_dec (S i) (n - 1)) as [<-|Hne]; [destruct H3 as [|[_ ]]; lra|].
      assert (nth (S i) edges 0 < nth (n - 1) edges 0) by (apply Hinc; fold n; lia).
      destruct H3 as [|[]]; lra.
  - intros [H1 H2]. unfold bin_number.
    destruct (count_le_spec edges x Hinc) as [C1 [C2 C3]].
    set (c := length (filter (fun e => Rleb e x) edges)) in *.
    rewrite last_nth. fold n in C1, C3 |- *.
    assert (Hc : (1 <= c)%nat).
    { destruct c; [|lia]. assert (x < nth 0 edges 0) by (apply C3; lia). lra. }
    destruct (Reqb_spec x (nth (n - 1) edges 0)) as [E|E].
    + assert (c = n).
      { destruct (Nat.eq_dec c n) as [|Hne]; auto. exfalso.
        assert (x < nth (n - 1) edges 0) by (apply C3; lia). lra. }
      destruct (Nat.eqb_spec (c - 1) 0); [lia|]. destruct (Nat.leb_spec n (c - 1)); [lia|]. cbn. eauto.
    + assert (c < n)%nat.
      { destruct (Nat.lt_ge_cases c n) as [|Hge]; auto. exfalso.
        assert (nth (n - 1) edges 0 <= x) by (apply C2; lia). lra. }
      destruct (Nat.eqb_spec c 0); [lia|]. destruct (Nat.leb_spec n c); [lia|]. cbn. eauto.
Qed.

Lemma opt_eqb_spec o i : opt_eqb o i = true <-> o = Some i.
Proof.
  destruct o as [j|]; cbn; [|split; discriminate]. rewrite Nat.eqb_eq. split; [now intros ->|now injection 1].
Qed.

(** Distributing a list over classes 0..n-1 loses and duplicates nothing. *)
Lemma partition_perm {A} (cls : A -> option nat) n (l : list A) :
  (forall a i, In a l -> cls a = Some i -> (i < n)%nat) ->
  Permutation (concat (map (fun i => filter (fun a => opt_eqb (cls a) i) l) (seq 0 n)))
              (filter (fun a => match cls a with Some _ => true | None => false end) l).
Proof.
  intros H. induction l as [|a l IH].
  - cbn [filter]. clear. induction (seq 0 n) as [|i s IH]; cbn; auto.
  - cbn [filter].
    assert (IH' := IH (fun b i Hb => H b i (or_intror Hb))). clear IH.
    destruct (cls a) as [k|] eqn:Ek.
    + assert (Hk : (k < n)%nat) by (apply (H a k); [now left|auto]).
      assert (E : seq 0 n = seq 0 k ++ k :: seq (S k) (n - S k)).
      { replace n with (k + S (n - S k))%nat at 1 by lia. rewrite seq_app. reflexivity. }
      rewrite E in IH' |- *. rewrite !map_app, !concat_app in *. cbn [map concat] in *.
      cbn [opt_eqb]. rewrite Nat.eqb_refl.
      assert (G : forall s m, (s + m <= k \/ k < s)%nat ->
        map (fun i => if Nat.eqb k i then a :: filter (fun a0 => opt_eqb (cls a0) i) l
                      else filter (fun a0 => opt_eqb (cls a0) i) l) (seq s m) =
        map (fun i => filter (fun a0 => opt_eqb (cls a0) i) l) (seq s m)).
      { intros s m Hs. apply map_ext_in. intros i Hi. apply in_seq in Hi.
        destruct (Nat.eqb_spec k i); [lia|reflexivity]. }
      rewrite !G by lia. cbn [app].
      eapply Permutation_trans; [symmetry; apply Permutation_middle|]. now apply perm_skip.
    + cbn [opt_eqb]. exact IH'.
Qed.
