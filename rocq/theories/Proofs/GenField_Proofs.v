(** Proofs about the synthetic fields. *)
From Coq Require Import Reals List ZArith Arith Bool Lra Lia.
From Coquelicot Require Import Complex.
From Coq Require Import List.
From Verif Require Import Lib.PyBase Lib.RSum Lib.Fl Lib.PySlice Lib.Arr Lib.DFT Lib.DFT2 Lib.DFT3
  Spec.Freq Spec.EllipFit Spec.Fields Model.StatsUtils Model.Psds Model.EllipPlaw Model.GenField Proofs.Psds_Proofs Proofs.EllipPlaw_Proofs.
Import ListNotations.
Local Open Scope R_scope.

(** ** Running assignments *)

Section Run.
Context {I : Type} (eqb : I -> I -> bool) (eqb_ok : forall a b, eqb a b = true <-> a = b) (s : I -> I).

Lemma find_map (f : I -> I) dst i :
  (In i dst -> find (fun p => eqb (fst p) i) (combine dst (map f dst)) = Some (i, f i)) /\
  (~ In i dst -> find (fun p => eqb (fst p) i) (combine dst (map f dst)) = None).
Proof.
  induction dst as [|a dst [IH1 IH2]]; cbn [map combine find fst].
  - split; [intros []|reflexivity].
  - destruct (eqb a i) eqn:E.
    + apply eqb_ok in E. subst a. split; [reflexivity|]. intros H. exfalso. apply H. now left.
    + assert (Hne : a <> i) by (intros ->; rewrite (proj2 (eqb_ok i i) eq_refl) in E; discriminate).
      split.
      * intros [H|H]; [contradiction|]. now apply IH1.
      * intros H. apply IH2. intros H'. apply H. now right.
Qed.

Definition good (st : stmt I) : Prop := match st with ConjTo dst src => src = map s dst | RealAt _ => True end.
Definition dsts (l : list (stmt I)) : list I := flat_map (fun st => match st with ConjTo dst _ => dst | RealAt _ => [] end) l.
Definition reals (l : list (stmt I)) : list I := flat_map (fun st => match st with ConjTo _ _ => [] | RealAt i => [i] end) l.

Lemma run_spec l : (forall st, In st l -> good st) ->
  (forall i, In i (dsts l) -> ~ In (s i) (dsts l) /\ ~ In (s i) (reals l) /\ ~ In i (reals l)) ->
  forall o, exists o', run eqb l o = Ok o' /\
    (forall i, In i (dsts l) -> o' i = Cconj (o (s i))) /\
    (forall i, In i (reals l) -> o' i = RtoC (fst (o i))) /\
    (forall i, ~ In i (dsts l) -> ~ In i (reals l) -> o' i = o i).
Proof.
  induction l as [|st l IH]; intros Hg Hd o.
  - exists o. cbn. repeat split; intros; try contradiction.
  - assert (Hg' : forall st, In st l -> good st) by (intros; apply Hg; now right).
    specialize (Hg st ltac:(now left)).
    destruct st as [dst src|k]; cbn [good] in Hg.
    + cbn [dsts reals flat_map app] in Hd. fold (dsts l) in Hd. fold (reals l) in Hd.
      assert (Hd' : forall i, In i (dsts l) -> ~ In (s i) (dsts l) /\ ~ In (s i) (reals l) /\ ~ In i (reals l)).
      { intros i Hi. destruct (Hd i) as [A [B D]]; [apply in_or_app; now right|]. repeat split; auto.
        intros H. apply A. apply in_or_app. now right. }
      cbn [run exec]. subst src. rewrite map_length, Nat.eqb_refl. cbn [bind].
      set (o1 := fun i => match find (fun p => eqb (fst p) i) (combine dst (map s dst)) with Some p => Cconj (o (snd p)) | None => o i end).
      destruct (IH Hg' Hd' o1) as [o' [R [P1 [P2 P3]]]]. exists o'. split; [exact R|].
      cbn [dsts reals flat_map app]. fold (dsts l). fold (reals l).
      assert (O1 : forall i, In i dst -> o1 i = Cconj (o (s i))) by (intros i Hi; unfold o1; now rewrite (proj1 (find_map s dst i) Hi)).
      assert (O2 : forall i, ~ In i dst -> o1 i = o i) by (intros i Hi; unfold o1; now rewrite (proj2 (find_map s dst i) Hi)).
      assert (Hdec : forall (i : I) (L : list I), In i L \/ ~ In i L).
      { intros i L. destruct (existsb (eqb i) L) eqn:E.
        - left. apply existsb_exists in E. destruct E as [x [Hx Ex]]. apply eqb_ok in Ex. now subst.
        - right. intros H. assert (existsb (eqb i) L = true); [|congruence]. apply existsb_exists. exists i. split; [exact H|now apply eqb_ok]. }
      repeat split.
      * intros i Hi. destruct (Hd i Hi) as [A [B D]].
        assert (Ns : ~ In (s i) dst) by (intros H; apply A; apply in_or_app; now left).
        destruct (Hdec i (dsts l)) as [H|H].
        -- rewrite P1 by exact H. now rewrite O2.
        -- rewrite P3 by assumption. apply O1. apply in_app_or in Hi. destruct Hi; [assumption|contradiction].
      * intros i Hi. rewrite P2 by exact Hi. rewrite O2; [reflexivity|].
        intros H. destruct (Hd i) as [_ [_ D]]; [apply in_or_app; now left|]. contradiction.
      * intros i H1 H2. rewrite P3; [|intros H; apply H1; apply in_or_app; now right|exact H2].
        apply O2. intros H. apply H1. apply in_or_app. now left.
    + cbn [dsts reals flat_map app] in Hd. fold (dsts l) in Hd. fold (reals l) in Hd.
      assert (Hd' : forall i, In i (dsts l) -> ~ In (s i) (dsts l) /\ ~ In (s i) (reals l) /\ ~ In i (reals l)).
      { intros i Hi. destruct (Hd i Hi) as [A [B D]]. repeat split; auto; intros H; [apply B|apply D]; now right. }
      cbn [run exec bind].
      set (o1 := fun i => if eqb k i then RtoC (fst (o i)) else o i).
      destruct (IH Hg' Hd' o1) as [o' [R [P1 [P2 P3]]]]. exists o'. split; [exact R|].
      cbn [dsts reals flat_map app]. fold (dsts l). fold (reals l).
      assert (O2 : forall i, k <> i -> o1 i = o i).
      { intros i Hi. unfold o1. destruct (eqb k i) eqn:E; [apply eqb_ok in E; contradiction|reflexivity]. }
      assert (O3 : fst (o1 k) = fst (o k)) by (unfold o1; rewrite (proj2 (eqb_ok k k) eq_refl); reflexivity).
      assert (O4 : o1 k = RtoC (fst (o k))) by (unfold o1; rewrite (proj2 (eqb_ok k k) eq_refl); reflexivity).
      assert (Hdec : forall (i : I) (L : list I), In i L \/ ~ In i L).
      { intros i L. destruct (existsb (eqb i) L) eqn:E.
        - left. apply existsb_exists in E. destruct E as [x [Hx Ex]]. apply eqb_ok in Ex. now subst.
        - right. intros H. assert (existsb (eqb i) L = true); [|congruence]. apply existsb_exists. exists i. split; [exact H|now apply eqb_ok]. }
      repeat split.
      * intros i Hi. rewrite P1 by exact Hi. destruct (Hd i Hi) as [A [B D]]. rewrite O2; [reflexivity|]. intros E. apply B. now left.
      * intros i Hi. destruct (Hdec i (reals l)) as [H|H].
        -- rewrite P2 by exact H. destruct (eqb k i) eqn:E; [apply eqb_ok in E; subst; now rewrite O3|].
           rewrite O2; [reflexivity|]. intros ->. rewrite (proj2 (eqb_ok i i) eq_refl) in E. discriminate.
        -- destruct Hi as [->|Hi]; [|contradiction]. rewrite P3; [exact O4| |exact H].
           intros H'. destruct (Hd i H') as [_ [_ D]]. apply D. now left.
      * intros i H1 H2. rewrite P3; [|exact H1|intros H; apply H2; now right]. apply O2. intros E. apply H2. now left.
Qed.
End Run.

Lemma eqb2_ok a b : eqb2 a b = true <-> a = b.
Proof.
  destruct a, b. unfold eqb2. cbn [fst snd]. rewrite andb_true_iff, !Nat.eqb_eq. split; [intros [-> ->]; reflexivity|intros E; inversion E; auto].
Qed.
Lemma eqb3_ok a b : eqb3 a b = true <-> a = b.
Proof.
  destruct a as [a0 a1], b as [b0 b1]. unfold eqb3. cbn [fst snd]. rewrite andb_true_iff, Nat.eqb_eq, eqb2_ok.
  split; [intros [-> ->]; reflexivity|intros E; inversion E; auto].
Qed.

(** ** The slices *)

Lemma down_idx N m : (m < N)%nat ->
  slice_idx (Some (Z.of_nat N)) (Some (Z.of_nat m)) (-1) N = map (fun r => (N - r)%nat) (seq 1 (N - 1 - m)).
Proof.
  intros H. unfold slice_idx, slice_bounds, adjust. change (-1 <? 0)%Z with true. cbv beta iota zeta.
  destruct (Z.ltb_spec (Z.of_nat N) 0); [lia|]. destruct (Z.ltb_spec (Z.of_nat m) 0); [lia|].
  rewrite !Z.min_l by lia. rewrite Z.min_r by lia.
  unfold slice_count. change (-1 <? 0)%Z with true. cbv iota.
  assert (E : Z.to_nat (if (Z.of_nat m <? Z.of_nat N - 1)%Z then ((Z.of_nat N - 1 - Z.of_nat m - 1) / - -1 + 1)%Z else 0%Z) = (N - 1 - m)%nat).
  { destruct (Z.ltb_spec (Z.of_nat m) (Z.of_nat N - 1)); [|lia]. change (- -1)%Z with 1%Z. rewrite Z.div_1_r. lia. }
  rewrite E. rewrite <- seq_shift, map_map. apply map_ext_in. intros j Hj. apply in_seq in Hj. lia.
Qed.

Lemma rows_down N : (1 <= N)%nat -> slice_idx None (Some 0%Z) (-1) N = map (fun r => (N - r)%nat) (seq 1 (N - 1)).
Proof.
  intros H. pose proof (down_idx N 0 ltac:(lia)) as E. rewrite Nat.sub_0_r in E. rewrite <- E.
  unfold slice_idx, slice_bounds, adjust. change (-1 <? 0)%Z with true. cbv beta iota zeta.
  destruct (Z.ltb_spec (Z.of_nat N) 0); [lia|]. change (Z.of_nat 0) with 0%Z. now rewrite (Z.min_l (Z.of_nat N - 1) (Z.of_nat N)) by lia.
Qed.

Lemma cols_down w c : (c = 1 \/ c = 2)%nat -> (1 <= w)%nat ->
  slice_idx (Some (- Z.of_nat c)%Z) (Some 0%Z) (-1) w = map (fun j => (w - c - j)%nat) (seq 0 (w - c)).
Proof.
  intros Hc Hw. unfold slice_idx, slice_bounds, adjust. change (-1 <? 0)%Z with true. cbv beta iota zeta.
  destruct (Z.ltb_spec (- Z.of_nat c) 0); [|lia]. change (0 <? 0)%Z with false. cbv iota.
  unfold slice_count. change (-1 <? 0)%Z with true. cbv iota.
  assert (E : Z.to_nat (if (Z.min (Z.of_nat w - 1) 0 <? Z.max (-1) (- Z.of_nat c + Z.of_nat w))%Z then
     ((Z.max (-1) (- Z.of_nat c + Z.of_nat w) - Z.min (Z.of_nat w - 1) 0 - 1) / - -1 + 1)%Z else 0%Z) = (w - c)%nat).
  { rewrite Z.min_r by lia. destruct (Z.ltb_spec 0 (Z.max (-1) (- Z.of_nat c + Z.of_nat w))).
    - change (- -1)%Z with 1%Z. rewrite Z.div_1_r. lia.
    - lia. }
  rewrite E. apply map_ext_in. intros j Hj. apply in_seq in Hj. lia.
Qed.

(** Rows whose value is copied: 1 .. half - 1, with their opposites. *)
Definition half (N : nat) : nat := if Nat.even N then (N / 2)%nat else S (N / 2).

Lemma parity N : (1 <= N)%nat -> exists m, np1 N = m /\ ((Nat.even N = true /\ N = (2 * m)%nat /\ half N = m /\ (1 <= m)%nat) \/ (Nat.even N = false /\ N = (2 * m + 1)%nat /\ half N = S m)).
Proof.
  intros H. unfold np1, half. rewrite <- Nat.negb_even. destruct (Nat.even N) eqn:E; cbn [negb].
  - apply Nat.even_spec in E. destruct E as [m E]. exists m.
    assert (D : (N / 2 = m)%nat) by (rewrite E, Nat.mul_comm, Nat.div_mul; lia). rewrite D. split; [reflexivity|]. left. repeat split; lia.
  - assert (O : Nat.odd N = true) by (rewrite <- Nat.negb_even, E; reflexivity). apply Nat.odd_spec in O. destruct O as [m O]. exists m.
    assert (D : (N / 2 = m)%nat). { rewrite O, Nat.add_comm, Nat.mul_comm, Nat.div_add by lia. reflexivity. }
    assert (D' : ((N - 1) / 2 = m)%nat) by (rewrite O, Nat.add_sub, Nat.mul_comm, Nat.div_mul; lia).
    rewrite D, D'. split; [reflexivity|]. right. repeat split; lia.
Qed.

Lemma up_idx N n : (n <= N)%nat -> slice_idx (Some 1%Z) (Some (Z.of_nat n)) 1 N = seq 1 (n - 1).
Proof. intros H. exact (slice_idx_range 1 n N H). Qed.

Definition s2 (N : nat) (p : nat * nat) : nat * nat := ((N - fst p)%nat, snd p).

Lemma column_s2 N rows c : column (map (fun r => (N - r)%nat) rows) c = map (s2 N) (column rows c).
Proof. unfold column. rewrite !map_map. reflexivity. Qed.

(** ** The two-dimensional map *)

Lemma in_column rows c p : In p (column rows c) <-> In (fst p) rows /\ snd p = c.
Proof.
  unfold column. rewrite in_map_iff. destruct p as [a b]. cbn [fst snd]. split.
  - intros [r [E H]]. inversion E; subst. auto.
  - intros [H ->]. exists a. auto.
Qed.

Lemma rfft_spec N o : (1 <= N)%nat -> exists o', run eqb2 (sym2 N) o = Ok o' /\
  let m := np1 N in
  (forall r c, (1 <= r < half N)%nat -> c = 0%nat \/ c = m -> o' (r, c) = Cconj (o ((N - r)%nat, c))) /\
  (forall c, c = 0%nat \/ c = m -> o' (0%nat, c) = RtoC (fst (o (0%nat, c)))) /\
  (forall c, Nat.even N = true -> c = 0%nat \/ c = m -> o' (m, c) = RtoC (fst (o (m, c)))) /\
  (forall r c, (half N <= r)%nat -> (Nat.even N = true -> r <> m) -> o' (r, c) = o (r, c)) /\
  (forall r c, c <> 0%nat -> c <> m -> o' (r, c) = o (r, c)).
Proof.
  intros HN. destruct (parity N HN) as [m [Em HP]]. cbv zeta. rewrite Em.
  assert (Hgood : forall st, In st (sym2 N) -> good (s2 N) st).
  { intros st Hst. unfold sym2 in Hst. cbv zeta in Hst. rewrite Em in Hst.
    rewrite down_idx in Hst by lia.
    apply in_app_or in Hst. destruct Hst as [Hst|[<-|[<-|[]]]]; [|exact I|exact I].
    destruct HP as [[Ev [EN [Eh _]]]|[Ev [EN Eh]]]; rewrite Ev in Hst.
    - rewrite up_idx in Hst by lia. replace (N - 1 - m)%nat with (m - 1)%nat in Hst by lia.
      destruct Hst as [<-|[<-|[<-|[<-|[]]]]]; cbn [good]; try exact I; apply column_s2.
    - rewrite up_idx in Hst by lia. replace (N - 1 - m)%nat with (m + 1 - 1)%nat in Hst by lia.
      destruct Hst as [<-|[<-|[]]]; cbn [good]; apply column_s2. }
  assert (HD : forall r c, In (r, c) (dsts (sym2 N)) <-> (1 <= r < half N)%nat /\ (c = 0%nat \/ c = m)).
  { intros r c. unfold sym2, dsts. cbv zeta. rewrite Em, flat_map_app, in_app_iff. cbn [flat_map app In].
    destruct HP as [[Ev [EN [Eh _]]]|[Ev [EN Eh]]]; rewrite Ev, Eh; rewrite up_idx by lia; cbn [flat_map app]; rewrite ?app_nil_r, in_app_iff, !in_column; cbn [fst snd]; rewrite in_seq; split; [intros [[[? ?]|[? ?]]|[]]|intros [? [?|?]]|intros [[[? ?]|[? ?]]|[]]|intros [? [?|?]]]; try (split; [lia|auto]); left; (left; split; [lia|assumption]) || (right; split; [lia|assumption]). }
  assert (HR : forall r c, In (r, c) (reals (sym2 N)) <-> (c = 0%nat \/ c = m) /\ (r = 0%nat \/ (Nat.even N = true /\ r = m))).
  { intros r c. unfold sym2, reals. cbv zeta. rewrite Em, flat_map_app, in_app_iff. cbn [flat_map app In].
    destruct HP as [[Ev [EN [Eh _]]]|[Ev [EN Eh]]]; rewrite Ev; cbn [flat_map app In]; split.
    - intros [[E|[E|[]]]|[E|[E|[]]]]; inversion E; auto.
    - intros [[->| ->] [->|[_ ->]]]; auto.
    - intros [[]|[E|[E|[]]]]; inversion E; auto.
    - intros [[->| ->] [->|[X _]]]; auto; discriminate. }
  assert (Hh : (half N <= N)%nat /\ (forall r, (1 <= r < half N)%nat -> (half N <= N - r)%nat /\ (Nat.even N = true -> (m < N - r)%nat /\ (r < m)%nat))).
  { destruct HP as [[Ev [EN [Eh _]]]|[Ev [EN Eh]]]; rewrite Eh; (split; [lia|]); intros r Hr; split; [lia| |lia|]; intros; try (rewrite Ev in *; discriminate); lia. }
  destruct (run_spec eqb2 eqb2_ok (s2 N) (sym2 N) Hgood) with (o := o) as [o' [R [P1 [P2 P3]]]].
  { intros [r c] Hi. apply HD in Hi. destruct Hi as [Hr Hc]. unfold s2. cbn [fst snd]. rewrite HD, !HR.
    destruct (proj2 Hh r Hr) as [A B]. repeat split.
    - intros [X _]. lia.
    - intros [_ [X|[X X']]]; [lia|]. specialize (B X). lia.
    - intros [_ [X|[X X']]]; [lia|]. specialize (B X). lia. }
  exists o'. split; [exact R|]. repeat split.
  - intros r c Hr Hc. apply (P1 (r, c)). apply HD. auto.
  - intros c Hc. apply P2. apply HR. auto.
  - intros c Ev Hc. apply P2. apply HR. auto.
  - intros r c Hr Hm. apply P3; [rewrite HD; intros [X _]; lia|rewrite HR; intros [_ [X|[X X']]]].
    + assert (half N = 0%nat) by lia. destruct HP as [[Ev [EN [Eh ?]]]|[Ev [EN Eh]]]; lia.
    + apply (Hm X X').
  - intros r c H0 Hm. apply P3; [rewrite HD; intros [_ [X|X]]; contradiction|rewrite HR; intros [[X|X] _]; contradiction].
Qed.

(** Columns 0 and (even sizes) N/2 are Hermitian. *)
Lemma rfft_columns N o o' : (1 <= N)%nat -> run eqb2 (sym2 N) o = Ok o' ->
  forall c, c = 0%nat \/ c = np1 N -> forall r, (r < N)%nat -> o' (opposite N r, c) = Cconj (o' (r, c)).
Proof.
  intros HN HR c Hc r Hr. destruct (rfft_spec N o HN) as [o'' [HR' [P1 [P2 [P3 [P4 P5]]]]]].
  rewrite HR in HR'. apply (f_equal (fun x => match x with Ok y => y | Err _ => o end)) in HR'. subst o''.
  destruct (parity N HN) as [m [Em HP]]. rewrite Em in *.
  unfold opposite. rewrite neg_mod_val by exact Hr. destruct (Nat.eqb_spec r 0) as [->|Hr0].
  - rewrite P2 by exact Hc. now rewrite Cconj_RtoC.
  - destruct HP as [[Ev [EN [Eh _]]]|[Ev [EN Eh]]].
    + destruct (lt_eq_lt_dec r m) as [[L|E]|L].
      * rewrite (P1 r c) by (auto; lia). rewrite Cconj_conj. apply P4; [lia|]. intros _. lia.
      * subst r. replace (N - m)%nat with m by lia. rewrite P3 by auto. now rewrite Cconj_RtoC.
      * rewrite (P1 (N - r)%nat c) by (auto; lia). replace (N - (N - r))%nat with r by lia.
        f_equal. symmetry. apply P4; [lia|]. intros _. lia.
    + destruct (le_lt_dec r m) as [L|L].
      * rewrite (P1 r c) by (auto; lia). rewrite Cconj_conj. apply P4; [lia|]. rewrite Ev. discriminate.
      * rewrite (P1 (N - r)%nat c) by (auto; lia). replace (N - (N - r))%nat with r by lia.
        f_equal. symmetry. apply P4; [lia|]. rewrite Ev. discriminate.
Qed.

(** ** Extending half a map *)

Definition extend {J} (op : J -> J) (N w : nat) (out : J -> nat -> C) (i : J) (k : nat) : C :=
  if Nat.ltb k w then out i k else Cconj (out (op i) (N - k)%nat).

Lemma extend_hermitian {J} (op : J -> J) (dom : J -> Prop) N out : (1 <= N)%nat ->
  (forall i, dom i -> dom (op i) /\ op (op i) = i) ->
  (forall i, dom i -> out (op i) 0%nat = Cconj (out i 0%nat)) ->
  (Nat.even N = true -> forall i, dom i -> out (op i) (np1 N) = Cconj (out i (np1 N))) ->
  forall i k, dom i -> (k < N)%nat -> extend op N (S (np1 N)) out (op i) (opposite N k) = Cconj (extend op N (S (np1 N)) out i k).
Proof.
  intros HN Hop H0 Hm i k Hi Hk. unfold extend, opposite. rewrite neg_mod_val by exact Hk.
  destruct (parity N HN) as [m [Em HP]]. rewrite Em in *. destruct (Hop i Hi) as [Hi' Hii].
  destruct (Nat.eqb_spec k 0) as [->|Hk0].
  - destruct (Nat.ltb_spec 0 (S m)); [|lia]. now apply H0.
  - destruct (Nat.ltb_spec k (S m)) as [L|L].
    + destruct (Nat.ltb_spec (N - k) (S m)) as [L2|L2].
      * destruct HP as [[Ev [EN _]]|[Ev [EN _]]]; [|lia]. assert (k = m) as -> by lia. replace (N - m)%nat with m by lia. now apply Hm.
      * rewrite Hii. now replace (N - (N - k))%nat with k by lia.
    + destruct (Nat.ltb_spec (N - k) (S m)) as [L2|L2].
      * now rewrite Cconj_conj.
      * exfalso. destruct HP as [[Ev [EN _]]|[Ev [EN _]]]; lia.
Qed.

Lemma opposite_lt N k : (1 <= N)%nat -> (opposite N k < N)%nat.
Proof. intros. unfold opposite. apply Nat.mod_upper_bound. lia. Qed.

(** The inverse real transform of a Hermitian sequence. *)
Lemma c2r_idft m G x : (1 <= m)%nat ->
  (forall k, (k < 2 * m)%nat -> G (opposite (2 * m) k) = Cconj (G k)) ->
  RtoC (c2r (S m) G x) = idft1 (2 * m) G x.
Proof.
  intros Hm HG. unfold c2r, idft1. replace (S m - 1)%nat with m by lia. cbv zeta.
  rewrite (herm_sum m (fun k => Cmult (G k) (Cconj (tw (2 * m) x k)))); [now rewrite <- RtoC_mult|exact Hm|].
  intros k Hk. unfold opposite in HG. rewrite HG by exact Hk. rewrite Cconj_mult. f_equal. now rewrite tw_neg_r by lia.
Qed.

Lemma c2r_ext w G H x : (forall k, (k < w)%nat -> G k = H k) -> c2r w G x = c2r w H x.
Proof. intros E. unfold c2r. f_equal. apply rsum_ext. intros k Hk. now rewrite E. Qed.

(** The full Fourier map of the symmetric half map. *)
Definition full2 (N : nat) (o : nat * nat -> C) (ky kx : nat) : C :=
  extend (opposite N) N (S (np1 N)) (fun r c => o (r, c)) ky kx.

Lemma full2_hermitian N o o' : (1 <= N)%nat -> run eqb2 (sym2 N) o = Ok o' -> hermitian2 N (full2 N o').
Proof.
  intros HN HR ky kx Hy Hx. unfold full2.
  apply (extend_hermitian (opposite N) (fun i => (i < N)%nat)); auto.
  - intros i Hi. split; [now apply opposite_lt|]. unfold opposite. now apply neg_neg.
  - intros i Hi. apply (rfft_columns N o o' HN HR); auto.
  - intros _ i Hi. apply (rfft_columns N o o' HN HR); auto.
Qed.

(** The image of an even size is the inverse transform of the full map. *)
Lemma image_idft N o y x : (1 <= N)%nat -> Nat.even N = true -> hermitian2 N (full2 N o) -> (y < N)%nat ->
  RtoC (c2r (S (np1 N)) (fun kx => idft1 N (fun ky => o (ky, kx)) y) x) = idft2 N N (full2 N o) y x.
Proof.
  intros HN Ev HH Hy. destruct (parity N HN) as [m [Em HP]]. destruct HP as [[_ [EN [_ Hm]]]|[Ev' _]]; [|congruence].
  rewrite idft2_swap. rewrite Em. rewrite (c2r_ext _ _ (fun kx => idft1 N (fun ky => full2 N o ky kx) y)).
  - pose proof (c2r_idft m (fun kx => idft1 N (fun ky => full2 N o ky kx) y) x Hm) as K. rewrite <- EN in K. apply K. clear K.
    intros k Hk. rewrite <- idft1_conj_neg. apply idft1_ext. intros ky Hky.
    assert (E : full2 N o ky (opposite N k) = Cconj (full2 N o (opposite N ky) k)).
    { rewrite <- (HH (opposite N ky) k) by (auto; apply opposite_lt; lia). f_equal. unfold opposite. now rewrite neg_neg. }
    exact E.
  - intros k Hk. apply idft1_ext. intros ky _. unfold full2, extend. destruct (Nat.ltb_spec k (S (np1 N))); [reflexivity|lia].
Qed.

Lemma seq_nth_map {A} (f : nat -> A) n i d : (i < n)%nat -> nth i (map f (seq 0 n)) d = f i.
Proof. intros H. rewrite (nth_indep _ d (f 0%nat)) by (now rewrite map_length, seq_length). rewrite map_nth, seq_nth by exact H. reflexivity. Qed.

Lemma extended_rfft_ok N p th e ang : (1 <= N)%nat -> 0 < e <= 1 -> exists o,
  extended_rfft N p th e ang = Ok o /\ run eqb2 (sym2 N) (raw_output N p th e ang) = Ok o.
Proof.
  intros HN He. unfold extended_rfft.
  destruct (Rltb_spec 1 e); [lra|]. destruct (Rleb_spec e 0); [lra|]. cbn [orb].
  destruct (Nat.eqb_spec N 0); [lia|].
  destruct (rfft_spec N (raw_output N p th e ang) HN) as [o [R _]]. exists o. auto.
Qed.

Lemma full_map_ok N o : (1 <= N)%nat -> exists full, full_map N o = Ok full /\ full = tab2 N N (full2 N o).
Proof.
  intros HN. destruct (parity N HN) as [m [Em HP]].
  assert (C : slice_idx (Some (if Nat.even N then -2 else -1)%Z) (Some 0%Z) (-1) (S m) = map (fun j => (N - S m - j)%nat) (seq 0 (N - S m))).
  { destruct HP as [[Ev [EN [_ Hm]]]|[Ev [EN _]]]; rewrite Ev.
    - change (-2)%Z with (- Z.of_nat 2)%Z. rewrite (cols_down (S m) 2) by (auto; lia). now replace (S m - 2)%nat with (N - S m)%nat by lia.
    - change (Some (-1)%Z) with (Some (- Z.of_nat 1)%Z). rewrite (cols_down (S m) 1) by (auto; lia). now replace (S m - 1)%nat with (N - S m)%nat by lia. }
  unfold full_map. cbv zeta. rewrite Em, C, map_length, seq_length.
  assert (Hw : (S m <= N)%nat) by (destruct HP as [[Ev [EN [_ Hm]]]|[Ev [EN _]]]; lia).
  destruct (Nat.eqb_spec (S m + (N - S m)) N); [|lia].
  eexists. split; [reflexivity|]. unfold tab2. apply tab1_ext. intros r Hr.
  change (Some 1%Z) with (Some (Z.of_nat 1)). rewrite slice_idx_from, rows_down by exact HN.
  apply nth_ext with (d := RtoC 0) (d' := RtoC 0).
  - rewrite app_length, !tab1_length. lia.
  - intros j Hj. rewrite app_length, !tab1_length in Hj.
    rewrite (tab1_nth N) by lia. unfold full2, extend. rewrite Em.
    destruct (Nat.ltb_spec j (S m)) as [L|L].
    + rewrite app_nth1 by (now rewrite tab1_length). now rewrite tab1_nth.
    + rewrite app_nth2 by (rewrite tab1_length; lia). rewrite tab1_length, tab1_nth by lia.
      rewrite seq_nth_map by lia. replace (N - S m - (j - S m))%nat with (N - j)%nat by lia.
      unfold opposite. rewrite neg_mod_val by exact Hr.
      assert (eqb_ok : forall a b : nat, Nat.eqb a b = true <-> a = b) by (intros; apply Nat.eqb_eq).
      destruct (Nat.eqb_spec r 0) as [->|Hr0].
      * rewrite (proj2 (find_map Nat.eqb eqb_ok (fun r => (N - r)%nat) (seq 1 (N - 1)) 0%nat)); [reflexivity|].
        rewrite in_seq. lia.
      * rewrite (proj1 (find_map Nat.eqb eqb_ok (fun r => (N - r)%nat) (seq 1 (N - 1)) r)); [reflexivity|].
        rewrite in_seq. lia.
Qed.

Lemma unshift_centred N k : (k < N)%nat -> unshift N (centred N k) = k.
Proof.
  intros H. unfold unshift, centred. rewrite Nat.add_mod_idemp_l by lia.
  assert (Hd : (N / 2 <= N)%nat) by (apply Nat.div_le_upper_bound; lia).
  replace (k + N / 2 + (N - N / 2))%nat with (k + 1 * N)%nat by lia. rewrite Nat.mod_add by lia. now apply Nat.mod_small.
Qed.
Lemma centred_lt N k : (1 <= N)%nat -> (centred N k < N)%nat.
Proof. intros. unfold centred. apply Nat.mod_upper_bound. lia. Qed.

(** C55: the returned Fourier map is Hermitian. *)
Lemma extended_fft_hermitian N p th e ang : (1 <= N)%nat -> 0 < e <= 1 -> exists F,
  extended_fft N p th e ang = Ok F /\ has_shape2 N N F /\
  hermitian2 N (fun ky kx => at2 (RtoC 0) F (centred N ky) (centred N kx)).
Proof.
  intros HN He. destruct (extended_rfft_ok N p th e ang HN He) as [o [E R]].
  destruct (full_map_ok N o HN) as [full [Ef Ef']]. unfold extended_fft. rewrite E. cbn [bind]. rewrite Ef. cbn [bind].
  eexists. split; [reflexivity|]. rewrite Ef', fftshift2_tab. split.
  - unfold has_shape2, tab2. rewrite tab1_length. split; [reflexivity|]. intros r Hr. apply in_map_iff in Hr.
    destruct Hr as [i [<- _]]. apply tab1_length.
  - intros ky kx Hy Hx. rewrite !at2_tab by (apply centred_lt; exact HN).
    rewrite !unshift_centred by (auto; apply opposite_lt; exact HN).
    apply (full2_hermitian N _ _ HN R); assumption.
Qed.

(** The image. *)
Lemma make_extended_even N p th e ang : (1 <= N)%nat -> Nat.even N = true -> 0 < e <= 1 -> exists img o,
  make_extended N p th e ang = Ok img /\ extended_rfft N p th e ang = Ok o /\ run eqb2 (sym2 N) (raw_output N p th e ang) = Ok o /\
  has_shape2 N N img /\
  (forall y x, (y < N)%nat -> (x < N)%nat -> RtoC (at2 0 img y x) = idft2 N N (full2 N o) y x) /\
  (forall ky kx, (ky < N)%nat -> (kx < N)%nat -> dft2 N N (fun y x => RtoC (at2 0 img y x)) ky kx = full2 N o ky kx).
Proof.
  intros HN Ev He. destruct (extended_rfft_ok N p th e ang HN He) as [o [E R]].
  destruct (parity N HN) as [m [Em HP]]. destruct HP as [[_ [EN [_ Hm]]]|[Ev' _]]; [|congruence].
  unfold make_extended. rewrite E. cbn [bind]. unfold irfft2. rewrite Em. replace (2 * (S m - 1))%nat with N by lia.
  destruct (Nat.eqb_spec N 0); [lia|].
  eexists. exists o. split; [reflexivity|]. split; [reflexivity|]. split; [exact R|].
  assert (K : forall y x, (y < N)%nat -> (x < N)%nat ->
    RtoC (at2 0 (tab2 N N (fun y x => c2r (S m) (fun kx => idft1 N (fun ky => o (ky, kx)) y) x)) y x) = idft2 N N (full2 N o) y x).
  { intros y x Hy Hx. rewrite at2_tab by assumption. rewrite <- Em. apply image_idft; auto. apply (full2_hermitian N _ _ HN R). }
  split; [|split; [exact K|]].
  - unfold has_shape2, tab2. rewrite tab1_length. split; [reflexivity|]. intros r Hr. apply in_map_iff in Hr.
    destruct Hr as [i [<- _]]. apply tab1_length.
  - intros ky kx Hy Hx. rewrite (dft2_ext N N _ (idft2 N N (full2 N o))) by exact K. now apply dft2_idft2.
Qed.

Lemma make_extended_odd N p th e ang : (2 <= N)%nat -> Nat.odd N = true -> 0 < e <= 1 -> exists img,
  make_extended N p th e ang = Ok img /\ has_shape2 N (N - 1) img.
Proof.
  intros HN Od He. assert (HN1 : (1 <= N)%nat) by lia. destruct (extended_rfft_ok N p th e ang HN1 He) as [o [E R]].
  destruct (parity N HN1) as [m [Em HP]]. destruct HP as [[Ev _]|[_ [EN _]]]; [rewrite <- Nat.negb_even, Ev in Od; discriminate|].
  unfold make_extended. rewrite E. cbn [bind]. unfold irfft2. rewrite Em. replace (2 * (S m - 1))%nat with (N - 1)%nat by lia.
  destruct (Nat.eqb_spec (N - 1) 0); [lia|].
  eexists. split; [reflexivity|]. unfold has_shape2, tab2. rewrite tab1_length. split; [reflexivity|]. intros r Hr. apply in_map_iff in Hr.
  destruct Hr as [i [<- _]]. apply tab1_length.
Qed.

Lemma make_extended_bad N p th e ang : ~ (0 < e <= 1) -> make_extended N p th e ang = Err ValueError /\ extended_fft N p th e ang = Err ValueError.
Proof.
  intros H. unfold make_extended, extended_fft, extended_rfft.
  destruct (Rltb_spec 1 e); cbn [orb bind]; [auto|]. destruct (Rleb_spec e 0); cbn [bind]; [auto|]. exfalso. apply H. lra.
Qed.

Lemma make_extended_1 p th e ang : 0 < e <= 1 -> make_extended 1 p th e ang = Err ValueError.
Proof.
  intros He. destruct (extended_rfft_ok 1 p th e ang (le_n 1) He) as [o [E R]]. unfold make_extended. rewrite E. reflexivity.
Qed.

Lemma odd_size_refuted : ~ (forall N p th e ang, (1 <= N)%nat -> 0 < e <= 1 -> exists img, make_extended N p th e ang = Ok img /\ has_shape2 N N img).
Proof.
  intros H. destruct (H 3%nat 2 0 1 (fun _ _ => 0)) as [img [E [L1 L2]]]; [lia|lra|].
  destruct (make_extended_odd 3 2 0 1 (fun _ _ => 0)) as [img' [E' [L1' L2']]]; [lia|reflexivity|lra|].
  rewrite E in E'. inversion E'. subst img'. destruct img as [|r img]; [discriminate|].
  specialize (L2 r (or_introl eq_refl)). specialize (L2' r (or_introl eq_refl)). cbn in L2'. lia.
Qed.

(** ** The power *)

Lemma csqrt_norm z : Cnorm2 (csqrt z) = Cmod z.
Proof.
  assert (B : Rabs (fst z) <= Cmod z) by (rewrite Cmod_norm2; unfold Cnorm2; rewrite <- sqrt_Rsqr_abs; apply sqrt_le_1_alt; pose proof (Rle_0_sqr (snd z)); lra).
  assert (B1 : - Cmod z <= fst z <= Cmod z) by (apply Rabs_def2b in B || (unfold Rabs in B; destruct (Rcase_abs (fst z)); lra); lra).
  unfold csqrt, Cnorm2. cbn [fst snd]. rewrite Rsqr_mult. rewrite !Rsqr_sqrt by lra.
  replace ((if Rltb (snd z) 0 then -1 else 1)²) with 1; [field|].
  destruct (Rltb (snd z) 0); unfold Rsqr; ring.
Qed.

Lemma np1_half N : np1 N = (N / 2)%nat.
Proof.
  unfold np1. destruct (Nat.odd N) eqn:E; [|reflexivity]. apply Nat.odd_spec in E. destruct E as [k ->].
  replace (2 * k + 1 - 1)%nat with (k * 2)%nat by lia. rewrite Nat.div_mul by lia.
  apply (Nat.div_unique _ _ _ 1); lia.
Qed.

Lemma phase_norm_mean N ang : phase_norm N ang = csqrt (mean_sq N ang).
Proof.
  unfold phase_norm, mean_sq. rewrite <- np1_half. cbv zeta. f_equal. f_equal. apply csum_ext. intros i _. apply csum_ext. intros j _.
  unfold phases. rewrite <- cis_plus. f_equal. ring.
Qed.

Lemma Cmod_cis t : Cmod (cis t) = 1.
Proof. rewrite Cmod_norm2, cis_norm. apply sqrt_1. Qed.

Lemma mean_sq_le N ang : (1 <= N)%nat -> Cmod (mean_sq N ang) <= 1.
Proof.
  intros HN. unfold mean_sq. rewrite <- np1_half. rewrite Cmod_mult, Cmod_R.
  assert (P : 0 < INR (N * S (np1 N))) by (apply lt_0_INR; lia).
  rewrite Rabs_pos_eq by (left; now apply Rinv_0_lt_compat).
  apply (Rmult_le_reg_l (INR (N * S (np1 N)))); [exact P|]. rewrite <- Rmult_assoc, Rinv_r by lra. rewrite Rmult_1_l, Rmult_1_r.
  eapply Rle_trans; [apply Cmod_csum|].
  apply Rle_trans with (rsum N (fun _ => INR (S (np1 N)))).
  - apply rsum_le. intros i Hi. eapply Rle_trans; [apply Cmod_csum|].
    rewrite (rsum_ext _ _ (fun _ => 1)) by (intros; apply Cmod_cis). rewrite rsum_const. lra.
  - rewrite rsum_const, mult_INR. lra.
Qed.

Lemma Cnorm2_div a b : Cmod b <> 0 -> Cnorm2 (Cdiv a b) = Cnorm2 a / Cnorm2 b.
Proof.
  intros H. assert (Hb : Cnorm2 b <> 0) by (rewrite <- Cmod_sqr; intros Z; apply Rmult_integral in Z; destruct Z; contradiction).
  assert (b0 : b <> RtoC 0) by (intros ->; apply H; apply Cmod_0).
  assert (E : Cnorm2 (Cdiv a b) * Cnorm2 b = Cnorm2 a).
  { rewrite <- Cnorm2_mult. f_equal. unfold Cdiv. rewrite <- Cmult_assoc, Cinv_l by exact b0. apply Cmult_1_r. }
  rewrite <- E. field. exact Hb.
Qed.

Lemma raw_power N p th e ang r c : Cmod (phase_norm N ang) <> 0 -> rr_of e th (fftfreq N r) (rfftfreq N c) <> 0 ->
  Cnorm2 (raw_output N p th e ang (r, c)) = Rpower (rr_of e th (fftfreq N r) (rfftfreq N c)) (- p) / Cmod (mean_sq N ang).
Proof.
  intros Hn Hr. unfold raw_output. cbv zeta. cbn [fst snd].
  destruct (Reqb_spec (rr_of e th (fftfreq N r) (rfftfreq N c)) 0); [contradiction|].
  destruct (Reqb_spec (Cmod (phase_norm N ang)) 0); [contradiction|].
  rewrite Cnorm2_mult, Cnorm2_RtoC, Cnorm2_div by exact Hn. unfold phases. rewrite cis_norm, phase_norm_mean, csqrt_norm.
  unfold Rsqr. rewrite <- Rpower_plus. replace (- p / 2 + - p / 2) with (- p) by field. unfold Rdiv. ring.
Qed.

Lemma rr_form e th y x : 0 < e <= 1 -> rr_of e th y x = sqrt (form e th x y).
Proof.
  intros He. unfold rr_of. destruct (Rltb_spec e 1) as [L|L]; cbv zeta.
  - reflexivity.
  - assert (e = 1) as -> by lra. rewrite form_circle. reflexivity.
Qed.

Lemma rr_neg e th y x : rr_of e th (- y) (- x) = rr_of e th y x.
Proof. unfold rr_of. destruct (Rltb e 1); cbv zeta; f_equal; ring. Qed.

Lemma rr_neg_y e th y : rr_of e th (- y) 0 = rr_of e th y 0.
Proof. rewrite <- (rr_neg e th y 0). now rewrite Ropp_0. Qed.

Lemma rr_pos e th y x : 0 < e <= 1 -> x <> 0 \/ y <> 0 -> 0 < rr_of e th y x.
Proof. intros He H. rewrite rr_form by exact He. apply sqrt_lt_R0. apply form_pos; [lra|exact H]. Qed.

Lemma is_freq_neg n k f : (0 < k < n)%nat -> is_freq n k f -> f <> - (1 / 2) -> is_freq n (n - k) (- f).
Proof.
  intros Hk [Hf [z Hz]] Hne. split; [lra|]. exists (- z - 1)%Z. rewrite Hz, minus_IZR, opp_IZR, minus_INR by lia.
  field. apply not_0_INR. lia.
Qed.
Lemma is_freq_0 n f : (1 <= n)%nat -> is_freq n 0 f -> f = 0.
Proof.
  intros Hn H. apply (is_freq_inj n 0 f 0); [lia|exact H|]. split; [lra|]. exists 0%Z. cbn [INR]. field. apply not_0_INR. lia.
Qed.
Lemma is_freq_nonzero n k f : (0 < k < n)%nat -> is_freq n k f -> f <> 0.
Proof.
  intros Hk [_ [z Hz]] ->. assert (Hn : 0 < INR n) by (apply lt_0_INR; lia).
  assert (E : INR k = IZR (- z) * INR n) by (rewrite opp_IZR; apply (f_equal (fun v => v * INR n)) in Hz; rewrite Rmult_0_l, Rmult_plus_distr_r in Hz; unfold Rdiv in Hz; rewrite Rmult_assoc, Rinv_l in Hz by lra; lra).
  assert (L1 : 0 < INR k) by (apply lt_0_INR; lia). assert (L2 : INR k < INR n) by (apply lt_INR; lia).
  assert (0 < IZR (- z)) by nra. assert (IZR (- z) < 1) by nra.
  apply lt_IZR in H, H0. lia.
Qed.
Lemma rfftfreq_is_freq n k : (2 * k < n)%nat -> is_freq n k (rfftfreq n k).
Proof.
  intros H. unfold rfftfreq. assert (Hn : 0 < INR n) by (apply lt_0_INR; lia). split.
  - pose proof (pos_INR k). split.
    + apply Rle_trans with 0; [lra|]. apply Rmult_le_pos; [assumption|left; now apply Rinv_0_lt_compat].
    + apply (Rmult_lt_reg_r (INR n)); [exact Hn|]. unfold Rdiv at 1. rewrite Rmult_assoc, Rinv_l by lra.
      assert (INR (2 * k) < INR n) by (apply lt_INR; lia). rewrite mult_INR in H1. cbn [INR] in H1. lra.
  - exists 0%Z. lra.
Qed.

(** C108: the power of the image at a frequency off the Nyquist lines. *)
Lemma image_power N p th e ang img ky kx fy fx : Nat.even N = true -> (1 <= N)%nat -> 0 < e <= 1 -> Cmod (mean_sq N ang) <> 0 ->
  make_extended N p th e ang = Ok img -> (ky < N)%nat -> (kx < N)%nat -> ky <> 0%nat \/ kx <> 0%nat ->
  is_freq N ky fy -> is_freq N kx fx -> fy <> - (1 / 2) -> fx <> - (1 / 2) ->
  Cnorm2 (dft2 N N (fun y x => RtoC (at2 0 img y x)) ky kx) = Rpower (sqrt (form e th fx fy)) (- p) / Cmod (mean_sq N ang).
Proof.
  intros Ev HN He Hms HI Hky Hkx H0 Fy Fx Ny Nx.
  destruct (make_extended_even N p th e ang HN Ev He) as [img' [o [HI' [HO [HR [_ [_ HF]]]]]]].
  rewrite HI in HI'. inversion HI'. subst img'. rewrite HF by assumption. clear HI' HF.
  assert (Hn : Cmod (phase_norm N ang) <> 0).
  { intros Z. apply Hms. rewrite <- csqrt_norm, <- phase_norm_mean, <- Cmod_sqr, Z. ring. }
  destruct (rfft_spec N (raw_output N p th e ang) HN) as [o' [HR' [P1 [P2 [P3 [P4 P5]]]]]].
  rewrite HR in HR'. apply (f_equal (fun x => match x with Ok y => y | Err _ => o end)) in HR'. subst o'.
  destruct (parity N HN) as [m [Em HP]]. destruct HP as [[_ [EN [Eh Hm]]]|[Ev' _]]; [|congruence]. rewrite Em in *. rewrite Eh in *.
  (* no Nyquist index *)
  assert (Nyq : forall k f, (k < N)%nat -> is_freq N k f -> f <> - (1 / 2) -> k <> m).
  { intros k f Hk Hf Hne ->. apply Hne. apply (is_freq_inj N m f (- (1 / 2))); [lia|exact Hf|]. split; [lra|]. exists (-1)%Z.
    change (IZR (-1)) with (-1). rewrite EN, mult_INR. cbn [INR]. field. apply not_0_INR. lia. }
  assert (My : ky <> m) by (eapply Nyq; eassumption). assert (Mx : kx <> m) by (eapply Nyq; eassumption).
  rewrite <- rr_form by exact He.
  (* the power of a column below the Nyquist column *)
  assert (Half : forall r c fr fc, (r < N)%nat -> (c < m)%nat -> r <> m -> is_freq N r fr -> is_freq N c fc -> fr <> - (1/2) -> r <> 0%nat \/ c <> 0%nat ->
     Cnorm2 (o (r, c)) = Rpower (rr_of e th fr fc) (- p) / Cmod (mean_sq N ang)).
  { intros r c fr fc Hr Hc Hrm Fr Fc Nr Hrc.
    assert (Ec : rfftfreq N c = fc) by (apply (is_freq_inj N c); [lia|apply rfftfreq_is_freq; lia|exact Fc]).
    assert (Er : forall r f, (r < N)%nat -> is_freq N r f -> fftfreq N r = f) by (intros r' f' Hr' Hf'; apply (is_freq_inj N r'); [lia|now apply fftfreq_is_freq|exact Hf']).
    destruct (Nat.eq_dec c 0) as [->|Hc0].
    - assert (fc = 0) as -> by (apply (is_freq_0 N); [lia|exact Fc]).
      assert (Hr0 : r <> 0%nat) by (destruct Hrc; congruence).
      assert (fr <> 0) by (apply (is_freq_nonzero N r); [lia|exact Fr]).
      destruct (le_lt_dec m r) as [L|L].
      + rewrite P4 by (auto; lia). rewrite raw_power; [|exact Hn|]; rewrite (Er r fr), Ec by auto; [reflexivity|].
        apply Rgt_not_eq. apply rr_pos; auto.
      + rewrite P1 by (auto; lia). rewrite Cnorm2_conj.
        rewrite raw_power; [|exact Hn|]; rewrite (Er (N - r)%nat (- fr)), Ec, rr_neg_y by (lia || (apply is_freq_neg; [lia|exact Fr|exact Nr])); [reflexivity|].
        apply Rgt_not_eq. apply rr_pos; auto.
    - rewrite P5 by lia. assert (fc <> 0) by (apply (is_freq_nonzero N c); [lia|exact Fc]).
      rewrite raw_power; [|exact Hn|]; rewrite (Er r fr), Ec by auto; [reflexivity|]. apply Rgt_not_eq. apply rr_pos; auto. }
  unfold full2, extend. rewrite Em. destruct (Nat.ltb_spec kx (S m)) as [L|L].
  - apply Half; auto. lia.
  - rewrite Cnorm2_conj. rewrite <- rr_neg. apply Half; auto.
    + now apply opposite_lt.
    + lia.
    + unfold opposite. rewrite neg_mod_val by exact Hky. destruct (Nat.eqb_spec ky 0); lia.
    + unfold opposite. rewrite neg_mod_val by exact Hky. destruct (Nat.eqb_spec ky 0) as [->|].
      * assert (fy = 0) as -> by (apply (is_freq_0 N); [lia|exact Fy]). now rewrite Ropp_0.
      * apply is_freq_neg; [lia|exact Fy|exact Ny].
    + apply is_freq_neg; [lia|exact Fx|exact Nx].
    + destruct Fy as [Fy _]. lra.
    + right. lia.
Qed.

(** In terms of the model that the 2D fit uses. *)
Lemma log10_rpower v p : 0 < v -> log10 (Rpower (sqrt v) (- p)) = 1 / 2 * (- p) * log10 v.
Proof.
  intros Hv. unfold log10, Rpower. rewrite ln_exp.
  assert (E : ln v = 2 * ln (sqrt v)).
  { rewrite <- (sqrt_sqrt v) at 1 by lra. rewrite ln_mult by (apply sqrt_lt_R0; exact Hv). ring. }
  rewrite E. field. apply Rgt_not_eq. apply Rlt_gt. rewrite <- ln_1. apply ln_increasing; lra.
Qed.

Lemma q_of_transform e : 0 < e < 1 -> q_of (interval_transform e 0 1) = e.
Proof.
  intros H. rewrite <- (transform_inverse 0 1 e) at 2 by exact H. unfold inverse_interval_transform, q_of. field.
  apply Rgt_not_eq. apply Rlt_gt. apply exp_pos1.
Qed.

Lemma model_of_radius A p th e y x : 0 < e < 1 -> x <> 0 \/ y <> 0 ->
  evaluate x y A (Fin (interval_transform e 0 1)) th (- p) = Fin (A + log10 (Rpower (rr_of e th y x) (- p))).
Proof.
  intros He H. rewrite evaluate_away by exact H. rewrite q_of_transform by exact He.
  rewrite rr_form by lra. rewrite log10_rpower by (apply form_pos; [lra|exact H]). reflexivity.
Qed.

Lemma model_of_radius_circle A p th y x : x <> 0 \/ y <> 0 ->
  evaluate x y A PInf th (- p) = Fin (A + log10 (Rpower (rr_of 1 th y x) (- p))).
Proof.
  intros H. rewrite (evaluate_q _ _ _ _ _ _ _ ellip_of_PInf). pose proof (form_pos 1 th x y Rlt_0_1 H) as P.
  destruct (Rltb_spec 0 (form 1 th x y)); [|lra]. rewrite rr_form by lra. now rewrite log10_rpower.
Qed.

Lemma log10_div a b : 0 < a -> 0 < b -> log10 (a / b) = - log10 b + log10 a.
Proof. intros. unfold log10, Rdiv. rewrite ln_mult, ln_Rinv by (auto; now apply Rinv_0_lt_compat). ring. Qed.

Lemma image_matches_model N p th e ang img ky kx fy fx : Nat.even N = true -> (1 <= N)%nat -> 0 < e < 1 -> Cmod (mean_sq N ang) <> 0 ->
  make_extended N p th e ang = Ok img -> (ky < N)%nat -> (kx < N)%nat -> ky <> 0%nat \/ kx <> 0%nat ->
  is_freq N ky fy -> is_freq N kx fx -> fy <> - (1 / 2) -> fx <> - (1 / 2) ->
  evaluate fx fy (- log10 (Cmod (mean_sq N ang))) (Fin (interval_transform e 0 1)) th (- p) =
  Fin (log10 (Cnorm2 (dft2 N N (fun y x => RtoC (at2 0 img y x)) ky kx))).
Proof.
  intros Ev HN He Hms HI Hky Hkx H0 Fy Fx Ny Nx.
  rewrite (image_power N p th e ang img ky kx fy fx) by (auto; lra).
  assert (Hxy : fx <> 0 \/ fy <> 0).
  { destruct H0 as [H0|H0]; [right|left]; eapply is_freq_nonzero; try eassumption; lia. }
  rewrite model_of_radius by assumption. f_equal. rewrite <- rr_form by lra.
  assert (0 < Cmod (mean_sq N ang)) by (pose proof (Cmod_ge_0 (mean_sq N ang)); lra).
  rewrite log10_div; [reflexivity| |assumption]. unfold Rpower. apply exp_pos.
Qed.

(** The generated power is not that of unit phases. *)
Definition ex_angles (i j : nat) : R := if (Nat.eqb j 0 && Nat.ltb i 3)%bool then PI / 2 else 0.

Lemma cis_PI : cis PI = RtoC (-1).
Proof. unfold cis, RtoC. now rewrite cos_PI, sin_PI. Qed.

Lemma ex_mean : mean_sq 4 ex_angles = RtoC (1 / 2).
Proof.
  unfold mean_sq. replace (4 / 2)%nat with 2%nat by reflexivity. cbn [csum].
  unfold ex_angles. cbn [Nat.eqb Nat.ltb Nat.leb andb].
  replace (2 * (PI / 2)) with PI by field. rewrite !Rmult_0_r, cis_0, cis_PI.
  rewrite <- !RtoC_plus, <- RtoC_mult. f_equal. cbn [Nat.mul Nat.add INR]. field.
Qed.

Lemma unit_amplitude_refuted : ~ (forall N p ang img ky kx fy fx, Nat.even N = true -> (4 <= N)%nat ->
  make_extended N p 0 1 ang = Ok img -> (ky < N)%nat -> (kx < N)%nat -> ky <> 0%nat \/ kx <> 0%nat ->
  is_freq N ky fy -> is_freq N kx fx -> fy <> - (1 / 2) -> fx <> - (1 / 2) ->
  Cnorm2 (dft2 N N (fun y x => RtoC (at2 0 img y x)) ky kx) = Rpower (sqrt (fx ^ 2 + fy ^ 2)) (- p)).
Proof.
  intros H. destruct (make_extended_even 4 0 0 1 ex_angles ltac:(lia) eq_refl ltac:(lra)) as [img [o [HI _]]].
  assert (F0 : is_freq 4 0 0) by (split; [lra|]; exists 0%Z; cbn [INR]; lra).
  assert (F1 : is_freq 4 1 (1 / 4)) by (split; [lra|]; exists 0%Z; cbn [INR]; lra).
  assert (M : Cmod (mean_sq 4 ex_angles) = 1 / 2) by (rewrite ex_mean, Cmod_R; apply Rabs_pos_eq; lra).
  assert (M0 : Cmod (mean_sq 4 ex_angles) <> 0) by (rewrite M; lra).
  assert (N0 : 0 <> - (1 / 2)) by lra. assert (N1 : 1 / 4 <> - (1 / 2)) by lra.
  assert (L0 : (0 < 4)%nat) by lia. assert (L1 : (1 < 4)%nat) by lia. assert (L2 : (1 <= 4)%nat) by lia.
  assert (K0 : 0%nat <> 0%nat \/ 1%nat <> 0%nat) by (right; discriminate).
  assert (E1 : 0 < 1 <= 1) by lra.
  assert (Ev4 : Nat.even 4 = true) by reflexivity.
  pose proof (H _ _ _ _ _ _ _ _ Ev4 (le_n 4) HI L0 L1 K0 F0 F1 N0 N1) as A.
  pose proof (image_power _ _ _ _ _ _ _ _ _ _ Ev4 L2 E1 M0 HI L0 L1 K0 F0 F1 N0 N1) as B.
  rewrite A, form_circle, M in B. clear - B.
  unfold Rpower in B. rewrite Ropp_0, !Rmult_0_l, exp_0 in B. lra.
Qed.
