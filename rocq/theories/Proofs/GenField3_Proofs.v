(** Proofs about the synthetic cubes. *)
From Coq Require Import Reals List ZArith Arith Bool Lra Lia.
From Coquelicot Require Import Complex.
From Coq Require Import List.
From Verif Require Import Lib.PyBase Lib.RSum Lib.Fl Lib.PySlice Lib.Arr Lib.DFT Lib.DFT2 Lib.DFT3
  Spec.Freq Spec.Fields Model.StatsUtils Model.Psds Model.GenField Proofs.Psds_Proofs Proofs.GenField_Proofs.
Import ListNotations.
Local Open Scope R_scope.

Definition s3 (N : nat) (p : nat * nat * nat) : nat * nat * nat := (opposite N (fst (fst p)), opposite N (snd (fst p)), snd p).

Lemma opp_val N k : (k < N)%nat -> opposite N k = if Nat.eqb k 0 then 0%nat else (N - k)%nat.
Proof. apply neg_mod_val. Qed.

Lemma list_prod_map {A B A' B'} (f : A -> A') (g : B -> B') l1 l2 :
  list_prod (map f l1) (map g l2) = map (fun p => (f (fst p), g (snd p))) (list_prod l1 l2).
Proof.
  induction l1 as [|a l1 IH]; [reflexivity|]. cbn [map list_prod]. rewrite IH, map_app. f_equal. rewrite !map_map. reflexivity.
Qed.

Lemma plane_s3 N rows cols rows' cols' c : rows' = map (opposite N) rows -> cols' = map (opposite N) cols ->
  plane rows' cols' c = map (s3 N) (plane rows cols c).
Proof.
  intros -> ->. unfold plane. rewrite list_prod_map, !map_map. reflexivity.
Qed.

Lemma in_plane rows cols c p : In p (plane rows cols c) <-> In (fst (fst p)) rows /\ In (snd (fst p)) cols /\ snd p = c.
Proof.
  unfold plane. rewrite in_map_iff. destruct p as [[a b] d]. cbn [fst snd]. split.
  - intros [[x y] [E H]]. cbn [fst snd] in E. inversion E; subst. apply in_prod_iff in H. tauto.
  - intros [H1 [H2 ->]]. exists (a, b). split; [reflexivity|]. apply in_prod_iff. auto.
Qed.

Lemma opp_seq N n : (n <= N)%nat -> map (fun r => (N - r)%nat) (seq 1 (n - 1)) = map (opposite N) (seq 1 (n - 1)).
Proof. intros H. apply map_ext_in. intros r Hr. apply in_seq in Hr. rewrite opp_val by lia. destruct (Nat.eqb_spec r 0); lia. Qed.
Lemma opp_seq_inv N n : (n <= N)%nat -> seq 1 (n - 1) = map (opposite N) (map (fun r => (N - r)%nat) (seq 1 (n - 1))).
Proof.
  intros H. rewrite map_map. rewrite <- (map_id (seq 1 (n - 1))) at 1. apply map_ext_in. intros r Hr. apply in_seq in Hr.
  rewrite opp_val by lia. destruct (Nat.eqb_spec (N - r) 0); lia.
Qed.

Lemma dsts_app {I} (a b : list (stmt I)) : dsts (a ++ b) = dsts a ++ dsts b.
Proof. apply flat_map_app. Qed.
Lemma reals_app {I} (a b : list (stmt I)) : reals (a ++ b) = reals a ++ reals b.
Proof. apply flat_map_app. Qed.

(** The points that are copied: half of each of the two planes. *)
Definition copied (N : nat) (a b : nat) : Prop :=
  (1 <= a < half N /\ 1 <= b < half N)%nat \/ (1 <= a < half N /\ N - half N < b < N)%nat \/
  (Nat.even N = true /\ 1 <= a < half N /\ b = np1 N)%nat \/ (Nat.even N = true /\ a = np1 N /\ 1 <= b < half N)%nat \/
  (1 <= a < half N /\ b = 0)%nat \/ (a = 0 /\ 1 <= b < half N)%nat.
(** The points that are their own opposites. *)
Definition selfconj (N : nat) (a b : nat) : Prop :=
  (a = 0 \/ (Nat.even N = true /\ a = np1 N))%nat /\ (b = 0 \/ (Nat.even N = true /\ b = np1 N))%nat.

Lemma in_down N n r : (1 <= n <= N)%nat -> In r (map (fun r => (N - r)%nat) (seq 1 (n - 1))) <-> (N - n < r < N)%nat.
Proof.
  intros H. rewrite in_map_iff. split.
  - intros [x [E Hx]]. apply in_seq in Hx. lia.
  - intros Hr. exists (N - r)%nat. split; [lia|]. apply in_seq. lia.
Qed.

Lemma sym3_spec N o : (1 <= N)%nat -> exists o', run eqb3 (sym3 N) o = Ok o' /\
  (forall a b c, copied N a b -> c = 0%nat \/ c = np1 N -> o' (a, b, c) = Cconj (o (opposite N a, opposite N b, c))) /\
  (forall a b c, selfconj N a b -> c = 0%nat \/ c = np1 N -> o' (a, b, c) = RtoC (fst (o (a, b, c)))) /\
  (forall a b c, ~ copied N a b -> ~ selfconj N a b -> o' (a, b, c) = o (a, b, c)) /\
  (forall a b c, c <> 0%nat -> c <> np1 N -> o' (a, b, c) = o (a, b, c)).
Proof.
  intros HN. destruct (parity N HN) as [m [Em HP]].
  assert (Hgood : forall st, In st (sym3 N) -> good (s3 N) st).
  { intros st Hst. unfold sym3 in Hst. cbv zeta in Hst. rewrite Em in Hst.
    rewrite down_idx in Hst by lia.
    apply in_app_or in Hst. destruct Hst as [Hst|[<-|[<-|[]]]]; [|exact I|exact I].
    destruct HP as [[Ev [EN [Eh Hm]]]|[Ev [EN Eh]]]; rewrite Ev in Hst.
    - rewrite up_idx in Hst by lia. replace (N - 1 - m)%nat with (m - 1)%nat in Hst by lia.
      assert (Q0 : [0%nat] = map (opposite N) [0%nat]) by (cbn [map]; rewrite opp_val by lia; reflexivity).
      assert (Qm : [m] = map (opposite N) [m]) by (cbn [map]; rewrite opp_val by lia; destruct (Nat.eqb_spec m 0); f_equal; lia).
      pose proof (opp_seq N m ltac:(lia)) as Qu. pose proof (opp_seq_inv N m ltac:(lia)) as Qd.
      cbn [In] in Hst. repeat (destruct Hst as [<-|Hst]; [cbn [good]; try exact I; apply plane_s3; assumption|]). contradiction.
    - rewrite up_idx in Hst by lia. replace (N - 1 - m)%nat with (m + 1 - 1)%nat in Hst by lia.
      assert (Q0 : [0%nat] = map (opposite N) [0%nat]) by (cbn [map]; rewrite opp_val by lia; reflexivity).
      pose proof (opp_seq N (m + 1) ltac:(lia)) as Qu. pose proof (opp_seq_inv N (m + 1) ltac:(lia)) as Qd.
      cbn [In] in Hst. repeat (destruct Hst as [<-|Hst]; [cbn [good]; try exact I; apply plane_s3; assumption|]). contradiction. }
  assert (HD : forall a b c, In (a, b, c) (dsts (sym3 N)) <-> copied N a b /\ (c = 0%nat \/ c = m)).
  { intros a b c. unfold sym3. cbv zeta. rewrite Em, dsts_app, in_app_iff. cbn [dsts flat_map app In]. rewrite down_idx by lia.
    unfold copied. rewrite Em.
    assert (S1 : forall x y : nat, In x [y] <-> x = y) by (intros x y; cbn [In]; intuition).
    destruct HP as [[Ev [EN [Eh Hm]]]|[Ev [EN Eh]]]; rewrite Ev, Eh; rewrite up_idx by lia; unfold dsts.
    - replace (N - 1 - m)%nat with (m - 1)%nat by lia.
      cbn [flat_map]. rewrite ?app_nil_r, !in_app_iff, !in_plane. cbn [fst snd]. rewrite !in_down by lia. rewrite !S1. rewrite !in_seq.
      replace (1 + (m - 1))%nat with m by lia. clear. generalize (1 <= a < m)%nat (1 <= b < m)%nat (N - m < b < N)%nat (a = 0)%nat (b = 0)%nat (a = m) (b = m) (c = 0)%nat (c = m).
      intros. cbn [In]. split; [intros H; repeat (destruct H as [H|H]; [tauto|]); tauto|intros [H [Hc|Hc]]; destruct H as [H|[H|[H|[H|[H|H]]]]]; tauto].
    - replace (N - 1 - m)%nat with (m + 1 - 1)%nat by lia.
      cbn [flat_map]. rewrite ?app_nil_r, !in_app_iff, !in_plane. cbn [fst snd]. rewrite !in_down by lia. rewrite !S1. rewrite !in_seq.
      replace (1 + (m + 1 - 1))%nat with (S m) by lia. replace (m + 1)%nat with (S m) by lia.
      assert (FT : false = true <-> False) by (split; [discriminate|contradiction]). rewrite FT. clear.
      generalize (1 <= a < S m)%nat (1 <= b < S m)%nat (N - S m < b < N)%nat (a = 0)%nat (b = 0)%nat (a = m) (b = m) (c = 0)%nat (c = m).
      intros. cbn [In]. split; [intros H; repeat (destruct H as [H|H]; [tauto|]); tauto|intros [H [Hc|Hc]]; destruct H as [H|[H|[H|[H|[H|H]]]]]; tauto]. }
  assert (HR : forall a b c, In (a, b, c) (reals (sym3 N)) <-> selfconj N a b /\ (c = 0%nat \/ c = m)).
  { intros a b c. unfold sym3. cbv zeta. rewrite Em, reals_app, in_app_iff. unfold reals, selfconj. rewrite Em.
    destruct HP as [[Ev [EN [Eh Hm]]]|[Ev [EN Eh]]]; rewrite Ev; cbn [flat_map app In]; split.
    - intros H. repeat match goal with H : _ \/ _ |- _ => destruct H | H : False |- _ => destruct H | H : (_, _, _) = _ |- _ => inversion H; clear H; subst end; auto 10.
    - intros [[[->|[_ ->]] [->|[_ ->]]] [->| ->]]; auto 20.
    - intros H. repeat match goal with H : _ \/ _ |- _ => destruct H | H : False |- _ => destruct H | H : (_, _, _) = _ |- _ => inversion H; clear H; subst end; auto 10.
    - intros [[[->|[X _]] [->|[X' _]]] [->| ->]]; try discriminate; auto 20. }
  assert (Hlt : forall a b, copied N a b -> (a < N)%nat /\ (b < N)%nat).
  { intros a b. unfold copied. rewrite Em. destruct HP as [[Ev [EN [Eh Hm]]]|[Ev [EN Eh]]]; rewrite Eh; intuition lia. }
  assert (Hopp : forall a b, copied N a b -> ~ copied N (opposite N a) (opposite N b) /\ ~ selfconj N (opposite N a) (opposite N b) /\ ~ selfconj N a b).
  { intros a b Hc. destruct (Hlt a b Hc) as [La Lb]. rewrite !opp_val by assumption. revert Hc. unfold copied, selfconj. rewrite Em.
    destruct HP as [[Ev [EN [Eh Hm]]]|[Ev [EN Eh]]]; rewrite Ev, Eh; destruct (Nat.eqb_spec a 0), (Nat.eqb_spec b 0);
    intros Hc; repeat split; intros Hx; intuition (try lia; try discriminate). }
  destruct (run_spec eqb3 eqb3_ok (s3 N) (sym3 N) Hgood) with (o := o) as [o' [R [P1 [P2 P3]]]].
  { intros [[a b] c] Hi. apply HD in Hi. destruct Hi as [Hc Hcc]. unfold s3. cbn [fst snd]. rewrite HD, !HR.
    destruct (Hopp a b Hc) as [A [B D]]. tauto. }
  exists o'. split; [exact R|]. rewrite Em. repeat split.
  - intros a b c Hc Hcc. apply (P1 (a, b, c)). apply HD. auto.
  - intros a b c Hc Hcc. apply P2. apply HR. auto.
  - intros a b c H1 H2. apply P3; [rewrite HD|rewrite HR]; tauto.
  - intros a b c H1 H2. apply P3; [rewrite HD|rewrite HR]; tauto.
Qed.

Lemma sym3_planes N o o' : (1 <= N)%nat -> run eqb3 (sym3 N) o = Ok o' ->
  forall c, c = 0%nat \/ c = np1 N -> forall a b, (a < N)%nat -> (b < N)%nat ->
  o' (opposite N a, opposite N b, c) = Cconj (o' (a, b, c)).
Proof.
  intros HN HR c Hc a b Ha Hb. destruct (sym3_spec N o HN) as [o'' [HR' [P1 [P2 [P3 _]]]]].
  rewrite HR in HR'. apply (f_equal (fun x => match x with Ok y => y | Err _ => o end)) in HR'. subst o''.
  destruct (parity N HN) as [m [Em HP]].
  assert (Oa : opposite N (opposite N a) = a) by (unfold opposite; now apply neg_neg).
  assert (Ob : opposite N (opposite N b) = b) by (unfold opposite; now apply neg_neg).
  assert (T : (copied N a b /\ ~ copied N (opposite N a) (opposite N b) /\ ~ selfconj N (opposite N a) (opposite N b)) \/
              (copied N (opposite N a) (opposite N b) /\ ~ copied N a b /\ ~ selfconj N a b) \/
              (selfconj N a b /\ opposite N a = a /\ opposite N b = b)).
  { rewrite !opp_val by assumption. unfold copied, selfconj. rewrite Em.
    destruct HP as [[Ev [EN [Eh Hm]]]|[Ev [EN Eh]]]; rewrite Ev, Eh; destruct (Nat.eqb_spec a 0) as [A0|A0], (Nat.eqb_spec b 0) as [B0|B0].
    - right. right. intuition lia.
    - destruct (lt_eq_lt_dec b m) as [[L|E]|L]; [left|right; right|right; left]; intuition lia.
    - destruct (lt_eq_lt_dec a m) as [[L|E]|L]; [left|right; right|right; left]; intuition lia.
    - destruct (lt_eq_lt_dec a m) as [[L|E]|L].
      + left. destruct (lt_eq_lt_dec b m) as [[L'|E']|L']; intuition lia.
      + destruct (lt_eq_lt_dec b m) as [[L'|E']|L']; [left|right; right|right; left]; intuition lia.
      + right. left. destruct (lt_eq_lt_dec b m) as [[L'|E']|L']; intuition lia.
    - right. right. intuition lia.
    - destruct (le_lt_dec b m) as [L|L]; [left|right; left]; intuition (try lia; try discriminate).
    - destruct (le_lt_dec a m) as [L|L]; [left|right; left]; intuition (try lia; try discriminate).
    - destruct (le_lt_dec a m) as [L|L].
      + left. destruct (le_lt_dec b m) as [L'|L']; intuition (try lia; try discriminate).
      + right. left. destruct (le_lt_dec b m) as [L'|L']; intuition (try lia; try discriminate). }
  destruct T as [[T1 [T2 T3]]|[[T1 [T2 T3]]|[T1 [T2 T3]]]].
  - rewrite (P1 a b c T1 Hc), Cconj_conj. now apply P3.
  - rewrite (P1 _ _ c T1 Hc), Oa, Ob. f_equal. symmetry. now apply P3.
  - rewrite T2, T3. rewrite (P2 a b c T1 Hc). now rewrite Cconj_RtoC.
Qed.

Definition op2 (N : nat) (p : nat * nat) : nat * nat := (opposite N (fst p), opposite N (snd p)).
Definition full3 (N : nat) (o : nat * nat * nat -> C) (a b c : nat) : C :=
  extend (op2 N) N (S (np1 N)) (fun p k => o (p, k)) (a, b) c.

Lemma full3_hermitian N o o' : (1 <= N)%nat -> run eqb3 (sym3 N) o = Ok o' -> hermitian3 N (full3 N o').
Proof.
  intros HN HR a b c Ha Hb Hc. unfold full3.
  apply (extend_hermitian (op2 N) (fun p => (fst p < N)%nat /\ (snd p < N)%nat)) with (i := (a, b)); auto.
  - intros [x y] [Hx Hy]. cbn [fst snd] in *. unfold op2. cbn [fst snd]. split; [split; now apply opposite_lt|].
    unfold opposite. now rewrite !neg_neg.
  - intros [x y] [Hx Hy]. apply (sym3_planes N o o' HN HR); auto.
  - intros _ [x y] [Hx Hy]. apply (sym3_planes N o o' HN HR); auto.
Qed.

Lemma cube_idft N o a b c : (1 <= N)%nat -> Nat.even N = true -> hermitian3 N (full3 N o) ->
  RtoC (irfftn_at N (S (np1 N)) o a b c) = idft3 N N N (full3 N o) a b c.
Proof.
  intros HN Ev HH. destruct (parity N HN) as [m [Em HP]]. destruct HP as [[_ [EN [_ Hm]]]|[Ev' _]]; [|congruence].
  unfold irfftn_at, idft3. rewrite Em. rewrite (c2r_ext _ _ (fun k2 => idft2 N N (fun k0 k1 => full3 N o k0 k1 k2) a b)).
  - pose proof (c2r_idft m (fun k2 => idft2 N N (fun k0 k1 => full3 N o k0 k1 k2) a b) c Hm) as K. rewrite <- EN in K. apply K. clear K.
    intros k Hk. rewrite <- idft2_conj_neg. apply idft2_ext. intros k0 k1 H0 H1.
    change (full3 N o k0 k1 (opposite N k) = Cconj (full3 N o (opposite N k0) (opposite N k1) k)).
    rewrite <- (HH (opposite N k0) (opposite N k1) k) by (auto; apply opposite_lt; lia). f_equal; unfold opposite; now rewrite neg_neg.
  - intros k Hk. apply idft2_ext. intros k0 k1 _ _. unfold full3, extend. destruct (Nat.ltb_spec k (S (np1 N))); [reflexivity|lia].
Qed.

Lemma output3_ok N p ang : (1 <= N)%nat -> exists o, output3 N p ang = Ok o /\ run eqb3 (sym3 N) (raw3 N p ang) = Ok o.
Proof.
  intros HN. unfold output3. destruct (Nat.eqb_spec N 0); [lia|]. destruct (sym3_spec N (raw3 N p ang) HN) as [o [R _]]. exists o. auto.
Qed.

(** Sum of the squares before the normalisation. *)
Definition energy (N m : nat) (a : nat -> nat -> nat -> R) : R :=
  rsum N (fun i => rsum N (fun j => rsum m (fun k => a i j k ^ 2))).

Lemma energy_nonneg N m a : 0 <= energy N m a.
Proof. apply rsum_nonneg. intros. apply rsum_nonneg. intros. apply rsum_nonneg. intros. apply pow2_ge_0. Qed.

Lemma energy_zero N m a : energy N m a = 0 -> forall i j k, (i < N)%nat -> (j < N)%nat -> (k < m)%nat -> a i j k = 0.
Proof.
  intros H i j k Hi Hj Hk. unfold energy in H.
  assert (H1 : rsum N (fun j => rsum m (fun k => a i j k ^ 2)) = 0) by
    (apply (rsum_nonneg_eq0 N (fun i => rsum N (fun j => rsum m (fun k => a i j k ^ 2)))); auto; intros; apply rsum_nonneg; intros; apply rsum_nonneg; intros; apply pow2_ge_0).
  assert (H2 : rsum m (fun k => a i j k ^ 2) = 0) by
    (apply (rsum_nonneg_eq0 N (fun j => rsum m (fun k => a i j k ^ 2))); auto; intros; apply rsum_nonneg; intros; apply pow2_ge_0).
  assert (H3 : a i j k ^ 2 = 0) by (apply (rsum_nonneg_eq0 m (fun k => a i j k ^ 2)); auto; intros; apply pow2_ge_0).
  rewrite <- Rsqr_pow2 in H3. now apply Rsqr_0_uniq.
Qed.

(** A cube of even size of at least 4 does not vanish. *)
Lemma energy_pos N p ang o : (4 <= N)%nat -> Nat.even N = true -> run eqb3 (sym3 N) (raw3 N p ang) = Ok o ->
  0 < energy N N (irfftn_at N (S (np1 N)) o).
Proof.
  intros HN Ev R. destruct (energy_nonneg N N (irfftn_at N (S (np1 N)) o)) as [L|L]; [exact L|exfalso].
  assert (HN1 : (1 <= N)%nat) by lia.
  pose proof (full3_hermitian N _ _ HN1 R) as HH.
  assert (Z : dft3 N N N (fun i j k => RtoC (irfftn_at N (S (np1 N)) o i j k)) 0 0 1 = RtoC 0).
  { unfold dft3. apply csum_zero. intros i Hi. apply csum_zero. intros j Hj. apply csum_zero. intros k Hk.
    rewrite (energy_zero N N _ (eq_sym L)) by assumption. ring. }
  rewrite (dft3_ext N N N _ (idft3 N N N (full3 N o))) in Z by (intros; now apply cube_idft).
  rewrite dft3_idft3 in Z by lia. unfold full3, extend in Z.
  destruct (parity N HN1) as [m [Em HP]]. destruct HP as [[_ [EN [_ Hm]]]|[Ev' _]]; [|congruence].
  rewrite Em in Z. destruct (Nat.ltb_spec 1 (S m)); [|lia].
  destruct (sym3_spec N (raw3 N p ang) HN1) as [o' [HR' [_ [_ [_ P4]]]]]. rewrite R in HR'.
  apply (f_equal (fun x => match x with Ok y => y | Err _ => o end)) in HR'. subst o'.
  rewrite P4 in Z by (rewrite ?Em; lia). unfold raw3 in Z. cbn [fst snd] in Z. cbv zeta in Z.
  destruct (Reqb_spec (sqrt (fftfreq N 0 ^ 2 + fftfreq N 0 ^ 2 + rfftfreq N 1 ^ 2)) 0) as [E|E].
  - assert (P : 0 < fftfreq N 0 ^ 2 + fftfreq N 0 ^ 2 + rfftfreq N 1 ^ 2).
    { pose proof (pow2_ge_0 (fftfreq N 0)). assert (0 < rfftfreq N 1 ^ 2); [|lra]. apply pow_lt. unfold rfftfreq. cbn [INR].
      apply Rdiv_lt_0_compat; [lra|]. apply lt_0_INR. lia. }
    apply sqrt_lt_R0 in P. lra.
  - apply (f_equal Cnorm2) in Z. rewrite Cnorm2_mult, cis_norm, !Cnorm2_RtoC, Rmult_1_r in Z. unfold Rsqr in Z. rewrite Rmult_0_l in Z.
    apply Rmult_integral in Z. unfold Rpower in Z. destruct Z as [Z|Z]; apply (Rgt_not_eq _ 0 (exp_pos _)) in Z; exact Z.
Qed.

Lemma has_shape3_tab {A} n0 n1 n2 (f : nat -> nat -> nat -> A) : has_shape3 n0 n1 n2 (tab3 n0 n1 n2 f).
Proof.
  unfold has_shape3, tab3. rewrite tab1_length. split; [reflexivity|]. intros p Hp. apply in_map_iff in Hp. destruct Hp as [i [<- _]].
  unfold has_shape2, tab2. rewrite tab1_length. split; [reflexivity|]. intros r Hr. apply in_map_iff in Hr. destruct Hr as [j [<- _]]. apply tab1_length.
Qed.

(** The number of points of the last axis: N for even sizes. *)
Definition last_axis (N : nat) : nat := (2 * np1 N)%nat.

(** C56: the root mean square is |amp|. *)
Lemma make_3dfield_rms N p amp ang : (2 <= N)%nat -> amp <> 0 ->
  (forall o, output3 N p ang = Ok o -> exists i j k, (i < N /\ j < N /\ k < last_axis N)%nat /\ irfftn_at N (S (np1 N)) o i j k <> 0) ->
  exists cube, make_3dfield N p amp ang = Ok cube /\ has_shape3 N N (last_axis N) cube /\
  exists v : nat -> nat -> nat -> R,
    (forall i j k, (i < N)%nat -> (j < N)%nat -> (k < last_axis N)%nat -> nth k (nth j (nth i cube []) []) NaN = Fin (v i j k)) /\
    rms3 N N (last_axis N) v = Rabs amp.
Proof.
  intros HN Ha Hnz. assert (HN1 : (1 <= N)%nat) by lia. destruct (output3_ok N p ang HN1) as [o [E R]].
  specialize (Hnz o E). unfold make_3dfield. rewrite E. cbn [bind].
  assert (Hm : (1 <= np1 N)%nat) by (destruct (parity N HN1) as [m [Em [[? [? [? ?]]]|[? [? ?]]]]]; rewrite Em; lia).
  replace (2 * (S (np1 N) - 1))%nat with (last_axis N) by (unfold last_axis; lia).
  assert (HL : (1 <= last_axis N)%nat) by (unfold last_axis; lia).
  destruct (Nat.eqb_spec (last_axis N) 0); [lia|]. cbv zeta.
  set (f := irfftn_at N (S (np1 N)) o) in *. fold (energy N (last_axis N) f).
  assert (P : 0 < energy N (last_axis N) f).
  { destruct (energy_nonneg N (last_axis N) f) as [L|L]; [exact L|exfalso]. destruct Hnz as [i [j [k [[Hi [Hj Hk]] Hne]]]].
    apply Hne. now apply (energy_zero N (last_axis N) f). }
  set (S0 := energy N (last_axis N) f) in *. set (sz := INR (N * N * last_axis N)).
  assert (Psz : 0 < sz) by (apply lt_0_INR; nia).
  assert (Q1 : 0 < sqrt S0) by now apply sqrt_lt_R0. assert (Q2 : 0 < sqrt sz) by now apply sqrt_lt_R0.
  set (sc := sqrt S0 / sqrt sz / amp).
  assert (Hsc : sc <> 0).
  { unfold sc. intros Z. apply Rmult_integral in Z. destruct Z as [Z|Z]; [|now apply (Rinv_neq_0_compat amp)].
    assert (0 < sqrt S0 / sqrt sz) by now apply Rdiv_lt_0_compat. unfold Rdiv in *. lra. }
  assert (Efd : fdiv (Fin (sqrt S0 / sqrt sz)) (Fin amp) = Fin sc) by (cbn [fdiv]; destruct (Reqb_spec amp 0); [contradiction|reflexivity]).
  eexists. split; [reflexivity|]. split; [apply has_shape3_tab|].
  exists (fun i j k => f i j k / sc). split.
  - intros i j k Hi Hj Hk. unfold tab3, tab2. rewrite tab1_nth by exact Hi. rewrite tab1_nth by exact Hj. rewrite tab1_nth by exact Hk.
    rewrite Efd. cbn [fdiv]. destruct (Reqb_spec sc 0); [contradiction|reflexivity].
  - unfold rms3.
    assert (T : rsum N (fun i => rsum N (fun j => rsum (last_axis N) (fun k => (f i j k / sc)²))) = S0 / sc²).
    { unfold S0, energy. unfold Rdiv at 2. rewrite <- rsum_scal_r. apply rsum_ext. intros i _. rewrite <- rsum_scal_r. apply rsum_ext. intros j _.
      rewrite <- rsum_scal_r. apply rsum_ext. intros k _. unfold Rsqr. field. exact Hsc. }
    rewrite T. fold sz. replace (S0 / sc² / sz) with (amp²); [apply sqrt_Rsqr_abs|].
    unfold sc, Rsqr. rewrite <- (sqrt_sqrt S0) at 1 by lra. rewrite <- (sqrt_sqrt sz) at 3 by lra. field. repeat split; lra.
Qed.

Lemma make_3dfield_even N p amp ang : (4 <= N)%nat -> Nat.even N = true -> amp <> 0 ->
  exists cube, make_3dfield N p amp ang = Ok cube /\ has_shape3 N N N cube /\
  exists v : nat -> nat -> nat -> R,
    (forall i j k, (i < N)%nat -> (j < N)%nat -> (k < N)%nat -> nth k (nth j (nth i cube []) []) NaN = Fin (v i j k)) /\
    rms3 N N N v = Rabs amp.
Proof.
  intros HN Ev Ha. assert (EL : last_axis N = N).
  { destruct (parity N ltac:(lia)) as [m [Em HP]]. unfold last_axis. rewrite Em. destruct HP as [[_ [EN _]]|[Ev' _]]; [lia|congruence]. }
  destruct (make_3dfield_rms N p amp ang ltac:(lia) Ha) as [cube H].
  - intros o E. destruct (output3_ok N p ang ltac:(lia)) as [o' [E' R]]. rewrite E in E'.
    apply (f_equal (fun x => match x with Ok y => y | Err _ => o end)) in E'. subst o'.
    pose proof (energy_pos N p ang o HN Ev R) as P. rewrite EL.
    destruct (Req_dec 0 0) as [_|]; [|contradiction].
    assert (X : ~ (forall i j k, (i < N)%nat -> (j < N)%nat -> (k < N)%nat -> irfftn_at N (S (np1 N)) o i j k = 0)).
    { intros Z. unfold energy in P. rewrite rsum_zero in P; [lra|]. intros i Hi. apply rsum_zero. intros j Hj. apply rsum_zero. intros k Hk. rewrite Z by assumption. ring. }
    (* search the finite box *)
    assert (D : forall n (Q : nat -> Prop), (forall i, (i < n)%nat -> Q i \/ ~ Q i) -> (exists i, (i < n)%nat /\ ~ Q i) \/ (forall i, (i < n)%nat -> Q i)).
    { induction n as [|n IH]; intros Q HQ; [right; intros; lia|]. destruct (IH Q) as [[i [Hi Hn]]|H]; [intros; apply HQ; lia|left; exists i; split; [lia|exact Hn]|].
      destruct (HQ n ltac:(lia)) as [Y|Y]; [right; intros i Hi; destruct (Nat.eq_dec i n) as [->|]; [exact Y|apply H; lia]|left; exists n; split; [lia|exact Y]]. }
    set (f := irfftn_at N (S (np1 N)) o) in *.
    assert (D3 : forall i j, (exists k, (k < N)%nat /\ ~ f i j k = 0) \/ (forall k, (k < N)%nat -> f i j k = 0)) by (intros i j; apply D; intros k _; destruct (Req_dec (f i j k) 0); auto).
    assert (D2 : forall i, (exists j, (j < N)%nat /\ ~ (forall k, (k < N)%nat -> f i j k = 0)) \/ (forall j, (j < N)%nat -> forall k, (k < N)%nat -> f i j k = 0)).
    { intros i. apply D. intros j _. destruct (D3 i j) as [[k [Hk Hn]]|H]; [right; intros H; apply Hn; now apply H|now left]. }
    assert (D1 : (exists i, (i < N)%nat /\ ~ (forall j, (j < N)%nat -> forall k, (k < N)%nat -> f i j k = 0)) \/ (forall i, (i < N)%nat -> forall j, (j < N)%nat -> forall k, (k < N)%nat -> f i j k = 0)).
    { apply D. intros i _. destruct (D2 i) as [[j [Hj Hn]]|H]; [right; intros H; apply Hn; now apply H|now left]. }
    destruct D1 as [[i [Hi Hn]]|H]; [|exfalso; apply X; auto].
    destruct (D2 i) as [[j [Hj Hn2]]|H]; [|contradiction]. destruct (D3 i j) as [[k [Hk Hn3]]|H]; [|contradiction].
    exists i, j, k. auto.
  - exists cube. rewrite EL in H. exact H.
Qed.

Lemma make_3dfield_odd N p amp ang : (3 <= N)%nat -> Nat.odd N = true -> exists cube, make_3dfield N p amp ang = Ok cube /\ has_shape3 N N (N - 1) cube.
Proof.
  intros HN Od. assert (HN1 : (1 <= N)%nat) by lia. destruct (output3_ok N p ang HN1) as [o [E R]].
  destruct (parity N HN1) as [m [Em HP]]. destruct HP as [[Ev _]|[_ [EN _]]]; [rewrite <- Nat.negb_even, Ev in Od; discriminate|].
  unfold make_3dfield. rewrite E. cbn [bind]. rewrite Em. replace (2 * (S m - 1))%nat with (N - 1)%nat by lia.
  destruct (Nat.eqb_spec (N - 1) 0); [lia|]. eexists. split; [reflexivity|]. apply has_shape3_tab.
Qed.

Lemma odd_cube_refuted : ~ (forall N p amp ang, (2 <= N)%nat -> exists cube, make_3dfield N p amp ang = Ok cube /\ has_shape3 N N N cube).
Proof.
  intros H. destruct (H 3%nat 2 1 (fun _ _ _ => 0)) as [c [E [L1 L2]]]; [lia|].
  destruct (make_3dfield_odd 3 2 1 (fun _ _ _ => 0)) as [c' [E' [L1' L2']]]; [lia|reflexivity|].
  rewrite E in E'. apply (f_equal (fun x => match x with Ok y => y | Err _ => c end)) in E'. subst c'.
  destruct c as [|r c]; [discriminate|].
  specialize (L2 r (or_introl eq_refl)). specialize (L2' r (or_introl eq_refl)). destruct L2 as [A B], L2' as [A' B'].
  destruct r as [|r0 r]; [discriminate|]. specialize (B r0 (or_introl eq_refl)). specialize (B' r0 (or_introl eq_refl)). cbn in B'. lia.
Qed.

(** The Fourier transform that is returned is half the map. *)
Lemma rfft3_shape N cube : has_shape3 N N (S (np1 N)) (rfft3 N cube).
Proof.
  unfold rfft3. cbv zeta. replace (2 * np1 N / 2 + 1)%nat with (S (np1 N)) by (rewrite Nat.mul_comm, Nat.div_mul by lia; lia).
  apply has_shape3_tab.
Qed.

Lemma rfft3_not_full N cube : (3 <= N)%nat -> ~ has_shape3 N N N (rfft3 N cube).
Proof.
  intros HN [L1 L2]. destruct (rfft3_shape N cube) as [L1' L2'].
  destruct (rfft3 N cube) as [|r c]; [cbn in L1; lia|].
  specialize (L2 r (or_introl eq_refl)). specialize (L2' r (or_introl eq_refl)). destruct L2 as [A B], L2' as [A' B'].
  destruct r as [|r0 r]; [cbn in A; lia|]. specialize (B r0 (or_introl eq_refl)). specialize (B' r0 (or_introl eq_refl)).
  destruct (parity N ltac:(lia)) as [m [Em [[? [? [? ?]]]|[? [? ?]]]]]; rewrite Em in *; lia.
Qed.

(** The cube before normalisation has the generated Fourier map. *)
Lemma cube_fourier N p ang o k0 k1 k2 : (1 <= N)%nat -> Nat.even N = true -> output3 N p ang = Ok o -> (k0 < N)%nat -> (k1 < N)%nat -> (k2 < N)%nat ->
  hermitian3 N (full3 N o) /\
  dft3 N N N (fun i j k => RtoC (irfftn_at N (S (np1 N)) o i j k)) k0 k1 k2 = full3 N o k0 k1 k2.
Proof.
  intros HN Ev E H0 H1 H2. destruct (output3_ok N p ang HN) as [o' [E' R]]. rewrite E in E'.
  apply (f_equal (fun x => match x with Ok y => y | Err _ => o end)) in E'. subst o'.
  pose proof (full3_hermitian N _ _ HN R) as HH. split; [exact HH|].
  rewrite (dft3_ext N N N _ (idft3 N N N (full3 N o))) by (intros; now apply cube_idft). now apply dft3_idft3.
Qed.
