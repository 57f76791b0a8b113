(** The value of the distance of two lists of moments. *)
From Coq Require Import Reals List Bool ZArith Arith Lra Lia Permutation.
From Verif Require Import Lib.PyBase Lib.RSum Lib.Fl Lib.Arr Lib.Hist Spec.Bins Spec.Blank Spec.Distrib Model.Units Model.StatsUtils Model.StatMoments Model.MomentsRun Spec.MomentsRun Proofs.Fl_Proofs Proofs.Hist_Proofs Proofs.Moments_Proofs Proofs.Moments2_Proofs Proofs.MomentsRun_Proofs Proofs.MomentsRun4_Proofs.
Import ListNotations.
Local Open Scope R_scope.

Definition gap (a b : fl) : fl := fsqr (fsub (fsqrt a) (fsqrt b)).
Lemma hell_blank v1 v2 w : (forall i, (i < length v1)%nat -> (i < length v2)%nat -> gap (nth i v1 NaN) (nth i v2 NaN) = NaN \/ gap (nth i v1 NaN) (nth i v2 NaN) = Fin 0) -> hellinger v1 v2 w = Fin 0.
Proof.
  intros H. unfold hellinger. assert (S : nansum (map2 (fun a b => fsqr (fsub (fsqrt a) (fsqrt b))) v1 v2) = Fin 0).
  { revert v2 H. induction v1 as [|a v1 IH]; intros v2 H; [reflexivity|]. destruct v2 as [|b v2]; [reflexivity|]. cbn [map2].
    assert (IH' : nansum (map2 (fun a b => fsqr (fsub (fsqrt a) (fsqrt b))) v1 v2) = Fin 0). { apply IH. intros i Hi Hj. apply (H (S i)); cbn; lia. }
    pose proof (H 0%nat ltac:(cbn; lia) ltac:(cbn; lia)) as H0. cbn [nth] in H0. unfold gap in H0. unfold nansum, nonnan in *. cbn [filter]. destruct H0 as [H0|H0]; rewrite H0; cbn [is_nan negb]; [exact IH'|].
    change (fadd (Fin 0) (fsum (filter (fun v => negb (is_nan v)) (map2 (fun a b => fsqr (fsub (fsqrt a) (fsqrt b))) v1 v2))) = Fin 0). rewrite IH'. cbn. f_equal. lra. }
  rewrite S. cbn [fsqrt]. destruct (Rltb_spec 0 0); [lra|]. cbn [fmul]. rewrite sqrt_0. f_equal. lra.
Qed.
Lemma gap_same a : gap a a = NaN \/ gap a a = Fin 0.
Proof. unfold gap. destruct a as [x| | |]; cbn [fsqrt]; auto. destruct (Rltb x 0); [now left|right]. cbn. f_equal. ring. Qed.
Lemma hell_same v w : hellinger v v w = Fin 0.
Proof. apply hell_blank. intros. apply gap_same. Qed.
Lemma gap_sym a b : gap a b = gap b a.
Proof.
  unfold gap. assert (G : forall u v, fsqr (fsub u v) = fsqr (fsub v u)). { intros [x| | |] [y| | |]; cbn; try reflexivity. f_equal. ring. } apply G.
Qed.
Lemma hell_sym v1 v2 w : hellinger v1 v2 w = hellinger v2 v1 w.
Proof.
  unfold hellinger. f_equal. f_equal. f_equal. revert v2. induction v1 as [|a v1 IH]; intros [|b v2]; cbn; auto. f_equal; [apply gap_sym|apply IH].
Qed.

Lemma compare_val a b nb v1 v2 c : (3 <= nb)%nat -> compare (Some (map Fin (mid (linspace a b nb)), v1)) (Some (c, v2)) = Ok (hellinger v1 v2 ((b - a) / INR (nb - 1))).
Proof. intros H. destruct (mid_two a b nb H) as (c0 & c1 & r & E & D). rewrite E. cbn. now rewrite D. Qed.

(** *** A list against itself, and in the other order *)
Lemma pair_self l nb : Forall blankable l -> (3 <= nb)%nat -> fins l <> [] -> pair_value l l nb = Ok (Fin 0).
Proof.
  intros B N H. rewrite pair_fins by assumption. destruct (range_both _ _ H H) as (lo & hi & -> & _). cbv zeta. rewrite compare_val by exact N. now rewrite hell_same.
Qed.
Lemma range_sym x1 x2 : x1 <> [] -> x2 <> [] -> range_of x1 x2 = range_of x2 x1.
Proof.
  intros N1 N2. destruct (min_real x1 N1) as (m1 & A1 & _), (min_real x2 N2) as (m2 & A2 & _), (max_real x1 N1) as (y1 & B1 & _), (max_real x2 N2) as (y2 & B2 & _).
  unfold range_of. rewrite A1, A2, B1, B2, !fmin_fin, !fmax_fin. now rewrite (Rmin_comm m1), (Rmax_comm y1).
Qed.
Lemma pair_sym l1 l2 nb : Forall blankable l1 -> Forall blankable l2 -> fins l1 <> [] -> fins l2 <> [] -> pair_value l1 l2 nb = pair_value l2 l1 nb.
Proof.
  intros B1 B2 N1 N2. rewrite !pair_fins by assumption. rewrite (range_sym (fins l2)) by assumption. destruct (range_of (fins l1) (fins l2)) as [[a b]|]; [|reflexivity].
  cbv zeta. destruct (mid (linspace a b nb)) as [|c0 [|c1 r]]; cbn [map compare]; try reflexivity. now rewrite hell_sym.
Qed.

(** *** Lists without a number *)
Lemma density_none e i : (i < length e - 1)%nat -> nth i (density [] e) NaN = NaN.
Proof.
  intros H. unfold density. cbv zeta. rewrite tab1_nth by exact H.
  assert (C : counts [] e = tab1 (length e - 1) (fun _ => 0)). { unfold counts. apply tab1_ext. intros k _. unfold cum_n. destruct (Nat.eqb _ _), (Nat.eqb _ _); cbn; lra. }
  rewrite C. rewrite tab1_nth by exact H. assert (L : lsum (tab1 (length e - 1) (fun _ => 0)) = 0). { unfold tab1. rewrite lsum_map_const. lra. }
  rewrite L. assert (Z : forall d, fdiv (Fin 0) (Fin d) = NaN \/ fdiv (Fin 0) (Fin d) = Fin 0). { intros d. unfold fdiv. destruct (Reqb_spec d 0); [left; apply zero_inf|right]. f_equal. unfold Rdiv. ring. }
  destruct (Z (nth (S i) e 0 - nth i e 0)) as [E|E]; rewrite E; [reflexivity|]. unfold fdiv. destruct (Reqb_spec 0 0); [apply zero_inf|lra].
Qed.
Lemma density_length x e : length (density x e) = (length e - 1)%nat.
Proof. unfold density. apply tab1_length. Qed.
Lemma gap_nan_r a : gap a NaN = NaN.
Proof. unfold gap. cbn [fsqrt]. destruct (fsqrt a); reflexivity. Qed.
Lemma pair_second_none l1 l2 nb : Forall blankable l1 -> Forall blankable l2 -> (3 <= nb)%nat -> fins l1 <> [] -> fins l2 = [] -> pair_value l1 l2 nb = Ok (Fin 0).
Proof.
  intros B1 B2 N N1 N2. rewrite pair_fins by assumption. rewrite N2. destruct (range_first _ N1) as (lo & hi & -> & _). cbv zeta. rewrite compare_val by exact N. f_equal. apply hell_blank.
  intros i _ Hi. left. rewrite density_length in Hi. rewrite density_none by exact Hi. apply gap_nan_r.
Qed.
Lemma pair_first_none l1 l2 nb : Forall blankable l1 -> Forall blankable l2 -> (3 <= nb)%nat -> fins l1 = [] -> pair_value l1 l2 nb = Ok NaN.
Proof.
  intros B1 B2 N N1. rewrite pair_fins by assumption. rewrite N1, range_none. destruct nb as [|[|[|nb]]]; try lia. reflexivity.
Qed.

(** *** The bound *)
Lemma density_point x a nb i : (2 <= nb)%nat -> (i < nb - 1)%nat -> is_fin (nth i (density x (linspace a a nb)) NaN) = false.
Proof.
  intros N H. unfold density. cbv zeta. rewrite lin_length. rewrite tab1_nth by exact H. rewrite !lin_nth by lia. replace (a + INR (S i) * ((a - a) / INR (nb - 1)) - (a + INR i * ((a - a) / INR (nb - 1)))) with 0.
  2: { assert (INR (nb - 1) <> 0) by (apply not_0_INR; lia). field. assumption. }
  unfold fdiv at 2. destruct (Reqb_spec 0 0); [|lra]. unfold sinf. destruct (Rltb_spec 0 (nth i (counts x (linspace a a nb)) 0)); [cbn; destruct (Rltb _ 0); reflexivity|].
  destruct (Rltb_spec (nth i (counts x (linspace a a nb)) 0) 0); [cbn; destruct (Rltb _ 0); reflexivity|reflexivity].
Qed.
Lemma gap_inf a b : is_fin a = false -> is_fin b = false -> gap a b = NaN.
Proof. destruct a, b; try discriminate; reflexivity. Qed.
Lemma sqrt_gap p q : 0 <= p -> 0 <= q -> 0 <= (sqrt p - sqrt q) ^ 2 <= p + q.
Proof.
  intros P Q. split; [apply pow2_ge_0|]. pose proof (sqrt_pos p). pose proof (sqrt_pos q). pose proof (sqrt_sqrt p P). pose proof (sqrt_sqrt q Q). nra.
Qed.
Lemma map2_length_min (v1 v2 : list R) : length v1 = length v2 -> map2 (fun a b => fsqr (fsub (fsqrt a) (fsqrt b))) (map Fin v1) (map Fin v2) = map2 (fun a b => gap (Fin a) (Fin b)) v1 v2.
Proof. revert v2. induction v1 as [|a v1 IH]; intros [|b v2] H; try discriminate; [reflexivity|]. cbn in H |- *. f_equal. apply IH. lia. Qed.
Fixpoint gaps (v1 v2 : list R) : list R := match v1, v2 with a :: r, b :: s => (sqrt a - sqrt b) ^ 2 :: gaps r s | _, _ => [] end.
Lemma gaps_eq v1 v2 : (forall y, In y v1 -> 0 <= y) -> (forall y, In y v2 -> 0 <= y) -> map2 (fun a b => gap (Fin a) (Fin b)) v1 v2 = map Fin (gaps v1 v2).
Proof.
  revert v2. induction v1 as [|a v1 IH]; intros [|b v2] P Q; try reflexivity. cbn [map2 gaps map]. f_equal; [|apply IH; intros; [apply P|apply Q]; now right].
  unfold gap. cbn [fsqrt]. destruct (Rltb_spec a 0); [pose proof (P a (or_introl eq_refl)); lra|]. destruct (Rltb_spec b 0); [pose proof (Q b (or_introl eq_refl)); lra|]. cbn. f_equal. ring.
Qed.
Lemma gaps_le v1 v2 : length v1 = length v2 -> (forall y, In y v1 -> 0 <= y) -> (forall y, In y v2 -> 0 <= y) -> 0 <= lsum (gaps v1 v2) <= lsum v1 + lsum v2.
Proof.
  revert v2. induction v1 as [|a v1 IH]; intros [|b v2] L P Q; try discriminate; [cbn; lra|]. cbn [gaps]. destruct (IH v2) as [I1 I2]; [cbn in L; lia|intros; apply P; now right|intros; apply Q; now right|].
  destruct (sqrt_gap a b (P a (or_introl eq_refl)) (Q b (or_introl eq_refl))) as [G1 G2].
  change (lsum ((sqrt a - sqrt b) ^ 2 :: gaps v1 v2)) with ((sqrt a - sqrt b) ^ 2 + lsum (gaps v1 v2)). change (lsum (a :: v1)) with (a + lsum v1). change (lsum (b :: v2)) with (b + lsum v2). lra.
Qed.
Lemma hell_pdf e1 e2 v1 v2 w : 0 < w -> is_pdf e1 v1 -> is_pdf e2 v2 -> length e1 = length e2 ->
  (forall i, (S i < length e1)%nat -> nth (S i) e1 0 - nth i e1 0 = w) -> (forall i, (S i < length e2)%nat -> nth (S i) e2 0 - nth i e2 0 = w) ->
  exists d, hellinger v1 v2 w = Fin d /\ 0 <= d <= sqrt w.
Proof.
  intros W (x1 & -> & L1 & P1 & S1) (x2 & -> & L2 & P2 & S2) LE D1 D2. unfold hellinger.
  assert (T : forall e x, length e = S (length x) -> (forall i, (S i < length e)%nat -> nth (S i) e 0 - nth i e 0 = w) -> rsum (length x) (fun i => nth i x 0 * (nth (S i) e 0 - nth i e 0)) = 1 -> lsum x = / w).
  { intros e x L D S. rewrite (rsum_ext _ _ (fun i => w * nth i x 0)) in S by (intros i Hi; rewrite D by lia; ring). rewrite rsum_scal in S. rewrite <- lsum_nth in S. apply (Rmult_eq_reg_l w); [|lra]. rewrite S. field. lra. }
  pose proof (T e1 x1 L1 D1 S1) as T1. pose proof (T e2 x2 L2 D2 S2) as T2. clear T.
  assert (LX : length x1 = length x2) by lia. rewrite map2_length_min by exact LX. rewrite gaps_eq by assumption. rewrite nansum_fins by apply blankable_map_Fin. rewrite fins_map_Fin.
  destruct (gaps_le x1 x2 LX P1 P2) as [G1 G2]. cbn [fsqrt]. destruct (Rltb_spec (lsum (gaps x1 x2)) 0); [lra|]. cbn [fmul]. eexists. split; [reflexivity|].
  assert (Q2 : 0 < sqrt 2) by (apply sqrt_lt_R0; lra). split.
  - apply Rmult_le_pos; [|apply sqrt_pos]. left. now apply Rdiv_lt_0_compat.
  - rewrite T1, T2 in G2. assert (sqrt (lsum (gaps x1 x2)) <= sqrt (2 * / w)) by (apply sqrt_le_1_alt; lra). assert (IW : 0 < / w) by now apply Rinv_0_lt_compat.
    rewrite sqrt_mult in H by lra. assert (SW : 0 < sqrt w) by now apply sqrt_lt_R0. assert (E : sqrt (/ w) = / sqrt w) by apply sqrt_inv.
    rewrite E in H. assert (WW : w = sqrt w * sqrt w) by (symmetry; apply sqrt_sqrt; lra).
    apply (Rmult_le_compat_l (w / sqrt 2)) in H; [|left; now apply Rdiv_lt_0_compat]. eapply Rle_trans; [exact H|]. right. rewrite WW at 1. field. lra.
Qed.
Lemma pair_bound l1 l2 nb : Forall blankable l1 -> Forall blankable l2 -> (3 <= nb)%nat -> fins l1 <> [] -> fins l2 <> [] ->
  exists lo hi d, is_min lo (fins l1 ++ fins l2) /\ is_max hi (fins l1 ++ fins l2) /\ pair_value l1 l2 nb = Ok (Fin d) /\ 0 <= d <= sqrt ((hi - lo) / INR (nb - 1)).
Proof.
  intros B1 B2 N N1 N2. rewrite pair_fins by assumption. destruct (range_both _ _ N1 N2) as (lo & hi & E & M & X). rewrite E. cbv zeta. rewrite compare_val by exact N.
  pose proof (range_le _ _ _ _ E) as L. assert (P : 0 < INR (nb - 1)) by (apply lt_0_INR; lia). destruct (Rle_lt_or_eq_dec lo hi L) as [LT|EQ].
  - assert (R : forall l, l <> [] -> incl l (fins l1 ++ fins l2) -> is_pdf (linspace lo hi nb) (density l (linspace lo hi nb))).
    { intros l NL IL. destruct l as [|x l]; [congruence|]. apply (proj1 (density_pdf (x :: l) (linspace lo hi nb) x (lin_increasing lo hi nb LT) ltac:(rewrite lin_length; lia) (or_introl eq_refl) ltac:(split; [rewrite lin_first by lia|rewrite lin_length, lin_last by lia]; [apply M|apply X]; apply IL; now left))). }
    assert (D : forall i, (S i < length (linspace lo hi nb))%nat -> nth (S i) (linspace lo hi nb) 0 - nth i (linspace lo hi nb) 0 = (hi - lo) / INR (nb - 1)).
    { intros i Hi. rewrite lin_length in Hi. rewrite !lin_nth by lia. rewrite (S_INR i). lra. }
    destruct (hell_pdf _ _ _ _ ((hi - lo) / INR (nb - 1)) ltac:(apply Rdiv_lt_0_compat; lra) (R (fins l1) N1 ltac:(intros z Hz; apply in_or_app; now left)) (R (fins l2) N2 ltac:(intros z Hz; apply in_or_app; now right)) eq_refl D D) as (d & -> & Hd).
    exists lo, hi, d. auto.
  - subst hi. exists lo, lo, 0. split; [exact M|]. split; [exact X|]. split.
    + f_equal. apply hell_blank. intros i Hi Hj. left. rewrite density_length, lin_length in Hi. apply gap_inf; apply density_point; lia.
    + split; [lra|apply sqrt_pos].
Qed.

(** *** Reordering *)
Lemma filter_perm {A} (P : A -> bool) l l' : Permutation l l' -> length (filter P l) = length (filter P l').
Proof. intros H. induction H; cbn; auto; try congruence; [destruct (P x); cbn; congruence|destruct (P x), (P y); reflexivity]. Qed.
Lemma density_perm x y e : Permutation x y -> density x e = density y e.
Proof.
  intros H. assert (C : counts x e = counts y e). { unfold counts. apply tab1_ext. intros i _. unfold cum_n, count_le, count_lt. now rewrite !(filter_perm _ _ _ H). }
  unfold density. cbv zeta. now rewrite C.
Qed.
Lemma fins_perm l l' : Permutation l l' -> Permutation (fins l) (fins l').
Proof. intros H. unfold fins. now apply Permutation_flat_map. Qed.
Lemma blank_perm (l l' : list fl) : Permutation l l' -> Forall blankable l -> Forall blankable l'.
Proof. intros P H. rewrite Forall_forall in *. intros v Hv. apply H. now apply (Permutation_in _ (Permutation_sym P)). Qed.
Lemma pair_perm l1 l2 k1 k2 nb : Forall blankable l1 -> Forall blankable l2 -> Permutation l1 k1 -> Permutation l2 k2 -> pair_value l1 l2 nb = pair_value k1 k2 nb.
Proof.
  intros B1 B2 P1 P2. rewrite !pair_fins by (try assumption; eapply blank_perm; eassumption). rewrite (range_perm _ _ _ _ (fins_perm _ _ P1) (fins_perm _ _ P2)).
  destruct (range_of _ _) as [[a b]|]; [|reflexivity]. cbv zeta. now rewrite (density_perm _ _ _ (fins_perm _ _ P1)), (density_perm _ _ _ (fins_perm _ _ P2)).
Qed.
