From Coq Require Import Reals List ZArith Bool Arith Lia Lra Permutation.
From Verif Require Import Lib.PyBase Lib.RSum Lib.Fl Lib.Arr Model.Scf Model.StatsUtils Model.MakeCube Spec.Ppv
  Proofs.Scf_Proofs Proofs.StatsUtils2_Proofs Proofs.MakeCube_Proofs.
Import ListNotations.
Local Open Scope R_scope.

(** ** Density *)
Lemma weight_nonneg unit vt pix edges v n i x : 0 < unit -> 0 < vt -> 0 < pix -> 0 <= weight unit vt pix edges v n i x.
Proof.
  intros U V P. unfold weight. apply Rmult_le_pos; [| left; apply Rinv_0_lt_compat; unfold conv_to_K; lra].
  apply Rmult_le_pos; [apply pos_INR |]. left. apply line_pos; [| assumption]. apply Rmult_lt_0_compat; [assumption |]. now apply pow_lt.
Qed.
Lemma sight_map2 g a b ax y x i : sight (f_map2 g a b) ax y x i = g (sight a ax y x i) (sight b ax y x i).
Proof. destruct ax as [| [| ax]]; reflexivity. Qed.
Lemma sight_map g a ax y x i : sight (f_map g a) ax y x i = g (sight a ax y x i).
Proof. destruct ax as [| [| ax]]; reflexivity. Qed.
Lemma nonneg_values f : nonneg_field f -> existsb (fun d => Rltb d 0) (values f) = false.
Proof.
  intro H. destruct (existsb _ _) eqn:E; [| reflexivity]. apply existsb_neg in E. destruct E as [i [j [k [_ [_ [_ N]]]]]]. specialize (H i j k). lra.
Qed.
Section Density.
Variables (U : R) (vel : field) (a : nat) (vt pix vd idx : R) (cw v0 v1 : option velocity) (mc : Z) (hdu : bool).
Hypothesis A3 : (a < 3)%nat.
Hypothesis N2 : (2 <= dim (f_shape vel) a)%nat.
Let ppv d := make_ppv U vel d (Z.of_nat a) vt pix vd idx cw v0 v1 mc None hdu.
Lemma other_density d d' cube axis : f_shape d = f_shape vel -> f_shape d' = f_shape vel -> nonneg_field d' -> ppv d = Ok (cube, axis) -> exists cube', ppv d' = Ok (cube', axis).
Proof.
  intros S S' N H. destruct (make_ppv_value U vel d a vt pix vd idx cw v0 v1 mc hdu A3 S N2 cube axis H) as [_ [edges [unit [E [X [B _]]]]]].
  subst axis. apply (make_ppv_total U vel d' a vt pix vd idx cw v0 v1 mc hdu A3 S' N2 edges unit (nonneg_values d' N) E). intro T. specialize (B T). rewrite mids_length in B. lia.
Qed.
Lemma voxel_sum d cube axis edges unit : f_shape d = f_shape vel -> ppv d = Ok (cube, axis) -> chosen_edges U vel a vt vd idx cw v0 v1 mc = Ok (edges, unit) ->
  forall y x j, on_image vel a y x -> (j < length axis)%nat -> voxel cube j y x = los_sum U vt pix (map (fun e => e * unit) edges) vel d a y x j.
Proof.
  intros S H E. destruct (make_ppv_value U vel d a vt pix vd idx cw v0 v1 mc hdu A3 S N2 cube axis H) as [_ [edges' [unit' [E' [_ [_ [_ [_ V]]]]]]]].
  rewrite E in E'. apply (f_equal (fun r => match r with Ok p => p | Err _ => (edges, unit) end)) in E'. pose proof (f_equal fst E') as E1. pose proof (f_equal snd E') as E2. cbn [fst snd] in E1, E2. subst. exact V.
Qed.
Theorem density_additive d1 d2 cube axis : f_shape d1 = f_shape vel -> f_shape d2 = f_shape vel -> nonneg_field d1 -> nonneg_field d2 -> ppv d1 = Ok (cube, axis) ->
  exists cube2 cube12, ppv d2 = Ok (cube2, axis) /\ ppv (f_map2 Rplus d1 d2) = Ok (cube12, axis) /\
  forall y x j, on_image vel a y x -> (j < length axis)%nat -> voxel cube12 j y x = voxel cube j y x + voxel cube2 j y x.
Proof.
  intros S1 S2 N1 M2 H. destruct (other_density d1 d2 cube axis S1 S2 M2 H) as [cube2 H2].
  destruct (other_density d1 (f_map2 Rplus d1 d2) cube axis S1 S1) as [cube12 H12]; [| assumption |].
  { intros i j k. cbn. specialize (N1 i j k). specialize (M2 i j k). lra. }
  exists cube2, cube12. split; [assumption |]. split; [assumption |]. intros y x j O J.
  destruct (make_ppv_value U vel d1 a vt pix vd idx cw v0 v1 mc hdu A3 S1 N2 cube axis H) as [_ [edges [unit [E _]]]].
  rewrite (voxel_sum d1 cube axis edges unit S1 H E), (voxel_sum d2 cube2 axis edges unit S2 H2 E), (voxel_sum (f_map2 Rplus d1 d2) cube12 axis edges unit S1 H12 E) by assumption.
  unfold los_sum. rewrite <- rsum_plus. apply rsum_ext. intros i _. rewrite sight_map2. lra.
Qed.
Theorem density_scaled c d cube axis : f_shape d = f_shape vel -> nonneg_field d -> 0 <= c -> ppv d = Ok (cube, axis) ->
  exists cube', ppv (f_map (Rmult c) d) = Ok (cube', axis) /\
  forall y x j, on_image vel a y x -> (j < length axis)%nat -> voxel cube' j y x = c * voxel cube j y x.
Proof.
  intros S N C H. destruct (other_density d (f_map (Rmult c) d) cube axis S S) as [cube' H']; [| assumption |].
  { intros i j k. cbn. specialize (N i j k). now apply Rmult_le_pos. }
  exists cube'. split; [assumption |]. intros y x j O J.
  destruct (make_ppv_value U vel d a vt pix vd idx cw v0 v1 mc hdu A3 S N2 cube axis H) as [_ [edges [unit [E _]]]].
  rewrite (voxel_sum d cube axis edges unit S H E), (voxel_sum (f_map (Rmult c) d) cube' axis edges unit S H' E) by assumption.
  unfold los_sum. rewrite <- rsum_scal. apply rsum_ext. intros i _. rewrite sight_map. lra.
Qed.
Lemma sight_in f y x i : (a < 3)%nat -> on_image f a y x -> (i < dim (f_shape f) a)%nat ->
  exists p q r, (p < dim (f_shape f) 0)%nat /\ (q < dim (f_shape f) 1)%nat /\ (r < dim (f_shape f) 2)%nat /\ sight f a y x i = f_at f p q r.
Proof.
  intros A [Y X] I. unfold image_dims, dim, sight in *. destruct (f_shape f) as [[n0 n1] n2]. destruct a as [| [| [| b]]]; [| | | lia]; cbn [fst snd] in *; eexists _, _, _; (split; [| split; [| split; [| reflexivity]]]); assumption.
Qed.
Theorem density_nonneg d cube axis : 0 < U -> 0 < vt -> 0 < pix -> f_shape d = f_shape vel -> ppv d = Ok (cube, axis) ->
  forall y x j, on_image vel a y x -> (j < length axis)%nat -> 0 <= voxel cube j y x.
Proof.
  intros PU PV PP S H y x j O J.
  destruct (make_ppv_value U vel d a vt pix vd idx cw v0 v1 mc hdu A3 S N2 cube axis H) as [NN [edges [unit [E [_ [_ [_ [_ V]]]]]]]].
  rewrite (V y x j O J). unfold los_sum. apply rsum_nonneg. intros i I. apply Rmult_le_pos; [| now apply weight_nonneg].
  destruct (Rle_or_lt 0 (sight d a y x i)) as [| L]; [assumption |]. exfalso. rewrite <- S in I.
  destruct (sight_in d y x i A3) as [p [q [r [P [Q [R0 T]]]]]]; [unfold on_image; now rewrite S | assumption |]. rewrite T in L.
  assert (C : existsb (fun d => Rltb d 0) (values d) = true) by (apply existsb_neg; now exists p, q, r). congruence.
Qed.
End Density.
(** the spectrum of a line of sight does not depend on the order of its cells *)
Theorem spectrum_order cells cells' edges vt pix : Permutation cells cells' ->
  generate_spectrum cells edges (mids edges) vt pix = generate_spectrum cells' edges (mids edges) vt pix.
Proof.
  intro P. destruct (gs_closed cells edges (mids edges) vt pix (mids_length edges)) as [L V]. destruct (gs_closed cells' edges (mids edges) vt pix (mids_length edges)) as [L' V'].
  apply (nth_ext _ _ 0 0); [now rewrite L, L' |]. intros j J. rewrite L in J. rewrite (V j J), (V' j J). apply lsum_perm. now apply Permutation_map.
Qed.

(** ** Channels *)
Lemma ceil_bounds r : r <= IZR (np_ceil r) < r + 1.
Proof. unfold np_ceil. rewrite opp_IZR. destruct (base_Int_part (- r)). lra. Qed.
Lemma ceil_unique r k : r <= IZR k < r + 1 -> np_ceil r = k.
Proof.
  intro H. pose proof (ceil_bounds r) as B. assert (np_ceil r < k + 1)%Z by (apply lt_IZR; rewrite plus_IZR; lra). assert (k < np_ceil r + 1)%Z by (apply lt_IZR; rewrite plus_IZR; lra). lia.
Qed.
Lemma Int_part_IZR k : Int_part (IZR k) = k.
Proof. destruct (base_Int_part (IZR k)) as [A B]. assert (Int_part (IZR k) <= k)%Z by (apply le_IZR; lra). assert (k < Int_part (IZR k) + 1)%Z by (apply lt_IZR; rewrite plus_IZR; lra). lia. Qed.
Lemma truncz_IZR k : truncz (IZR k) = k.
Proof. unfold truncz. destruct (Rltb_spec (IZR k) 0); [apply ceil_unique; lra | apply Int_part_IZR]. Qed.
Lemma n_channels_same U v_eff u lo hi w : u <> 0 -> n_channels U v_eff (mk_vel lo u) (mk_vel hi u) (Some (mk_vel w u)) = np_ceil ((hi - lo) / w).
Proof.
  intro N. unfold n_channels, v_sub, v_to, cgs. cbn [v_num v_unit]. replace (lo * u / u) with lo by (field; assumption). replace (u / u) with 1 by (field; assumption). rewrite Rmult_1_r. apply truncz_IZR.
Qed.
Theorem edges_given U mn mx v_lim v_eff u lo hi w mc : 0 < u -> lo < hi -> 0 < w -> (np_ceil ((hi - lo) / w) <= mc)%Z ->
  exists n edges, (1 <= n)%nat /\ INR n - 1 < (hi - lo) / w <= INR n /\ (Z.of_nat n <= mc)%Z /\
  vel_edges U mn mx v_lim v_eff (Some (mk_vel lo u)) (Some (mk_vel hi u)) (Some (mk_vel w u)) mc = Ok (edges, u) /\ edges = linspace lo hi (S n).
Proof.
  intros P L W M. unfold vel_edges, limits. cbn [v_num v_unit]. rewrite n_channels_same by lra. unfold cgs. cbn [v_num v_unit].
  destruct (Rltb_spec (hi * u) (lo * u)) as [B | _]; [exfalso; apply (Rmult_lt_compat_r u) in L; lra |].
  pose proof (ceil_bounds ((hi - lo) / w)) as CB. assert (Q : 0 < (hi - lo) / w) by (apply Rdiv_lt_0_compat; lra).
  set (k := np_ceil ((hi - lo) / w)) in *. assert (K : (0 < k)%Z) by (apply lt_IZR; lra).
  destruct (Z.ltb_spec mc k); [lia |]. destruct (Z.ltb_spec (k + 1) 0); [lia |].
  assert (IK : INR (Z.to_nat k) = IZR k) by (rewrite INR_IZR_INZ, Z2Nat.id by lia; reflexivity).
  exists (Z.to_nat k), (linspace lo hi (Z.to_nat (k + 1))). split; [lia |]. split; [rewrite IK; lra |]. split; [lia |]. split; [reflexivity |].
  f_equal. lia.
Qed.
Lemma axis_nth lo hi n j : (1 <= n)%nat -> (j < n)%nat -> nth j (mids (linspace lo hi (S n))) 0 = lo + (INR j + 1 / 2) * ((hi - lo) / INR n).
Proof.
  intros N J. rewrite mids_nth by (rewrite linspace_length; lia). rewrite !linspace_nth by lia. rewrite S_INR. replace (S n - 1)%nat with n by lia. lra.
Qed.

(** ** Channels holding a velocity *)
Fixpoint climbing (edges : list R) : Prop := match edges with a :: ((b :: _) as t) => a < b /\ climbing t | _ => True end.
Lemma climbing_ge e : forall a, climbing (a :: e) -> forall x, In x e -> a < x.
Proof. induction e as [| b e IH]; intros a C x []; cbn in C; destruct C as [C1 C2]; [now subst |]. specialize (IH b C2 x H). lra. Qed.
Lemma hits_cons a b t v : hits (a :: b :: t) v = ((if Rltb a v && Rltb v b then 1 else 0) + hits (b :: t) v)%nat.
Proof.
  unfold hits. cbn [tl]. change (removelast (a :: b :: t)) with (a :: removelast (b :: t)). change (combine (a :: removelast (b :: t)) (b :: t)) with ((a, b) :: combine (removelast (b :: t)) t).
  cbn [filter fst snd]. destruct (Rltb a v && Rltb v b); reflexivity.
Qed.
Lemma hits_below e v : climbing e -> (forall x, In x e -> v <= x) -> hits e v = 0%nat.
Proof.
  induction e as [| a [| b t] IH]; intros C H; try reflexivity. rewrite hits_cons. destruct (Rltb_spec a v) as [L |]; [specialize (H a (or_introl eq_refl)); lra |]. cbn [andb].
  rewrite IH; [reflexivity | apply C |]. intros x X. apply H. now right.
Qed.
Lemma hits_le1 e v : climbing e -> (hits e v <= 1)%nat.
Proof.
  induction e as [| a [| b t] IH]; intros C; try (cbn; lia). rewrite hits_cons. destruct C as [C1 C2]. destruct (Rltb_spec a v), (Rltb_spec v b); cbn [andb]; try (specialize (IH C2); lia).
  rewrite hits_below; [lia | assumption |]. intros x [<- | X]; [lra |]. pose proof (climbing_ge t b C2 x X). lra.
Qed.
Lemma hits_inside e v : (1 <= hits e v)%nat <-> exists k, in_channel e k v.
Proof.
  induction e as [| a [| b t] IH].
  - cbn. split; [lia | intros [k [K _]]; cbn in K; lia].
  - cbn. split; [lia | intros [k [K _]]; cbn in K; lia].
  - rewrite hits_cons. split.
    + intro H. destruct (Rltb_spec a v) as [L1 |], (Rltb_spec v b) as [L2 |]; cbn [andb] in H; try (destruct (proj1 IH) as [k [K1 K2]]; [lia | exists (S k); split; [cbn in *; lia | exact K2]]).
      exists 0%nat. split; [cbn; lia | cbn; lra].
    + intros [[| k] [K1 K2]].
      * cbn in K2. destruct (Rltb_spec a v), (Rltb_spec v b); cbn; try lra; lia.
      * assert (1 <= hits (b :: t) v)%nat; [| lia]. apply IH. exists k. split; [cbn in *; lia | exact K2].
Qed.
Lemma climbing_nth e : (forall k, (S k < length e)%nat -> nth k e 0 < nth (S k) e 0) -> climbing e.
Proof.
  induction e as [| a [| b t] IH]; intro H; try exact I. split; [apply (H 0%nat); cbn; lia |]. apply IH. intros k K. apply (H (S k)). cbn in *. lia.
Qed.
Lemma climbing_mono e i j : climbing e -> (i < j)%nat -> (j < length e)%nat -> nth i e 0 < nth j e 0.
Proof.
  revert i j. induction e as [| a t IH]; intros i j C L J; [cbn in J; lia |]. destruct j as [| j]; [lia |]. destruct i as [| i].
  - cbn. apply (climbing_ge t a C). apply nth_In. cbn in J. lia.
  - cbn. apply IH; [destruct t; [exact I | apply C] | lia | cbn in J; lia].
Qed.
(** a velocity equal to an edge lies in no channel *)
Lemma hits_edge e k : climbing e -> (k < length e)%nat -> hits e (nth k e 0) = 0%nat.
Proof.
  intros C K. destruct (hits e (nth k e 0)) as [| m] eqn:E; [reflexivity |]. exfalso. destruct (proj1 (hits_inside e (nth k e 0))) as [i [I1 I2]]; [lia |].
  destruct (Nat.lt_trichotomy i k) as [L | [-> | L]]; [| lra |].
  - destruct (Nat.eq_dec (S i) k) as [<- | N]; [lra |]. pose proof (climbing_mono e (S i) k C ltac:(lia) K). lra.
  - pose proof (climbing_mono e k i C L ltac:(lia)). lra.
Qed.
Lemma linspace_climbing lo hi n : lo < hi -> climbing (linspace lo hi n).
Proof.
  intro H. apply climbing_nth. rewrite linspace_length. intros k K. pose proof (linspace_step lo hi n k ltac:(lia) K) as S.
  assert (0 < (hi - lo) / INR (n - 1)) by (apply Rdiv_lt_0_compat; [lra | apply lt_0_INR; lia]). lra.
Qed.
Lemma climbing_scale u e : 0 < u -> climbing e -> climbing (map (fun x => x * u) e).
Proof. intros U. induction e as [| a [| b t] IH]; intro C; try exact I. destruct C as [C1 C2]. split; [nra | now apply IH]. Qed.

(** ** Reversal *)
Lemma grad_rev v n i : (2 <= n)%nat -> (i < n)%nat -> grad (fun k => v (n - 1 - k)%nat) n i = - grad v n (n - 1 - i).
Proof.
  intros N I. unfold grad. destruct (Nat.eqb_spec i 0) as [-> | I0].
  - destruct (Nat.eqb_spec (n - 1 - 0) 0); [lia |]. destruct (Nat.eqb_spec (n - 1 - 0) (n - 1)); [| lia].
    replace (n - 1 - 1)%nat with (n - 2)%nat by lia. replace (n - 1 - 0)%nat with (n - 1)%nat by lia. lra.
  - destruct (Nat.eqb_spec i (n - 1)) as [-> | I1].
    + replace (n - 1 - (n - 1))%nat with 0%nat by lia. cbn [Nat.eqb]. replace (n - 1 - (n - 2))%nat with 1%nat by lia. lra.
    + destruct (Nat.eqb_spec (n - 1 - i) 0); [lia |]. destruct (Nat.eqb_spec (n - 1 - i) (n - 1)); [lia |].
      replace (n - 1 - (i + 1))%nat with (n - 1 - i - 1)%nat by lia. replace (n - 1 - (i - 1))%nat with (n - 1 - i + 1)%nat by lia. lra.
Qed.
Lemma line_neg_gradient vt pix v g x : line vt pix v (- g) x = line vt pix v g x.
Proof. unfold line. replace ((- g * pix) ^ 2) with ((g * pix) ^ 2) by ring. reflexivity. Qed.
Lemma min_list_spec l : l <> [] -> In (min_list l) l /\ forall x, In x l -> min_list l <= x.
Proof.
  intro H. destruct l as [| a l]; [easy |]. clear H. cbn [min_list]. revert a. induction l as [| b l IH]; intro a; cbn [fold_left].
  - split; [now left |]. intros x [<- | []]. lra.
  - destruct (IH (Rmin a b)) as [A B]. split.
    + destruct A as [A | A]; [| now right; right]. rewrite <- A. unfold Rmin. destruct (Rle_dec a b); [now left | now right; left].
    + intros x [<- | [<- | X]]; [| | apply B; now right].
      * specialize (B (Rmin a b) (or_introl eq_refl)). pose proof (Rmin_l a b). lra.
      * specialize (B (Rmin a b) (or_introl eq_refl)). pose proof (Rmin_r a b). lra.
Qed.
Lemma max_list_spec l : l <> [] -> In (max_list l) l /\ forall x, In x l -> x <= max_list l.
Proof.
  intro H. destruct l as [| a l]; [easy |]. clear H. cbn [max_list]. revert a. induction l as [| b l IH]; intro a; cbn [fold_left].
  - split; [now left |]. intros x [<- | []]. lra.
  - destruct (IH (Rmax a b)) as [A B]. split.
    + destruct A as [A | A]; [| now right; right]. rewrite <- A. unfold Rmax. destruct (Rle_dec a b); [now right; left | now left].
    + intros x [<- | [<- | X]]; [| | apply B; now right].
      * specialize (B (Rmax a b) (or_introl eq_refl)). pose proof (Rmax_l a b). lra.
      * specialize (B (Rmax a b) (or_introl eq_refl)). pose proof (Rmax_r a b). lra.
Qed.
Lemma min_list_set l l' : (forall x, In x l <-> In x l') -> min_list l = min_list l'.
Proof.
  intro H. destruct l as [| a l]; [destruct l' as [| b l']; [reflexivity | destruct (proj2 (H b) (or_introl eq_refl))] |].
  destruct l' as [| b l']; [destruct (proj1 (H a) (or_introl eq_refl)) |].
  destruct (min_list_spec (a :: l)) as [A B]; [easy |]. destruct (min_list_spec (b :: l')) as [A' B']; [easy |].
  apply Rle_antisym; [apply B; now apply H | apply B'; now apply H].
Qed.
Lemma max_list_set l l' : (forall x, In x l <-> In x l') -> max_list l = max_list l'.
Proof.
  intro H. destruct l as [| a l]; [destruct l' as [| b l']; [reflexivity | destruct (proj2 (H b) (or_introl eq_refl))] |].
  destruct l' as [| b l']; [destruct (proj1 (H a) (or_introl eq_refl)) |].
  destruct (max_list_spec (a :: l)) as [A B]; [easy |]. destruct (max_list_spec (b :: l')) as [A' B']; [easy |].
  apply Rle_antisym; [apply B'; now apply H | apply B; now apply H].
Qed.
Lemma in_values f x : In x (values f) <-> exists i j k, (i < dim (f_shape f) 0)%nat /\ (j < dim (f_shape f) 1)%nat /\ (k < dim (f_shape f) 2)%nat /\ x = f_at f i j k.
Proof.
  unfold values. rewrite in_map_iff. split.
  - intros [[[i j] k] [E I]]. rewrite !in_prod_iff, !in_seq in I. cbn [fst snd] in E. exists i, j, k. repeat split; try lia. now symmetry.
  - intros [i [j [k [I [J [K E]]]]]]. exists (i, j, k). split; [now symmetry |]. rewrite !in_prod_iff, !in_seq. lia.
Qed.
Lemma reversed_shape a f : f_shape (reversed a f) = f_shape f.
Proof. reflexivity. Qed.
Lemma reversed_values a f x : (a < 3)%nat -> In x (values (reversed a f)) <-> In x (values f).
Proof.
  intro A. rewrite !in_values. rewrite reversed_shape. unfold reversed. cbv zeta. cbn [f_at f_shape].
  destruct a as [| [| [| a]]]; [| | | lia]; split; intros [i [j [k [I [J [K E]]]]]].
  - exists (dim (f_shape f) 0 - 1 - i)%nat, j, k. repeat split; try lia. exact E.
  - exists (dim (f_shape f) 0 - 1 - i)%nat, j, k. repeat split; try lia. replace (dim (f_shape f) 0 - 1 - (dim (f_shape f) 0 - 1 - i))%nat with i by lia. exact E.
  - exists i, (dim (f_shape f) 1 - 1 - j)%nat, k. repeat split; try lia. exact E.
  - exists i, (dim (f_shape f) 1 - 1 - j)%nat, k. repeat split; try lia. replace (dim (f_shape f) 1 - 1 - (dim (f_shape f) 1 - 1 - j))%nat with j by lia. exact E.
  - exists i, j, (dim (f_shape f) 2 - 1 - k)%nat. repeat split; try lia. exact E.
  - exists i, j, (dim (f_shape f) 2 - 1 - k)%nat. repeat split; try lia. replace (dim (f_shape f) 2 - 1 - (dim (f_shape f) 2 - 1 - k))%nat with k by lia. exact E.
Qed.
Lemma reversed_sight a f y x i : (a < 3)%nat -> sight (reversed a f) a y x i = sight f a y x (dim (f_shape f) a - 1 - i)%nat.
Proof. intro A. destruct a as [| [| [| a]]]; [reflexivity | reflexivity | reflexivity | lia]. Qed.
Lemma existsb_set {A} (p : A -> bool) l l' : (forall x, In x l <-> In x l') -> existsb p l = existsb p l'.
Proof.
  intro H. destruct (existsb p l) eqn:E, (existsb p l') eqn:E'; try reflexivity; exfalso.
  - apply existsb_exists in E. destruct E as [x [X P]]. assert (existsb p l' = true); [| congruence]. apply existsb_exists. exists x. split; [now apply H | assumption].
  - apply existsb_exists in E'. destruct E' as [x [X P]]. assert (existsb p l = true); [| congruence]. apply existsb_exists. exists x. split; [now apply H | assumption].
Qed.
Theorem reversal U vel dens a vt pix vd idx cw v0 v1 mc hdu cube axis : (a < 3)%nat -> f_shape dens = f_shape vel -> (2 <= dim (f_shape vel) a)%nat ->
  make_ppv U vel dens (Z.of_nat a) vt pix vd idx cw v0 v1 mc None hdu = Ok (cube, axis) ->
  exists cube', make_ppv U (reversed a vel) (reversed a dens) (Z.of_nat a) vt pix vd idx cw v0 v1 mc None hdu = Ok (cube', axis) /\
  forall y x j, on_image vel a y x -> (j < length axis)%nat -> voxel cube' j y x = voxel cube j y x.
Proof.
  intros A S N H. destruct (make_ppv_value U vel dens a vt pix vd idx cw v0 v1 mc hdu A S N cube axis H) as [P [edges [unit [E [X [B [_ [_ V]]]]]]]].
  assert (E' : chosen_edges U (reversed a vel) a vt vd idx cw v0 v1 mc = Ok (edges, unit)).
  { rewrite <- E. unfold chosen_edges. rewrite reversed_shape. rewrite (min_list_set (values (reversed a vel)) (values vel)), (max_list_set (values (reversed a vel)) (values vel)) by (intro; now apply reversed_values). reflexivity. }
  assert (P' : existsb (fun d => Rltb d 0) (values (reversed a dens)) = false).
  { rewrite (existsb_set _ _ (values dens)); [assumption |]. intro. now apply reversed_values. }
  destruct (make_ppv_total U (reversed a vel) (reversed a dens) a vt pix vd idx cw v0 v1 mc hdu A S N edges unit P' E') as [cube' H'].
  { intro T. specialize (B T). rewrite X, mids_length in B. lia. }
  exists cube'. rewrite X in *. split; [exact H' |]. intros y x j O J.
  destruct (make_ppv_value U (reversed a vel) (reversed a dens) a vt pix vd idx cw v0 v1 mc hdu A S N cube' (mids edges) H') as [_ [edges' [unit' [E'' [_ [_ [_ [_ V']]]]]]]].
  rewrite E' in E''. apply (f_equal (fun r => match r with Ok p => p | Err _ => (edges, unit) end)) in E''. pose proof (f_equal fst E'') as F1. pose proof (f_equal snd E'') as F2. cbn [fst snd] in F1, F2. subst edges' unit'.
  rewrite (V' y x j O J), (V y x j O J). unfold los_sum. rewrite reversed_shape. set (n := dim (f_shape vel) a) in *.
  rewrite <- (rsum_rev n (fun i => sight dens a y x i * weight U vt pix (map (fun e => e * unit) edges) (sight vel a y x) n i (nth j (mids (map (fun e => e * unit) edges)) 0))).
  apply rsum_ext. intros i I. rewrite !reversed_sight by assumption. rewrite S. fold n. apply (f_equal2 Rmult); [reflexivity |].
  unfold weight. rewrite reversed_sight by assumption. fold n. unfold Rdiv at 1. unfold Rdiv at 2. apply (f_equal2 Rmult); [| reflexivity]. apply (f_equal2 Rmult); [reflexivity |].
  assert (G : grad (sight (reversed a vel) a y x) n i = - grad (sight vel a y x) n (n - 1 - i)).
  { rewrite <- (grad_rev (sight vel a y x) n i N I). unfold grad. rewrite !reversed_sight by assumption. reflexivity. }
  rewrite G. replace (- grad (sight vel a y x) n (n - 1 - i) / pix * U) with (- (grad (sight vel a y x) n (n - 1 - i) / pix * U)) by (unfold Rdiv; ring). apply line_neg_gradient.
Qed.
