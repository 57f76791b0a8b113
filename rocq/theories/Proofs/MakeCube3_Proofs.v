From Coq Require Import Reals List ZArith Bool Arith Lia Lra Permutation.
From Verif Require Import Lib.PyBase Lib.RSum Lib.Fl Lib.Arr Model.Scf Model.StatsUtils Model.MakeCube Spec.Ppv
  Proofs.Scf_Proofs Proofs.StatsUtils2_Proofs Proofs.MakeCube_Proofs Proofs.MakeCube2_Proofs.
Import ListNotations.
Local Open Scope R_scope.

Lemma ok_pair {A B} (a a' : A) (b b' : B) : Ok (a, b) = Ok (a', b') -> a = a' /\ b = b'.
Proof. intro E. apply (f_equal (fun r => match r with Ok p => p | Err _ => (a, b) end)) in E. split; [exact (f_equal fst E) | exact (f_equal snd E)]. Qed.

(** ** A moving observer *)
Lemma Rltb_shift a b d : Rltb (a + d) (b + d) = Rltb a b.
Proof. destruct (Rltb_spec (a + d) (b + d)), (Rltb_spec a b); try reflexivity; lra. Qed.
Lemma hits_shift e v d : hits (map (fun x => x + d) e) (v + d) = hits e v.
Proof.
  induction e as [| a [| b t] IH]; try reflexivity. change (map (fun x => x + d) (a :: b :: t)) with (a + d :: b + d :: map (fun x => x + d) t).
  rewrite !hits_cons, !Rltb_shift. apply f_equal. exact IH.
Qed.
Lemma mids_shift e d j : (j < length e - 1)%nat -> nth j (mids (map (fun x => x + d) e)) 0 = nth j (mids e) 0 + d.
Proof.
  intro J. rewrite !mids_nth by (rewrite ?map_length; lia).
  assert (N : forall k, (k < length e)%nat -> nth k (map (fun x => x + d) e) 0 = nth k e 0 + d).
  { intros k K. rewrite (nth_indep _ 0 (0 + d)) by (rewrite map_length; lia). now rewrite (map_nth (fun x => x + d)). }
  rewrite !N by lia. lra.
Qed.
Lemma line_shift vt pix v g x d : line vt pix (v + d) g (x + d) = line vt pix v g x.
Proof. unfold line. replace (x + d - (v + d)) with (x - v) by lra. reflexivity. Qed.
Lemma grad_shift v n i d : grad (fun k => v k + d) n i = grad v n i.
Proof. unfold grad. destruct (Nat.eqb i 0); [lra |]. destruct (Nat.eqb i (n - 1)); lra. Qed.
Lemma linspace_shift lo hi n d : linspace (lo + d) (hi + d) n = map (fun x => x + d) (linspace lo hi n).
Proof.
  destruct n as [| [| n]]; try reflexivity. apply (nth_ext _ _ 0 (0 + d)); [now rewrite map_length, !linspace_length |]. rewrite linspace_length. intros k K.
  rewrite (map_nth (fun x => x + d)), !linspace_nth by lia. replace (hi + d - (lo + d)) with (hi - lo) by lra. lra.
Qed.
Lemma shift_values f c : values (f_map (fun v => v + c) f) = map (fun v => v + c) (values f).
Proof. unfold values. rewrite map_map. reflexivity. Qed.
Lemma min_list_shift l c : l <> [] -> min_list (map (fun v => v + c) l) = min_list l + c.
Proof.
  intro H. destruct (min_list_spec l H) as [A B]. destruct (min_list_spec (map (fun v => v + c) l)) as [A' B']; [destruct l; easy |].
  apply Rle_antisym; [apply B'; apply in_map_iff; now exists (min_list l) |]. apply in_map_iff in A'. destruct A' as [x [<- X]]. specialize (B x X). lra.
Qed.
Lemma max_list_shift l c : l <> [] -> max_list (map (fun v => v + c) l) = max_list l + c.
Proof.
  intro H. destruct (max_list_spec l H) as [A B]. destruct (max_list_spec (map (fun v => v + c) l)) as [A' B']; [destruct l; easy |].
  apply Rle_antisym; [| apply B'; apply in_map_iff; now exists (max_list l)]. apply in_map_iff in A'. destruct A' as [x [<- X]]. specialize (B x X). lra.
Qed.
Lemma values_nonempty f : (forall a, (a < 3)%nat -> (1 <= dim (f_shape f) a)%nat) -> values f <> [].
Proof.
  intros H E. assert (I : In (f_at f 0 0 0) (values f)); [| rewrite E in I; destruct I]. apply in_values. exists 0%nat, 0%nat, 0%nat.
  pose proof (H 0%nat ltac:(lia)). pose proof (H 1%nat ltac:(lia)). pose proof (H 2%nat ltac:(lia)). repeat split; lia.
Qed.
Lemma limits_in U vel v_lim l0 l1 : exists lo hi, limits U (min_list (values vel)) (max_list (values vel)) v_lim (lim U l0) (lim U l1) = (mk_vel lo U, mk_vel hi U) /\
  lo = match l0 with Some v => v | None => min_list (values vel) - 4 * v_lim end /\ hi = match l1 with Some v => v | None => max_list (values vel) + 4 * v_lim end.
Proof. destruct l0, l1; eexists _, _; (split; [reflexivity | split; reflexivity]). Qed.
Lemma edges_shift U vel a vt vd idx cw l0 l1 mc c edges unit : 0 < U -> values vel <> [] ->
  chosen_edges U vel a vt vd idx cw (lim U l0) (lim U l1) mc = Ok (edges, unit) -> unit = U /\
  chosen_edges U (f_map (fun v => v + c) vel) a vt vd idx cw (lim U (option_map (fun v => v + c) l0)) (lim U (option_map (fun v => v + c) l1)) mc = Ok (map (fun e => e + c) edges, U).
Proof.
  intros PU NE. unfold chosen_edges, vel_edges. rewrite shift_values.
  set (v_lim := sqrt (vd ^ 2 + vt)). destruct (limits_in U vel v_lim l0 l1) as [lo [hi [E1 [LO HI]]]]. rewrite E1.
  destruct (limits_in U (f_map (fun v => v + c) vel) v_lim (option_map (fun v => v + c) l0) (option_map (fun v => v + c) l1)) as [lo' [hi' [E2 [LO' HI']]]].
  rewrite shift_values in E2, LO', HI'. rewrite E2.
  assert (Q0 : lo' = lo + c) by (subst; destruct l0; cbn; [reflexivity | rewrite min_list_shift by assumption; lra]).
  assert (Q1 : hi' = hi + c) by (subst; destruct l1; cbn; [reflexivity | rewrite max_list_shift by assumption; lra]).
  rewrite Q0, Q1. clear - PU. cbn [v_num v_unit]. unfold cgs. cbn [v_num v_unit].
  replace ((hi + c) * U) with (hi * U + c * U) by ring. replace ((lo + c) * U) with (lo * U + c * U) by ring. rewrite Rltb_shift.
  destruct (Rltb (hi * U) (lo * U)); [discriminate |].
  match goal with |- context [n_channels U ?ve (mk_vel lo U) (mk_vel hi U) cw] =>
    assert (NC : forall ve', n_channels U ve' (mk_vel (lo + c) U) (mk_vel (hi + c) U) cw = n_channels U ve' (mk_vel lo U) (mk_vel hi U) cw) end.
  { intro ve'. unfold n_channels, v_sub, v_to, cgs. cbn [v_num v_unit]. replace (hi + c - (lo + c) * U / U) with (hi - lo * U / U) by (field; lra). reflexivity. }
  rewrite NC. change (f_shape (f_map (fun v => v + c) vel)) with (f_shape vel).
  match goal with |- context [n_channels U ?ve (mk_vel lo U) (mk_vel hi U) cw] => set (k := n_channels U ve (mk_vel lo U) (mk_vel hi U) cw) end.
  destruct (mc <? k)%Z; [discriminate |]. destruct (k + 1 <? 0)%Z; [discriminate |]. intro H. apply ok_pair in H. destruct H as [<- <-]. split; [reflexivity |].
  now rewrite linspace_shift.
Qed.
Theorem galilean U vel dens a vt pix vd idx cw l0 l1 mc hdu c cube axis : 0 < U -> (a < 3)%nat -> f_shape dens = f_shape vel -> (2 <= dim (f_shape vel) a)%nat ->
  (forall b, (b < 3)%nat -> (1 <= dim (f_shape vel) b)%nat) ->
  make_ppv U vel dens (Z.of_nat a) vt pix vd idx cw (lim U l0) (lim U l1) mc None hdu = Ok (cube, axis) ->
  exists cube', make_ppv U (f_map (fun v => v + c) vel) dens (Z.of_nat a) vt pix vd idx cw (lim U (option_map (fun v => v + c) l0)) (lim U (option_map (fun v => v + c) l1)) mc None hdu
     = Ok (cube', map (fun v => v + c) axis) /\
  forall y x j, on_image vel a y x -> (j < length axis)%nat -> voxel cube' j y x = voxel cube j y x.
Proof.
  intros PU A S N NE H. destruct (make_ppv_value U vel dens a vt pix vd idx cw (lim U l0) (lim U l1) mc hdu A S N cube axis H) as [P [edges [unit [E [X [B [_ [_ V]]]]]]]].
  destruct (edges_shift U vel a vt vd idx cw l0 l1 mc c edges unit PU (values_nonempty vel NE) E) as [-> E'].
  destruct (make_ppv_total U (f_map (fun v => v + c) vel) dens a vt pix vd idx cw _ _ mc hdu A S N (map (fun e => e + c) edges) U P E') as [cube' H'].
  { intro T. specialize (B T). rewrite X, mids_length in B. rewrite map_length. lia. }
  assert (MX : mids (map (fun e => e + c) edges) = map (fun v => v + c) axis).
  { subst axis. apply (nth_ext _ _ 0 (0 + c)); [rewrite map_length, !mids_length, map_length; reflexivity |]. rewrite mids_length, map_length. intros k K. rewrite (map_nth (fun v => v + c)). now apply mids_shift. }
  rewrite MX in H'. exists cube'. split; [exact H' |]. intros y x j O J.
  destruct (make_ppv_value U (f_map (fun v => v + c) vel) dens a vt pix vd idx cw _ _ mc hdu A S N cube' _ H') as [_ [edges' [unit' [E'' [_ [_ [_ [_ V']]]]]]]].
  rewrite E' in E''. apply ok_pair in E''. destruct E'' as [<- <-].
  rewrite (V' y x j O) by (rewrite map_length; exact J). rewrite (V y x j O J). unfold los_sum. change (f_shape (f_map (fun v => v + c) vel)) with (f_shape vel). cbv zeta.
  apply rsum_ext. intros i I. apply (f_equal2 Rmult); [reflexivity |]. unfold weight. rewrite sight_map.
  assert (ME : map (fun e => e * U) (map (fun e => e + c) edges) = map (fun e => e + c * U) (map (fun e => e * U) edges)).
  { rewrite !map_map. apply map_ext. intro. ring. }
  rewrite ME. rewrite mids_shift by (rewrite map_length; subst axis; rewrite mids_length in J; exact J).
  replace ((sight vel a y x i + c) * U) with (sight vel a y x i * U + c * U) by ring. rewrite hits_shift, line_shift.
  assert (G : grad (sight (f_map (fun v => v + c) vel) a y x) (dim (f_shape vel) a) i = grad (sight vel a y x) (dim (f_shape vel) a) i).
  { rewrite <- (grad_shift (sight vel a y x) _ i c). unfold grad. rewrite !sight_map. reflexivity. }
  rewrite G. reflexivity.
Qed.

(** ** Cells on a channel edge *)
Definition inside (e : list R) (v : R) : bool := Nat.eqb (hits e v) 1.
Lemma inside_spec e v : climbing e -> inside e v = true <-> exists k, in_channel e k v.
Proof.
  intro C. unfold inside. rewrite Nat.eqb_eq. pose proof (hits_le1 e v C). rewrite <- hits_inside. lia.
Qed.
Lemma linspace_edge lo hi n k : (1 <= n)%nat -> (k <= n)%nat -> nth k (linspace lo hi (S n)) 0 = edge lo hi n k.
Proof. intros N K. rewrite linspace_nth by lia. unfold edge. now replace (S n - 1)%nat with n by lia. Qed.
Lemma in_channel_scale u lo hi n k v : 0 < u -> (1 <= n)%nat -> in_channel (map (fun e => e * u) (linspace lo hi (S n))) k (v * u) <-> (k < n)%nat /\ edge lo hi n k < v < edge lo hi n (S k).
Proof.
  intros U N. unfold in_channel. rewrite map_length, linspace_length.
  assert (M : forall i, (i <= n)%nat -> nth i (map (fun e => e * u) (linspace lo hi (S n))) 0 = edge lo hi n i * u).
  { intros i I. rewrite (nth_indep _ 0 (0 * u)) by (rewrite map_length, linspace_length; lia). now rewrite (map_nth (fun e => e * u)), linspace_edge. }
  split.
  - intros [K [A B]]. split; [lia |]. rewrite M in A, B by lia. split; [apply (Rmult_lt_reg_r u); assumption | apply (Rmult_lt_reg_r u); assumption].
  - intros [K [A B]]. split; [lia |]. rewrite !M by lia. split; now apply Rmult_lt_compat_r.
Qed.
Section Counted.
Variables (U : R) (vel dens : field) (a : nat) (vt pix vd idx : R) (cw v0 v1 : option velocity) (mc : Z) (hdu : bool).
Hypothesis PU : 0 < U.
Hypothesis A3 : (a < 3)%nat.
Hypothesis SH : f_shape dens = f_shape vel.
Hypothesis N2 : (2 <= dim (f_shape vel) a)%nat.
Theorem counted lo hi n keep y x j cube axis : lo < hi -> (1 <= n)%nat ->
  chosen_edges U vel a vt vd idx cw v0 v1 mc = Ok (linspace lo hi (S n), U) ->
  make_ppv U vel dens (Z.of_nat a) vt pix vd idx cw v0 v1 mc None hdu = Ok (cube, axis) ->
  on_image vel a y x -> (j < n)%nat ->
  (forall i, keep i = true <-> exists k, (k < n)%nat /\ edge lo hi n k < sight vel a y x i < edge lo hi n (S k)) ->
  voxel cube j y x = rsum (dim (f_shape vel) a) (fun i => if keep i : bool then
     sight dens a y x i * line (vt * U ^ 2) pix (sight vel a y x i * U) (grad (sight vel a y x) (dim (f_shape vel) a) i / pix * U) ((lo + (INR j + 1 / 2) * ((hi - lo) / INR n)) * U) / conv_to_K else 0).
Proof.
  intros L N E H O J K. destruct (make_ppv_value U vel dens a vt pix vd idx cw v0 v1 mc hdu A3 SH N2 cube axis H) as [_ [edges [unit [E' [X [_ [_ [_ V]]]]]]]].
  rewrite E in E'. apply ok_pair in E'. destruct E' as [<- <-]. rewrite (V y x j O) by (subst axis; rewrite mids_length, linspace_length; lia).
  unfold los_sum. cbv zeta. apply rsum_ext. intros i I. unfold weight.
  assert (C : climbing (map (fun e => e * U) (linspace lo hi (S n)))) by (apply climbing_scale; [assumption | now apply linspace_climbing]).
  assert (MJ : nth j (mids (map (fun e => e * U) (linspace lo hi (S n)))) 0 = (lo + (INR j + 1 / 2) * ((hi - lo) / INR n)) * U).
  { rewrite mids_nth by (rewrite map_length, linspace_length; lia).
    assert (M : forall i, (i <= n)%nat -> nth i (map (fun e => e * U) (linspace lo hi (S n))) 0 = edge lo hi n i * U).
    { intros q Q. rewrite (nth_indep _ 0 (0 * U)) by (rewrite map_length, linspace_length; lia). now rewrite (map_nth (fun e => e * U)), linspace_edge. }
    rewrite !M by lia. unfold edge. rewrite S_INR. field. apply not_0_INR. lia. }
  rewrite MJ. pose proof (hits_le1 _ (sight vel a y x i * U) C) as L1. pose proof (hits_inside (map (fun e => e * U) (linspace lo hi (S n))) (sight vel a y x i * U)) as HI.
  destruct (keep i) eqn:KI.
  - destruct (proj1 (K i) KI) as [k KK]. set (h := hits (map (fun e => e * U) (linspace lo hi (S n))) (sight vel a y x i * U)) in *. assert (1 <= h)%nat.
    { apply HI. exists k. now apply in_channel_scale. }
    replace h with 1%nat by lia. cbn [INR]. unfold Rdiv. ring.
  - assert (Z : hits (map (fun e => e * U) (linspace lo hi (S n))) (sight vel a y x i * U) = 0%nat).
    { destruct (hits _ _) as [| m] eqn:Q; [reflexivity |]. exfalso. destruct (proj1 HI) as [k KK]; [lia |]. apply in_channel_scale in KK; [| assumption | assumption].
      assert (keep i = true) by (apply K; now exists k). congruence. }
    rewrite Z. cbn [INR]. unfold Rdiv. ring.
Qed.
End Counted.

Lemma uniform_sight s v a y x i : sight (uniform s v) a y x i = v.
Proof. destruct a as [| [| a]]; reflexivity. Qed.
Lemma uniform_values s v : (forall b, (b < 3)%nat -> (1 <= dim s b)%nat) -> min_list (values (uniform s v)) = v /\ max_list (values (uniform s v)) = v.
Proof.
  intro H. assert (NE : values (uniform s v) <> []) by now apply values_nonempty.
  destruct (min_list_spec _ NE) as [A _]. destruct (max_list_spec _ NE) as [B _]. apply in_values in A, B.
  destruct A as [? [? [? [_ [_ [_ A]]]]]], B as [? [? [? [_ [_ [_ B]]]]]]. now split.
Qed.
Lemma sqrt2_between : 16 / 12 <= sqrt 2 < 16 / 11.
Proof.
  split.
  - apply Rsqr_incr_0_var; [| apply sqrt_pos]. rewrite Rsqr_sqrt by lra. unfold Rsqr. lra.
  - apply Rsqr_incrst_0; [| apply sqrt_pos | lra]. rewrite Rsqr_sqrt by lra. unfold Rsqr. lra.
Qed.
Lemma uniform_edges U s v a vt idx mc : 0 < U -> 0 < vt -> (12 <= mc)%Z -> (forall b, (b < 3)%nat -> (1 <= dim s b)%nat) ->
  chosen_edges U (uniform s v) a vt 0 idx None None None mc = Ok (linspace (v - 4 * sqrt vt) (v + 4 * sqrt vt) 13, U).
Proof.
  intros PU PV M NE. unfold chosen_edges, vel_edges, limits. destruct (uniform_values s v NE) as [-> ->]. cbn [v_num v_unit]. unfold cgs. cbn [v_num v_unit].
  replace (0 ^ 2 + vt) with vt by ring. assert (SP : 0 < sqrt vt) by now apply sqrt_lt_R0.
  destruct (Rltb_spec ((v + 4 * sqrt vt) * U) ((v - 4 * sqrt vt) * U)) as [B | _]; [exfalso; nra |].
  unfold n_channels, v_sub, v_to, cgs. cbn [v_num v_unit].
  assert (EQ : (v + 4 * sqrt vt - (v - 4 * sqrt vt) * U / U) / (sqrt (0 ^ 2 * Rpower (2 / INR (dim (f_shape (uniform s v)) a)) idx + 2 * vt) / 2) = 16 / sqrt 2).
  { replace (0 ^ 2 * Rpower (2 / INR (dim (f_shape (uniform s v)) a)) idx + 2 * vt) with (2 * vt) by ring. rewrite sqrt_mult by lra.
    assert (0 < sqrt 2) by (apply sqrt_lt_R0; lra). field. repeat split; lra. }
  rewrite EQ. rewrite (ceil_unique (16 / sqrt 2) 12).
  - destruct (Z.ltb_spec mc 12); [lia |]. reflexivity.
  - destruct sqrt2_between as [A B]. assert (SQ : 0 < sqrt 2) by lra. split.
    + apply (Rmult_le_reg_r (sqrt 2)); [assumption |]. unfold Rdiv. rewrite Rmult_assoc, Rinv_l by lra. lra.
    + assert (11 < 16 / sqrt 2); [| lra]. apply (Rmult_lt_reg_r (sqrt 2)); [assumption |]. unfold Rdiv. rewrite Rmult_assoc, Rinv_l by lra. lra.
Qed.
Theorem uniform_is_black U s v dens a vt pix idx mc hdu : 0 < U -> 0 < vt -> (12 <= mc)%Z -> (a < 3)%nat -> f_shape dens = s -> nonneg_field dens ->
  (2 <= dim s a)%nat -> (forall b, (b < 3)%nat -> (1 <= dim s b)%nat) ->
  exists cube axis, make_ppv U (uniform s v) dens (Z.of_nat a) vt pix 0 idx None None None mc None hdu = Ok (cube, axis) /\ length axis = 12%nat /\
  forall y x j, on_image (uniform s v) a y x -> (j < 12)%nat -> voxel cube j y x = 0.
Proof.
  intros PU PV M A S NN N2 NE. pose proof (uniform_edges U s v a vt idx mc PU PV M NE) as E.
  destruct (make_ppv_total U (uniform s v) dens a vt pix 0 idx None None None mc hdu A S N2 _ U (nonneg_values dens NN) E) as [cube H]; [rewrite linspace_length; lia |].
  exists cube, (mids (linspace (v - 4 * sqrt vt) (v + 4 * sqrt vt) 13)). split; [exact H |]. split; [now rewrite mids_length, linspace_length |].
  intros y x j O J. assert (SP : 0 < sqrt vt) by now apply sqrt_lt_R0.
  rewrite (counted U (uniform s v) dens a vt pix 0 idx None None None mc hdu PU A S N2 (v - 4 * sqrt vt) (v + 4 * sqrt vt) 12 (fun _ => false) y x j cube _ ltac:(lra) ltac:(lia) E H O J).
  - apply rsum_0.
  - intro i. split; [discriminate |]. intros [k [K [L R]]]. exfalso. rewrite uniform_sight in L, R. unfold edge in L, R. rewrite S_INR in R. cbn [INR] in L, R.
    assert (L' : (INR k - 6) * sqrt vt < 0) by lra. assert (R' : 0 < (INR k + 1 - 6) * sqrt vt) by lra.
    assert (INR k < 6) by (apply (Rmult_lt_reg_r (sqrt vt)); lra). assert (5 < INR k) by (apply (Rmult_lt_reg_r (sqrt vt)); lra).
    assert (k < 6)%nat by (apply INR_lt; cbn; lra). assert (5 < k)%nat by (apply INR_lt; cbn; lra). lia.
Qed.
