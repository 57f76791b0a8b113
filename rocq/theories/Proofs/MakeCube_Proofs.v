From Coq Require Import Reals List ZArith Bool Arith Lia Lra Permutation.
From Verif Require Import Lib.PyBase Lib.RSum Lib.Fl Lib.Arr Model.Scf Model.StatsUtils Model.MakeCube Spec.Ppv Proofs.Scf_Proofs.
Import ListNotations.
Local Open Scope R_scope.

(** ** The spectrum as a sum over cells *)
Section Spectrum.
Variables (vt pix : R) (cents : list R).
Let add (spec : list R) (c : cell) := map2 Rplus spec (map (contribution vt pix c) cents).
Lemma add_length spec c : length spec = length cents -> length (add spec c) = length cents.
Proof. intro H. unfold add. rewrite map2_length, map_length. lia. Qed.
Lemma inner cs : forall spec, length spec = length cents -> length (fold_left add cs spec) = length cents /\
  forall j, (j < length cents)%nat -> nth j (fold_left add cs spec) 0 = nth j spec 0 + lsum (map (fun c => contribution vt pix c (nth j cents 0)) cs).
Proof.
  induction cs as [| c cs IH]; intros spec H; cbn [fold_left map]; [split; [assumption |]; intros j _; cbn; lra |].
  destruct (IH (add spec c) (add_length spec c H)) as [L V]. split; [exact L |]. intros j J. rewrite (V j J), lsum_cons.
  unfold add. rewrite (map2_nth _ _ _ j 0 0 0) by (rewrite ?map_length; lia).
  rewrite (nth_indep (map (contribution vt pix c) cents) 0 (contribution vt pix c 0)) by (rewrite map_length; lia).
  rewrite (map_nth (contribution vt pix c) cents 0 j). lra.
Qed.
Lemma outer (cells : list cell) pairs : forall spec, length spec = length cents ->
  let run := fold_left (fun spectrum lh =>
      let contribs := filter (fun c => Rltb (fst lh) (cell_vel c) && Rltb (cell_vel c) (snd lh)) cells in
      fold_left add contribs spectrum) pairs spec in
  length run = length cents /\ forall j, (j < length cents)%nat -> nth j run 0
    = nth j spec 0 + lsum (map (fun lh => lsum (map (fun c => contribution vt pix c (nth j cents 0)) (filter (fun c => Rltb (fst lh) (cell_vel c) && Rltb (cell_vel c) (snd lh)) cells))) pairs).
Proof.
  induction pairs as [| p pairs IH]; intros spec H; cbn [fold_left map]; cbv zeta; [split; [assumption |]; intros j _; cbn; lra |].
  destruct (inner (filter (fun c => Rltb (fst p) (cell_vel c) && Rltb (cell_vel c) (snd p)) cells) spec H) as [L V].
  destruct (IH _ L) as [L' V']. cbv zeta in L', V'. split; [exact L' |]. intros j J. rewrite (V' j J), (V j J), lsum_cons. lra.
Qed.
End Spectrum.

Lemma lsum_filter_sum {A B} (f : A -> R) (p : B -> A -> bool) (l : list A) (ps : list B) :
  lsum (map (fun b => lsum (map f (filter (p b) l))) ps) = lsum (map (fun a => INR (length (filter (fun b => p b a) ps)) * f a) l).
Proof.
  induction ps as [| b ps IH]; cbn [map].
  - rewrite <- (lsum_map_scal 0 f l) || idtac. transitivity (lsum (map (fun _ : A => 0) l)); [now rewrite lsum_map_const, Rmult_0_r || (induction l; cbn; [reflexivity | rewrite lsum_cons; lra]) |].
    apply lsum_map_ext. intros x _. cbn. lra.
  - rewrite lsum_cons, IH. clear IH. induction l as [| a l IHl]; [cbn; lra |]. cbn [filter map]. rewrite lsum_cons.
    destruct (p b a); cbn [map filter length]; rewrite ?lsum_cons, ?S_INR; cbn [filter map] in *; lra.
Qed.
Lemma gs_closed cells edges cents vt pix : length cents = (length edges - 1)%nat ->
  length (generate_spectrum cells edges cents vt pix) = length cents /\
  forall j, (j < length cents)%nat -> nth j (generate_spectrum cells edges cents vt pix) 0
    = lsum (map (fun c => INR (hits edges (cell_vel c)) * contribution vt pix c (nth j cents 0)) cells).
Proof.
  intro H. unfold generate_spectrum.
  assert (L : length (removelast edges) = length cents) by (rewrite removelast_firstn_len, firstn_length; lia).
  destruct (outer vt pix cents cells (combine (removelast edges) (tl edges)) (map (fun _ => 0) (removelast edges))) as [A B]; [now rewrite map_length |].
  cbv zeta in A, B. split; [exact A |]. intros j J. rewrite (B j J).
  replace (nth j (map (fun _ : R => 0) (removelast edges)) 0) with 0 by (clear; generalize (removelast edges); intro l; revert j; induction l; intros [| j]; cbn; auto).
  rewrite Rplus_0_l. apply (lsum_filter_sum (fun c => contribution vt pix c (nth j cents 0)) (fun lh c => Rltb (fst lh) (cell_vel c) && Rltb (cell_vel c) (snd lh)) cells).
Qed.
Lemma contribution_line vt pix v d g x : contribution vt pix (v, d, g) x = d * line vt pix v g x.
Proof. unfold contribution, line. unfold Rdiv. ring. Qed.
Lemma line_pos vt pix v g x : 0 < vt -> 0 < pix -> 0 < line vt pix v g x.
Proof.
  intros V P. unfold line. cbv zeta. apply Rmult_lt_0_compat; [| apply exp_pos]. apply Rdiv_lt_0_compat; [assumption |]. pose proof PI_RGT_0.
  apply Rmult_lt_0_compat; apply sqrt_lt_R0; [lra |]. pose proof (pow2_ge_0 (g * pix)). lra.
Qed.

Lemma nth_firstn_lt {A} (l : list A) n j d : (j < n)%nat -> nth j (firstn n l) d = nth j l d.
Proof. revert n j. induction l as [| a l IH]; intros [| n] [| j] H; cbn; try lia; try reflexivity. apply IH. lia. Qed.
Lemma mids_length e : length (mids e) = (length e - 1)%nat.
Proof. unfold mids. rewrite map2_length, removelast_firstn_len, firstn_length. destruct e; cbn; lia. Qed.
Lemma mids_nth e j : (j < length e - 1)%nat -> nth j (mids e) 0 = 1 / 2 * (nth (S j) e 0 + nth j e 0).
Proof.
  intro H. unfold mids. rewrite (map2_nth _ _ _ j 0 0 0); [| destruct e; cbn in *; lia | rewrite removelast_firstn_len, firstn_length; lia].
  rewrite removelast_firstn_len. rewrite nth_firstn_lt by lia. destruct e; [cbn in H; lia |]. reflexivity.
Qed.

(** ** Process pools *)
Lemma store_length {A} i (v : A) l : length (store i v l) = length l.
Proof. revert i. induction l as [| a l IH]; intros [| i]; cbn; auto. Qed.
Lemma store_nth {A} i (v : A) l k d : (k < length l)%nat -> nth k (store i v l) d = if Nat.eqb k i then v else nth k l d.
Proof. revert i k. induction l as [| a l IH]; intros [| i] [| k] H; cbn in *; try lia; try reflexivity. apply IH. lia. Qed.
Lemma pool_map_any {A B} (f : A -> B) d tasks sched :
  (forall i, (i < length tasks)%nat -> In i sched) ->
  pool_map f d tasks sched = map (fun t => Some (f t)) tasks.
Proof.
  intro H. unfold pool_map.
  assert (G : forall s res, length res = length tasks ->
     let run := fold_left (fun res i => store i (Some (f (nth i tasks d))) res) s res in
     length run = length tasks /\ forall k, (k < length tasks)%nat -> (In k s \/ nth k res None = Some (f (nth k tasks d))) -> nth k run None = Some (f (nth k tasks d))).
  { induction s as [| i s IH]; intros res L; cbn [fold_left].
    - split; [exact L |]. intros k _ [[] | E]; exact E.
    - destruct (IH (store i (Some (f (nth i tasks d))) res)) as [P Q]; [now rewrite store_length |]. split; [exact P |].
      intros k K [[-> | I] | E]; apply Q; try assumption.
      + right. rewrite store_nth by lia. now rewrite Nat.eqb_refl.
      + now left.
      + right. rewrite store_nth by lia. destruct (Nat.eqb_spec k i); [now subst | assumption]. }
  destruct (G sched (map (fun _ => None) tasks)) as [P Q]; [now rewrite map_length |]. cbv zeta in P, Q.
  apply (nth_ext _ _ None None); [rewrite P; now rewrite map_length |]. intros k K. rewrite P in K. rewrite (Q k K) by (left; now apply H).
  rewrite (nth_indep _ None (Some (f d))) by (rewrite map_length; lia). now rewrite (map_nth (fun t => Some (f t))).
Qed.
Theorem make_ppv_schedule vel_unit vel dens los vt pix vd idx cw v0 v1 mc order hdu :
  (forall axis, real_axis los = Some axis ->
     Permutation order (seq 0 (fst (image_dims (f_shape vel) axis) * snd (image_dims (f_shape vel) axis)))) ->
  make_ppv vel_unit vel dens los vt pix vd idx cw v0 v1 mc (Some order) hdu = make_ppv vel_unit vel dens los vt pix vd idx cw v0 v1 mc None hdu.
Proof.
  intro H. unfold make_ppv. destruct (existsb _ _); [reflexivity |]. destruct (real_axis los) as [axis |]; [| reflexivity]. specialize (H axis eq_refl).
  cbv zeta. destruct (vel_edges _ _ _ _ _ _ _ _ _) as [[edges unit] | e]; [| reflexivity]. cbn [bind].
  rewrite (pool_map_any _ (0, 0)%nat).
  - rewrite map_map. reflexivity.
  - intros i I. apply (Permutation_in i (Permutation_sym H)). apply in_seq. unfold pixels in I. rewrite prod_length, !seq_length in I. lia.
Qed.

(** ** Putting the spectra in place *)
Lemma all_ok_map {A B} (f : A -> result B) l outs : all_ok (map f l) = Ok outs -> Forall2 (fun a b => f a = Ok b) l outs.
Proof.
  revert outs. induction l as [| a l IH]; intros outs; cbn [map all_ok]; [intro E; inversion E; constructor |].
  destruct (f a) as [b | e] eqn:F; [| discriminate]. cbn [bind]. destruct (all_ok (map f l)) as [bs | e]; [| discriminate]. cbn [bind]. intro E. inversion E; subst. constructor; [assumption | now apply IH].
Qed.
Lemma all_ok_total {A B} (f : A -> result B) (g : A -> B) l : (forall a, In a l -> f a = Ok (g a)) -> all_ok (map f l) = Ok (map g l).
Proof.
  induction l as [| a l IH]; intro H; cbn [map all_ok]; [reflexivity |]. rewrite (H a (or_introl eq_refl)). cbn [bind]. rewrite IH by (intros; apply H; now right). reflexivity.
Qed.
Lemma fold_put (g : nat * nat -> list R) tasks : forall c y x,
  fold_left put (map (fun yx => (g yx, yx)) tasks) c y x
  = if existsb (fun t => Nat.eqb y (fst t) && Nat.eqb x (snd t)) tasks then Some (g (y, x)) else c y x.
Proof.
  induction tasks as [| t tasks IH]; intros c y x; cbn [map fold_left existsb]; [reflexivity |]. rewrite IH. unfold put at 1. cbn [fst snd].
  destruct (existsb _ tasks); [now rewrite orb_true_r |]. rewrite orb_false_r.
  destruct (Nat.eqb_spec y (fst t)), (Nat.eqb_spec x (snd t)); cbn [andb]; try reflexivity. subst. now destruct t.
Qed.
Lemma in_pixels d t : In t (pixels d) <-> (fst t < fst d)%nat /\ (snd t < snd d)%nat.
Proof. unfold pixels. destruct t as [y x]. rewrite in_prod_iff, !in_seq. cbn. lia. Qed.
Lemma assemble_at g d y x : assemble (map (fun yx => (g yx, yx)) (pixels d)) y x = if Nat.ltb y (fst d) && Nat.ltb x (snd d) then Some (g (y, x)) else None.
Proof.
  unfold assemble. rewrite fold_put. destruct (existsb _ _) eqn:E.
  - apply existsb_exists in E. destruct E as [t [I E]]. apply in_pixels in I. apply andb_true_iff in E. destruct E as [E F]. apply Nat.eqb_eq in E, F. subst.
    destruct I as [I J]. apply Nat.ltb_lt in I, J. now rewrite I, J.
  - destruct (Nat.ltb_spec y (fst d)), (Nat.ltb_spec x (snd d)); cbn [andb]; try reflexivity. exfalso.
    assert (C : existsb (fun t => Nat.eqb y (fst t) && Nat.eqb x (snd t)) (pixels d) = true); [| congruence].
    apply existsb_exists. exists (y, x). split; [now apply in_pixels |]. cbn. now rewrite !Nat.eqb_refl.
Qed.

(** ** Values of the cube *)
Lemma gradient_tab v n : (2 <= n)%nat -> gradient (map v (seq 0 n)) = Ok (map (grad v n) (seq 0 n)).
Proof.
  intro H. unfold gradient. rewrite map_length, seq_length. destruct (Nat.ltb_spec n 2); [lia |]. apply (f_equal Ok). apply map_ext_in. intros i I. apply in_seq in I.
  assert (N : forall k, (k < n)%nat -> nth k (map v (seq 0 n)) 0 = v k).
  { intros k K. rewrite (nth_indep _ 0 (v 0%nat)) by (rewrite map_length, seq_length; lia). rewrite map_nth, seq_nth by lia. reflexivity. }
  unfold grad. destruct (Nat.eqb_spec i 0); [rewrite !N by lia; reflexivity |]. destruct (Nat.eqb_spec i (n - 1)); rewrite !N by lia; reflexivity.
Qed.
(** what a cell of unit density adds to channel centre x *)
Definition weight (unit vt pix : R) (edges : list R) (v : nat -> R) (n i : nat) (x : R) : R :=
  INR (hits edges (v i * unit)) * line (vt * unit ^ 2) pix (v i * unit) (grad v n i / pix * unit) x / conv_to_K.
Lemma combine_map2 {A B C} (f : A -> B) (g : A -> C) l : combine (map f l) (map g l) = map (fun a => (f a, g a)) l.
Proof. induction l; cbn; [reflexivity | now f_equal]. Qed.
Lemma spectrum_maker_tab unit edges v d n vt pix : (2 <= n)%nat ->
  exists s, spectrum_maker unit edges (map v (seq 0 n)) (map d (seq 0 n)) vt pix = Ok s /\ length s = (length edges - 1)%nat /\
  forall j, (j < length edges - 1)%nat -> nth j s 0 = rsum n (fun i => d i * weight unit vt pix edges v n i (nth j (mids edges) 0)).
Proof.
  intro H. unfold spectrum_maker. rewrite (gradient_tab v n H). cbn [bind]. cbv zeta. eexists. split; [reflexivity |].
  rewrite !map_map, !combine_map2.
  set (cells := map _ (seq 0 n)). destruct (gs_closed cells edges (mids edges) (vt * unit ^ 2) pix (mids_length edges)) as [L V].
  rewrite mids_length in L, V. split; [now rewrite map_length |]. intros j J.
  rewrite (nth_indep _ 0 (0 / conv_to_K)) by (rewrite map_length; lia). rewrite (map_nth (fun s => s / conv_to_K)), (V j J).
  subst cells. rewrite map_map. rewrite <- rsum_lsum. unfold Rdiv at 1. rewrite <- rsum_scal_r. apply rsum_ext. intros i I.
  rewrite contribution_line. cbn [cell_vel fst snd]. unfold weight, cell_vel. cbn [fst snd]. unfold Rdiv. ring.
Qed.
Lemma real_axis_nat a : (a < 3)%nat -> real_axis (Z.of_nat a) = Some a.
Proof. intro H. destruct a as [| [| [| a]]]; [reflexivity | reflexivity | reflexivity | lia]. Qed.
Lemma los_slice_nat f a y x : (a < 3)%nat -> on_image f a y x ->
  los_slice f (Z.of_nat a) y x = Ok (map (sight f a y x) (seq 0 (dim (f_shape f) a))).
Proof.
  intros H [Y X]. unfold los_slice. assert (P : insert_pos (Z.of_nat a) = a) by (unfold insert_pos; destruct (Z.ltb_spec (Z.of_nat a) 0); lia). rewrite P. cbv zeta.
  unfold on_image, image_dims, sight, dim in *. destruct (f_shape f) as [[n0 n1] n2] eqn:E.
  destruct a as [| [| [| a]]]; [| | | lia]; cbn [fst snd] in Y, X; apply Nat.ltb_lt in Y; apply Nat.ltb_lt in X; rewrite Y, X; reflexivity.
Qed.
(** the numbers used by make_ppv for a field *)
Definition chosen_edges (U : R) (vel : field) (axis : nat) (vt vd idx : R) cw v0 v1 mc : result (list R * R) :=
  vel_edges U (min_list (values vel)) (max_list (values vel)) (sqrt (vd ^ 2 + vt))
    (sqrt (vd ^ 2 * Rpower (2 / INR (dim (f_shape vel) axis)) idx + 2 * vt)) v0 v1 cw mc.
Definition los_sum (U vt pix : R) (edges : list R) (vel dens : field) (a y x j : nat) : R :=
  let n := dim (f_shape vel) a in
  rsum n (fun i => sight dens a y x i * weight U vt pix edges (sight vel a y x) n i (nth j (mids edges) 0)).
Lemma existsb_neg dens : existsb (fun d => Rltb d 0) (values dens) = true <->
  exists i j k, (i < dim (f_shape dens) 0)%nat /\ (j < dim (f_shape dens) 1)%nat /\ (k < dim (f_shape dens) 2)%nat /\ f_at dens i j k < 0.
Proof.
  rewrite existsb_exists. unfold values. split.
  - intros [d [I N]]. apply in_map_iff in I. destruct I as [[[i j] k] [E I]]. rewrite !in_prod_iff, !in_seq in I. cbn [fst snd] in E. subst.
    destruct (Rltb_spec (f_at dens i j k) 0); [| discriminate]. exists i, j, k. repeat split; try lia. assumption.
  - intros [i [j [k [I [J [K N]]]]]]. exists (f_at dens i j k). split.
    + apply in_map_iff. exists (i, j, k). split; [reflexivity |]. rewrite !in_prod_iff, !in_seq. lia.
    + destruct (Rltb_spec (f_at dens i j k) 0); [reflexivity | lra].
Qed.
Section Value.
Variables (U : R) (vel dens : field) (a : nat) (vt pix vd idx : R) (cw v0 v1 : option velocity) (mc : Z) (hdu : bool).
Hypothesis A3 : (a < 3)%nat.
Hypothesis SH : f_shape dens = f_shape vel.
Hypothesis N2 : (2 <= dim (f_shape vel) a)%nat.
Let ppv := make_ppv U vel dens (Z.of_nat a) vt pix vd idx cw v0 v1 mc None hdu.
Let spec_at (E : list R) yx := match spectrum_maker U E (map (sight vel a (fst yx) (snd yx)) (seq 0 (dim (f_shape vel) a))) (map (sight dens a (fst yx) (snd yx)) (seq 0 (dim (f_shape vel) a))) vt pix with Ok s => s | Err _ => [] end.
Lemma make_ppv_eq : ppv =
  if existsb (fun d => Rltb d 0) (values dens) then Err ValueError else
  match chosen_edges U vel a vt vd idx cw v0 v1 mc with
  | Err e => Err e
  | Ok (edges, unit) => if hdu && Nat.ltb (length (mids edges)) 2 then Err IndexError
      else Ok (assemble (map (fun yx => (spec_at (map (fun e => e * unit) edges) yx, yx)) (pixels (image_dims (f_shape vel) a))), mids edges)
  end.
Proof.
  unfold ppv, make_ppv. destruct (existsb _ _); [reflexivity |]. rewrite (real_axis_nat a A3). cbv zeta.
  change (vel_edges U (min_list (values vel)) (max_list (values vel)) (sqrt (vd ^ 2 + vt)) (sqrt (vd ^ 2 * Rpower (2 / INR (dim (f_shape vel) a)) idx + 2 * vt)) v0 v1 cw mc) with (chosen_edges U vel a vt vd idx cw v0 v1 mc).
  destruct (chosen_edges U vel a vt vd idx cw v0 v1 mc) as [[edges unit] | e]; [| reflexivity]. cbn [bind].
  rewrite (all_ok_total _ (fun yx => (spec_at (map (fun e => e * unit) edges) yx, yx))); [reflexivity |].
  intros [y x] I. apply in_pixels in I. cbn [fst snd] in I |- *.
  rewrite (los_slice_nat vel a y x A3 I). cbn [bind]. rewrite (los_slice_nat dens a y x A3) by (unfold on_image; rewrite SH; exact I). cbn [bind]. rewrite SH.
  destruct (spectrum_maker_tab U (map (fun e => e * unit) edges) (sight vel a y x) (sight dens a y x) (dim (f_shape vel) a) vt pix N2) as [s [E _]].
  unfold spec_at. cbn [fst snd]. rewrite E. reflexivity.
Qed.
Theorem make_ppv_value cube axis : ppv = Ok (cube, axis) ->
  existsb (fun d => Rltb d 0) (values dens) = false /\
  exists edges unit, chosen_edges U vel a vt vd idx cw v0 v1 mc = Ok (edges, unit) /\ axis = mids edges /\ (hdu = true -> (2 <= length axis)%nat) /\
    (forall y x, ~ on_image vel a y x -> cube y x = None) /\
    (forall y x, on_image vel a y x -> exists s, cube y x = Some s /\ length s = length axis /\
       spectrum_maker U (map (fun e => e * unit) edges) (map (sight vel a y x) (seq 0 (dim (f_shape vel) a))) (map (sight dens a y x) (seq 0 (dim (f_shape vel) a))) vt pix = Ok s) /\
    (forall y x j, on_image vel a y x -> (j < length axis)%nat -> voxel cube j y x = los_sum U vt pix (map (fun e => e * unit) edges) vel dens a y x j).
Proof.
  rewrite make_ppv_eq. destruct (existsb _ _); [discriminate |]. destruct (chosen_edges _ _ _ _ _ _ _ _ _ _) as [[edges unit] | e]; [| discriminate].
  destruct (hdu && _) eqn:H; [discriminate |]. intro E. apply (f_equal (fun r => match r with Ok p => p | Err _ => (cube, axis) end)) in E.
  pose proof (f_equal fst E) as E1. pose proof (f_equal snd E) as E2. cbn [fst snd] in E1, E2. clear E. subst cube axis. split; [reflexivity |]. exists edges, unit. split; [reflexivity |]. split; [reflexivity |].
  split. { intros ->. cbn [andb] in H. apply Nat.ltb_ge in H. exact H. }
  assert (IM : forall y x, on_image vel a y x -> (Nat.ltb y (fst (image_dims (f_shape vel) a)) && Nat.ltb x (snd (image_dims (f_shape vel) a)))%bool = true).
  { intros y x [Y X]. apply andb_true_iff. split; now apply Nat.ltb_lt. }
  assert (LM : length (mids (map (fun e => e * unit) edges)) = length (mids edges)) by now rewrite !mids_length, map_length.
  split; [| split].
  - intros y x N. rewrite assemble_at. destruct (Nat.ltb_spec y (fst (image_dims (f_shape vel) a))), (Nat.ltb_spec x (snd (image_dims (f_shape vel) a))); cbn [andb]; try reflexivity. exfalso. apply N. now split.
  - intros y x O. rewrite assemble_at, (IM y x O). eexists. split; [reflexivity |].
    destruct (spectrum_maker_tab U (map (fun e => e * unit) edges) (sight vel a y x) (sight dens a y x) (dim (f_shape vel) a) vt pix N2) as [s [E [L _]]].
    unfold spec_at. cbn [fst snd]. rewrite E. split; [| reflexivity]. rewrite L, mids_length, map_length. reflexivity.
  - intros y x j O J. unfold voxel. rewrite assemble_at, (IM y x O).
    destruct (spectrum_maker_tab U (map (fun e => e * unit) edges) (sight vel a y x) (sight dens a y x) (dim (f_shape vel) a) vt pix N2) as [s [E [L V]]].
    unfold spec_at. cbn [fst snd]. rewrite E. rewrite map_length in V. rewrite mids_length in J. apply (V j J).
Qed.
Theorem make_ppv_total edges unit : existsb (fun d => Rltb d 0) (values dens) = false -> chosen_edges U vel a vt vd idx cw v0 v1 mc = Ok (edges, unit) ->
  (hdu = true -> (3 <= length edges)%nat) -> exists cube, ppv = Ok (cube, mids edges).
Proof.
  intros N E H. rewrite make_ppv_eq, N, E. destruct hdu; cbn [andb]; [| eexists; reflexivity].
  destruct (Nat.ltb_spec (length (mids edges)) 2) as [L |]; [| eexists; reflexivity]. rewrite mids_length in L. specialize (H eq_refl). lia.
Qed.
End Value.
