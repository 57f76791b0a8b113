(** The delta variance of an image seen from another side. *)
From Coq Require Import Reals List Bool ZArith Arith Lra Lia Permutation.
From Verif Require Import Lib.PyBase Lib.RSum Lib.Fl Lib.Arr Spec.Orders Spec.Turned Spec.TurnedDeltaVar Model.StatsUtils Model.Scf Model.DeltaVar
  Proofs.Fl_Proofs Proofs.Orders_Proofs.
From Verif Require Proofs.PspecFit_Proofs Proofs.Tsallis_Proofs Proofs.TurnedMoments_Proofs.
Import ListNotations.
Local Open Scope R_scope.

(** ** Pixels in another order, and kernels that follow *)
Section Order.
  Variables (n : nat) (p : nat -> nat).
  Hypothesis P : reorders p n.
  Lemma tab_perm {A} (f : nat -> A) : Permutation (tab1 n (fun i => f (p i))) (tab1 n f).
  Proof. unfold tab1. rewrite <- (map_map p f). apply Permutation_map, P. Qed.
  Definition conv1 (k : nat -> nat -> R) (a : nat -> fl) (i : nat) : R := rsum n (fun j => k i j * fill0 (a j)).
  Lemma convolve_tab k a : convolve k (tab1 n a) = tab1 n (conv1 k a).
  Proof. unfold convolve. rewrite tab1_length. apply tab1_ext. intros i Hi. apply rsum_ext. intros j Hj. now rewrite tab1_nth. Qed.
  Lemma conv1_order k a i : conv1 (fun i j => k (p i) (p j)) (fun i => a (p i)) i = conv1 k a (p i).
  Proof. unfold conv1. apply (rsum_reorders n p (fun j => k (p i) j * fill0 (a j)) P). Qed.
  Definition ratio (k : nat -> nat -> R) (d : nat -> fl) (w : nat -> R) (cut : R) (i : nat) : fl :=
    fdiv (Fin (conv1 k (fun j => fmul (d j) (Fin (w j))) i)) (mask_low cut (conv1 k (fun j => Fin (w j)) i)).
  Definition conv_at core annulus d w cut (pn : bool) (i : nat) : fl :=
    let c := fsub (ratio core d w cut i) (ratio annulus d w cut i) in if pn then if is_nan (fmul (d i) (Fin (w i))) then NaN else c else c.
  Lemma conv_tab core annulus d w cut pn : conv_arr core annulus (tab1 n d) (tab1 n w) cut pn = tab1 n (conv_at core annulus d w cut pn).
  Proof.
    unfold conv_arr, conv_at. cbv zeta. rewrite Tsallis_Proofs.map2_tab, tab1_map, !convolve_tab, !tab1_map, !Tsallis_Proofs.map2_tab. destruct pn; reflexivity.
  Qed.
  Definition weight_at (core annulus : nat -> nat -> R) (w : nat -> R) (cut : R) (i : nat) : fl :=
    fmul (mask_low cut (conv1 core (fun j => Fin (w j)) i)) (mask_low cut (conv1 annulus (fun j => Fin (w j)) i)).
  Lemma weight_tab core annulus w cut : conv_weight core annulus (tab1 n w) cut = tab1 n (weight_at core annulus w cut).
  Proof. unfold conv_weight. cbv zeta. rewrite tab1_map, !convolve_tab, !tab1_map, Tsallis_Proofs.map2_tab. reflexivity. Qed.
  Lemma delvar_order a w lag : delvar (tab1 n (fun i => a (p i))) (tab1 n (fun i => w (p i))) lag = delvar (tab1 n a) (tab1 n w) lag.
  Proof.
    unfold delvar. cbv zeta. rewrite (nanmean_perm _ _ (tab_perm a)). set (m := nanmean (tab1 n a)). clearbody m. rewrite !tab1_map, !Tsallis_Proofs.map2_tab.
    rewrite (nansum_perm _ _ (tab_perm w)), (nansum_perm _ _ (tab_perm (fun i => fmul (fsqr (fsub (a i) m)) (w i)))), (nansum_perm _ _ (tab_perm (fun i => fmul (fsqr (fsqr (fsub (a i) m))) (w i)))).
    now rewrite (Permutation_length (filter_perm is_fin _ _ (tab_perm (fun i => fsub (a i) m)))).
  Qed.
  Lemma deltavar_order core annulus d w wmax mf pn lag :
    deltavar_lag (fun i j => core (p i) (p j)) (fun i j => annulus (p i) (p j)) (tab1 n (fun i => d (p i))) (tab1 n (fun i => w (p i))) wmax mf pn lag =
    deltavar_lag core annulus (tab1 n d) (tab1 n w) wmax mf pn lag.
  Proof.
    unfold deltavar_lag. cbv zeta. f_equal. rewrite !conv_tab, !weight_tab. rewrite <- (delvar_order (conv_at core annulus d w (mf * wmax) pn) (weight_at core annulus w (mf * wmax))). f_equal; apply tab1_ext; intros i _.
    - unfold conv_at, ratio. cbv zeta. rewrite (conv1_order core (fun j => fmul (d j) (Fin (w j)))), (conv1_order annulus (fun j => fmul (d j) (Fin (w j)))), (conv1_order core (fun j => Fin (w j))), (conv1_order annulus (fun j => Fin (w j))). reflexivity.
    - unfold weight_at. rewrite (conv1_order core (fun j => Fin (w j))), (conv1_order annulus (fun j => Fin (w j))). reflexivity.
  Qed.
End Order.

(** ** The pixels of a grid *)
Definition pixel_of (v : view) (n0 n1 : nat) (i : nat) : nat :=
  let m := columns_seen v n0 n1 in let s := TurnedMoments_Proofs.source v n0 n1 (i / m, i mod m)%nat in (fst s * n1 + snd s)%nat.
Lemma split_index n m i : (i < n * m)%nat -> (i / m < n)%nat /\ (i mod m < m)%nat.
Proof. intros H. assert (m <> 0)%nat by lia. split; [apply Nat.div_lt_upper_bound; lia|now apply Nat.mod_upper_bound]. Qed.
Lemma join_index n1 a b : (b < n1)%nat -> ((a * n1 + b) / n1 = a /\ (a * n1 + b) mod n1 = b)%nat.
Proof. intros H. split; [rewrite Nat.div_add_l, Nat.div_small by lia; lia|rewrite Nat.add_comm, Nat.mod_add, Nat.mod_small by lia; reflexivity]. Qed.
Lemma size_seen v n0 n1 : (rows_seen v n0 n1 * columns_seen v n0 n1 = n0 * n1)%nat.
Proof. destruct v; cbn; lia. Qed.
Lemma pixel_source v n0 n1 i : (i < n0 * n1)%nat -> let m := columns_seen v n0 n1 in let s := TurnedMoments_Proofs.source v n0 n1 (i / m, i mod m)%nat in
  (fst s < n0)%nat /\ (snd s < n1)%nat /\ (pixel_of v n0 n1 i / n1 = fst s)%nat /\ (pixel_of v n0 n1 i mod n1 = snd s)%nat.
Proof.
  intros H m s. rewrite <- (size_seen v n0 n1) in H. destruct (split_index _ _ _ H) as [H0 H1]. destruct (TurnedMoments_Proofs.source_in v n0 n1 _ _ H0 H1) as [K0 K1].
  split; [exact K0|]. split; [exact K1|]. unfold pixel_of. cbv zeta. exact (join_index n1 _ _ K1).
Qed.
Lemma pixel_reorders v n0 n1 : reorders (pixel_of v n0 n1) (n0 * n1).
Proof.
  unfold reorders. apply NoDup_Permutation_bis.
  - apply PspecFit_Proofs.NoDup_map_in; [|apply seq_NoDup]. intros i j Hi Hj E. apply in_seq in Hi, Hj.
    destruct (pixel_source v n0 n1 i ltac:(lia)) as (A0 & A1 & A2 & A3). destruct (pixel_source v n0 n1 j ltac:(lia)) as (B0 & B1 & B2 & B3). rewrite E in A2, A3.
    set (m := columns_seen v n0 n1) in *. assert (Hm : (m <> 0)%nat). { pose proof (size_seen v n0 n1). subst m. intros Z. rewrite Z in *. lia. }
    pose proof (Nat.div_mod i m Hm) as DI. pose proof (Nat.div_mod j m Hm) as DJ.
    assert (LI : (i / m < rows_seen v n0 n1 /\ i mod m < m)%nat) by (apply split_index; subst m; rewrite size_seen; lia).
    assert (LJ : (j / m < rows_seen v n0 n1 /\ j mod m < m)%nat) by (apply split_index; subst m; rewrite size_seen; lia).
    assert (Q : (i / m = j / m /\ i mod m = j mod m)%nat). { rewrite A2 in B2. rewrite A3 in B3. clear DI DJ. set (a := (i / m)%nat) in *. set (b := (i mod m)%nat) in *. set (c := (j / m)%nat) in *. set (d := (j mod m)%nat) in *. clearbody a b c d. destruct v; cbn in *; lia. }
    destruct Q as [Q1 Q2]. rewrite DI, DJ, Q1, Q2. reflexivity.
  - now rewrite map_length.
  - intros i Hi. apply in_map_iff in Hi. destruct Hi as (j & <- & Hj). apply in_seq in Hj. destruct (pixel_source v n0 n1 j ltac:(lia)) as (A0 & A1 & _ & _). apply in_seq. unfold pixel_of. cbv zeta in *. nia.
Qed.
Lemma grid_seen v n0 n1 K i j : even_kernel K -> (i < n0 * n1)%nat -> (j < n0 * n1)%nat -> on_grid (columns_seen v n0 n1) (seen_kernel v K) i j = on_grid n1 K (pixel_of v n0 n1 i) (pixel_of v n0 n1 j).
Proof.
  intros EV Hi Hj. unfold on_grid. destruct (pixel_source v n0 n1 i Hi) as (A0 & A1 & A2 & A3). destruct (pixel_source v n0 n1 j Hj) as (B0 & B1 & B2 & B3). rewrite A2, A3, B2, B3.
  set (m := columns_seen v n0 n1) in *.
  assert (LI : (i / m < rows_seen v n0 n1 /\ i mod m < m)%nat) by (apply split_index; subst m; rewrite size_seen; lia).
  assert (LJ : (j / m < rows_seen v n0 n1 /\ j mod m < m)%nat) by (apply split_index; subst m; rewrite size_seen; lia).
  clear A2 A3 B2 B3. set (a := (i / m)%nat) in *. set (b := (i mod m)%nat) in *. set (c := (j / m)%nat) in *. set (d := (j mod m)%nat) in *. clearbody a b c d.
  destruct v; cbn [TurnedMoments_Proofs.source fst snd seen_kernel rows_seen columns_seen] in *; subst m.
  - rewrite <- (proj2 (EV _ (Z.of_nat b - Z.of_nat d)%Z)). f_equal. lia.
  - rewrite <- (proj1 (EV (Z.of_nat a - Z.of_nat c)%Z _)). f_equal. lia.
  - reflexivity.
  - rewrite <- (proj1 (EV (Z.of_nat b - Z.of_nat d)%Z _)). f_equal. lia.
Qed.
Lemma flat_seen {A} v n0 n1 (a : nat -> nat -> A) : row_by_row (rows_seen v n0 n1) (columns_seen v n0 n1) (seen v n0 n1 a) = tab1 (n0 * n1) (fun i => a (pixel_of v n0 n1 i / n1)%nat (pixel_of v n0 n1 i mod n1)%nat).
Proof.
  unfold row_by_row. rewrite size_seen. apply tab1_ext. intros i Hi. rewrite TurnedMoments_Proofs.seen_source. destruct (pixel_source v n0 n1 i Hi) as (_ & _ & -> & ->). reflexivity.
Qed.

(** only the entries of a kernel between pixels of the image count *)
Lemma deltavar_ext n core core' annulus annulus' d w wmax mf pn lag :
  (forall i j, (i < n)%nat -> (j < n)%nat -> core i j = core' i j) -> (forall i j, (i < n)%nat -> (j < n)%nat -> annulus i j = annulus' i j) ->
  deltavar_lag core annulus (tab1 n d) (tab1 n w) wmax mf pn lag = deltavar_lag core' annulus' (tab1 n d) (tab1 n w) wmax mf pn lag.
Proof.
  intros EC EA. assert (C1 : forall a i, (i < n)%nat -> conv1 n core a i = conv1 n core' a i) by (intros a i Hi; apply rsum_ext; intros j Hj; now rewrite EC).
  assert (C2 : forall a i, (i < n)%nat -> conv1 n annulus a i = conv1 n annulus' a i) by (intros a i Hi; apply rsum_ext; intros j Hj; now rewrite EA).
  unfold deltavar_lag. cbv zeta. f_equal. rewrite !conv_tab, !weight_tab. f_equal; apply tab1_ext; intros i Hi; unfold conv_at, weight_at, ratio; cbv zeta; now rewrite ?C1, ?C2 by exact Hi.
Qed.
Lemma deltavar_seen v n0 n1 core annulus data weights wmax mf pn lag : even_kernel core -> even_kernel annulus ->
  deltavar_lag (on_grid (columns_seen v n0 n1) (seen_kernel v core)) (on_grid (columns_seen v n0 n1) (seen_kernel v annulus))
    (row_by_row (rows_seen v n0 n1) (columns_seen v n0 n1) (seen v n0 n1 data)) (row_by_row (rows_seen v n0 n1) (columns_seen v n0 n1) (seen v n0 n1 weights)) wmax mf pn lag =
  deltavar_lag (on_grid n1 core) (on_grid n1 annulus) (row_by_row n0 n1 data) (row_by_row n0 n1 weights) wmax mf pn lag.
Proof.
  intros EC EA. rewrite !flat_seen. unfold row_by_row.
  rewrite <- (deltavar_order (n0 * n1) (pixel_of v n0 n1) (pixel_reorders v n0 n1) (on_grid n1 core) (on_grid n1 annulus)).
  apply (deltavar_ext (n0 * n1)); intros i j Hi Hj; now apply grid_seen.
Qed.

(** ** Kernels sampled at the pixels *)
Lemma core_even lag : even_kernel (fun a b => core_kernel lag (IZR a) (IZR b)).
Proof. intros a b. unfold core_kernel, core_model. rewrite !opp_IZR, !Rmult_opp_opp. now split. Qed.
Lemma annulus_even lag ratio : even_kernel (fun a b => annulus_kernel lag ratio (IZR a) (IZR b)).
Proof. intros a b. unfold annulus_kernel, annulus_model, annulus_evaluate. cbv zeta. rewrite !opp_IZR, !Rmult_opp_opp. now split. Qed.
Lemma seen_radial v (K : Z -> Z -> R) : (forall a b, K a b = K b a) -> forall a b, seen_kernel v K a b = K a b.
Proof. intros S a b. destruct v; cbn; auto. Qed.
Lemma core_swap lag a b : core_kernel lag a b = core_kernel lag b a.
Proof. unfold core_kernel, core_model. now rewrite (Rplus_comm (a * a)). Qed.
Lemma annulus_swap lag ratio a b : annulus_kernel lag ratio a b = annulus_kernel lag ratio b a.
Proof. unfold annulus_kernel, annulus_model, annulus_evaluate. cbv zeta. now rewrite (Rplus_comm (a * a)). Qed.
Lemma deltavar_sampled v n0 n1 ratio data weights wmax mf pn lag :
  let core a b := core_kernel lag (IZR a) (IZR b) in let annulus a b := annulus_kernel lag ratio (IZR a) (IZR b) in
  let m0 := rows_seen v n0 n1 in let m1 := columns_seen v n0 n1 in
  deltavar_lag (on_grid m1 core) (on_grid m1 annulus) (row_by_row m0 m1 (seen v n0 n1 data)) (row_by_row m0 m1 (seen v n0 n1 weights)) wmax mf pn lag =
  deltavar_lag (on_grid n1 core) (on_grid n1 annulus) (row_by_row n0 n1 data) (row_by_row n0 n1 weights) wmax mf pn lag.
Proof.
  cbv zeta. rewrite <- (deltavar_seen v n0 n1 _ _ data weights wmax mf pn lag (core_even lag) (annulus_even lag ratio)). unfold row_by_row at 1 2 3 4.
  apply deltavar_ext; intros i j _ _; unfold on_grid; symmetry; apply seen_radial; intros a b; [apply core_swap|apply annulus_swap].
Qed.
