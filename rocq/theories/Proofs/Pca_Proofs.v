(** Proofs about Model/Pca.v: C23, C24. *)
From Coq Require Import String Reals List ZArith Lia Lra Arith Bool.
From Verif Require Import Lib.PyBase Lib.RSum Lib.Fl Lib.PySlice Lib.Arr Lib.ListMore Spec.Components Model.Pca.
Import ListNotations.
Local Open Scope R_scope.

Lemma compared_slice (ms : bool) n l : (n <= length l)%nat ->
  slice (Some (if ms then 0%Z else 1%Z)) (Some (Z.of_nat n)) 1 l = compared ms n l.
Proof.
  intros H. unfold compared. destruct ms.
  - change 0%Z with (Z.of_nat 0). rewrite (slice_range l 0 n) by auto. now rewrite Nat.sub_0_r.
  - change (Some 1%Z) with (Some (Z.of_nat 1)). rewrite (slice_range l 1 n) by auto. now rewrite skipn_firstn_comm.
Qed.

Lemma compared_length (ms : bool) n l : (n <= length l)%nat -> length (compared ms n l) = (n - if ms then 0 else 1)%nat.
Proof. intros H. unfold compared. destruct ms; rewrite ?skipn_length, firstn_length; lia. Qed.

Lemma fsum_map2_sqr a b : fsum (map2 (fun x y => fsqr (fsub x y)) (map Fin a) (map Fin b)) = Fin (lsum (map2 (fun x y => (x - y) ^ 2) a b)).
Proof.
  rewrite map2_map_l, map2_map_r. rewrite <- fsum_Fin. f_equal. rewrite map_map2. apply map2_ext. intros. cbn. f_equal. ring.
Qed.

Lemma pca_distance_formula ms n e1 e2 : (n <= length e1)%nat -> (n <= length e2)%nat ->
  lsum (compared ms n e1) <> 0 -> lsum (compared ms n e2) <> 0 ->
  pca_distance ms (Z.of_nat n) e1 e2 = Ok (Fin (l2_distance (proportions (compared ms n e1)) (proportions (compared ms n e2)))).
Proof.
  intros H1 H2 S1 S2. unfold pca_distance. rewrite !compared_slice by auto.
  rewrite !map_length, !compared_length, Nat.eqb_refl by auto.
  set (k1 := compared ms n e1) in *. set (k2 := compared ms n e2) in *.
  assert (E : forall k, lsum k <> 0 -> map (fun v => fdiv (Fin v) (Fin (lsum k))) k = map Fin (proportions k)).
  { intros k Hk. unfold proportions. rewrite map_map. apply map_ext. intros. now apply fdiv_fin. }
  rewrite !E by auto. rewrite fsum_map2_sqr. unfold l2_distance.
  rewrite fsqrt_fin; [reflexivity|]. apply lsum_map2_nonneg. intros. rewrite <- Rsqr_pow2. apply Rle_0_sqr.
Qed.

Lemma pca_distance_symm ms n e1 e2 : pca_distance ms n e1 e2 = pca_distance ms n e2 e1.
Proof.
  unfold pca_distance. cbv zeta.
  set (a := map _ (slice _ _ 1 e1)). set (b := map _ (slice _ _ 1 e2)).
  assert (N : forall u v, fsqrt (fsum (map2 (fun x y => fsqr (fsub x y)) u v)) = fsqrt (fsum (map2 (fun x y => fsqr (fsub x y)) v u))).
  { intros u v. do 2 f_equal. rewrite map2_swap. apply map2_ext. intros x y _ _.
    destruct x, y; cbn; try reflexivity; f_equal; ring. }
  rewrite (Nat.eqb_sym (length b) (length a)). destruct (Nat.eqb_spec (length a) (length b)) as [E|E]; [now rewrite N|].
  destruct (Nat.eqb_spec (length a) 1); destruct (Nat.eqb_spec (length b) 1); try lia; try reflexivity; now rewrite N.
Qed.

Lemma l2_nonneg a b : 0 <= l2_distance a b.
Proof. apply sqrt_pos. Qed.

Lemma l2_rsum a b : length a = length b -> l2_distance a b = sqrt (rsum (length a) (fun i => (nth i a 0 - nth i b 0)²)).
Proof.
  intros H. unfold l2_distance. f_equal. rewrite (lsum_map2 (fun x y => (x - y) ^ 2)) by auto.
  apply rsum_ext. intros. now rewrite Rsqr_pow2.
Qed.

Lemma l2_sym a b : l2_distance a b = l2_distance b a.
Proof. unfold l2_distance. do 2 f_equal. rewrite map2_swap. apply map2_ext. intros. ring. Qed.

Lemma l2_triangle a b c : length a = length b -> length b = length c -> l2_distance a c <= l2_distance a b + l2_distance b c.
Proof.
  intros H1 H2. rewrite !l2_rsum by congruence. rewrite <- H1.
  eapply Rle_trans; [|apply (rsum_minkowski (length a) (fun i => nth i a 0 - nth i b 0) (fun i => nth i b 0 - nth i c 0))].
  right. f_equal. apply rsum_ext. intros. f_equal. ring.
Qed.

Lemma l2_zero a b : length a = length b -> (l2_distance a b = 0 <-> a = b).
Proof.
  intros H. rewrite l2_rsum by auto. split.
  - intros E. apply sqrt_eq_0 in E; [|apply rsum_nonneg; intros; apply Rle_0_sqr].
    apply nth_ext with (d := 0) (d' := 0); auto. intros i Hi.
    assert (T := rsum_nonneg_eq0 (length a) (fun i => (nth i a 0 - nth i b 0)²) (fun _ _ => Rle_0_sqr _) E i Hi).
    cbv beta in T. apply Rsqr_0_uniq in T. lra.
  - intros <-. rewrite rsum_zero; [apply sqrt_0|]. intros. rewrite Rminus_eq_0. apply Rsqr_0.
Qed.

Lemma proportions_length l : length (proportions l) = length l.
Proof. apply map_length. Qed.

Lemma proportions_sum l : lsum l <> 0 -> lsum (proportions l) = 1.
Proof.
  intros H. unfold proportions, Rdiv. rewrite (lsum_map_scal_r (/ lsum l) (fun v => v)), map_id. now apply Rinv_r.
Qed.

Lemma proportions_range l : (forall v, In v l -> 0 <= v) -> 0 < lsum l -> forall v, In v (proportions l) -> 0 <= v <= 1.
Proof.
  intros P S v Hv. apply in_map_iff in Hv. destruct Hv as [u [<- Hu]]. specialize (P u Hu) as Pu.
  assert (u <= lsum l).
  { clear S. revert Hu. induction l as [|a l IH]; [intros []|]. intros Hu. rewrite lsum_cons.
    assert (0 <= lsum l). { rewrite <- (map_id l). apply lsum_nonneg. intros x Hx. apply in_map_iff in Hx. destruct Hx as [? [<- ?]]. apply P. now right. }
    destruct Hu as [->|Hu]; [lra|]. specialize (P a (or_introl eq_refl)) as Pa. specialize (IH (fun v H => P v (or_intror H)) Hu). lra. }
  split; [apply Rmult_le_pos; [lra|left; now apply Rinv_0_lt_compat]|].
  apply Rmult_le_reg_r with (lsum l); auto. unfold Rdiv. rewrite Rmult_assoc, Rinv_l; lra.
Qed.

Lemma rsum_le_sqrt2 n f g : (forall i, (i < n)%nat -> 0 <= f i <= 1) -> (forall i, (i < n)%nat -> 0 <= g i <= 1) ->
  rsum n f = 1 -> rsum n g = 1 -> rsum n (fun i => (f i - g i)²) <= 2.
Proof.
  intros F G Sf Sg. apply Rle_trans with (rsum n (fun i => f i + g i)).
  - apply rsum_le. intros i Hi. specialize (F i Hi). specialize (G i Hi). unfold Rsqr. nra.
  - rewrite rsum_plus. lra.
Qed.

Lemma l2_proportions_le a b : length a = length b -> (forall v, In v a -> 0 <= v) -> (forall v, In v b -> 0 <= v) ->
  0 < lsum a -> 0 < lsum b -> l2_distance (proportions a) (proportions b) <= sqrt 2.
Proof.
  intros L Pa Pb Sa Sb. rewrite l2_rsum by (now rewrite !proportions_length). rewrite proportions_length.
  apply sqrt_le_1_alt. apply rsum_le_sqrt2.
  - intros i Hi. apply (proportions_range a); auto. apply nth_In. now rewrite proportions_length.
  - intros i Hi. apply (proportions_range b); auto. apply nth_In. rewrite proportions_length. lia.
  - rewrite <- (proportions_sum a) by lra. rewrite (lsum_nth (proportions a) 0), proportions_length. reflexivity.
  - rewrite <- (proportions_sum b) by lra. rewrite (lsum_nth (proportions b) 0), proportions_length, L. reflexivity.
Qed.

Lemma pca_distance_bounded ms n e1 e2 : spectrum_ok ms n e1 -> spectrum_ok ms n e2 ->
  exists r, pca_distance ms (Z.of_nat n) e1 e2 = Ok (Fin r) /\ 0 <= r <= sqrt 2 /\
    (r = 0 <-> proportions (compared ms n e1) = proportions (compared ms n e2)).
Proof.
  intros (L1 & P1 & S1) (L2 & P2 & S2). eexists. split; [apply pca_distance_formula; auto; lra|].
  assert (LL : length (compared ms n e1) = length (compared ms n e2)) by (now rewrite !compared_length).
  split; [split; [apply l2_nonneg|apply l2_proportions_le; auto]|].
  apply l2_zero. now rewrite !proportions_length.
Qed.

Lemma pca_distance_triangle ms n e1 e2 e3 : spectrum_ok ms n e1 -> spectrum_ok ms n e2 -> spectrum_ok ms n e3 ->
  exists r12 r23 r13, pca_distance ms (Z.of_nat n) e1 e2 = Ok (Fin r12) /\ pca_distance ms (Z.of_nat n) e2 e3 = Ok (Fin r23) /\
    pca_distance ms (Z.of_nat n) e1 e3 = Ok (Fin r13) /\ r13 <= r12 + r23.
Proof.
  intros (L1 & P1 & S1) (L2 & P2 & S2) (L3 & P3 & S3). do 3 eexists.
  split; [apply pca_distance_formula; auto; lra|]. split; [apply pca_distance_formula; auto; lra|].
  split; [apply pca_distance_formula; auto; lra|].
  apply l2_triangle; rewrite !proportions_length, !compared_length; auto.
Qed.

Lemma compared_map ms n f l : compared ms n (map f l) = map f (compared ms n l).
Proof. unfold compared. destruct ms; rewrite firstn_map; [reflexivity|]. now rewrite skipn_map. Qed.

Lemma lsum_scaled c l : lsum (map (fun v => c * v) l) = c * lsum l.
Proof. rewrite (lsum_map_scal c (fun v => v)), map_id. reflexivity. Qed.

Lemma proportions_scaled c l : c <> 0 -> lsum l <> 0 -> proportions (map (fun v => c * v) l) = proportions l.
Proof.
  intros Hc Hl. unfold proportions. rewrite map_map, lsum_scaled. apply map_ext. intros. field. auto.
Qed.

Lemma pca_distance_rescaled ms n c1 c2 e1 e2 : spectrum_ok ms n e1 -> spectrum_ok ms n e2 -> 0 < c1 -> 0 < c2 ->
  pca_distance ms (Z.of_nat n) (map (fun v => c1 * v) e1) (map (fun v => c2 * v) e2) = pca_distance ms (Z.of_nat n) e1 e2.
Proof.
  intros (L1 & P1 & S1) (L2 & P2 & S2) H1 H2.
  rewrite (pca_distance_formula ms n e1 e2) by (auto; lra).
  rewrite pca_distance_formula; rewrite ?map_length, ?compared_map, ?lsum_scaled; auto; try (apply Rmult_integral_contrapositive; split; lra).
  rewrite !proportions_scaled by lra. reflexivity.
Qed.

(** *** Witness *)
Lemma ex_pca_distance : spectrum_ok true 2 [3; 1; 0] /\ spectrum_ok true 2 [1; 1; 1] /\
  exists r, pca_distance true 2 [3; 1; 0] [1; 1; 1] = Ok (Fin r) /\ 0 < r.
Proof.
  assert (A : spectrum_ok true 2 [3; 1; 0]).
  { repeat split; cbn; [lia| |lra]. intros v [<-|[<-|[]]]; lra. }
  assert (B : spectrum_ok true 2 [1; 1; 1]).
  { repeat split; cbn; [lia| |lra]. intros v [<-|[<-|[]]]; lra. }
  split; [exact A|]. split; [exact B|].
  destruct (pca_distance_bounded true 2 _ _ A B) as [r [E [[N _] Z]]]. exists r. split; [exact E|].
  destruct (Req_dec r 0) as [->|]; [|lra]. destruct Z as [Z _]. specialize (Z eq_refl). cbn in Z. injection Z as H _. lra.
Qed.

(** ** C24 *)
Lemma filter_count_prefix {A} (f : A -> bool) l d : (forall i j, (i <= j)%nat -> (j < length l)%nat -> f (nth j l d) = true -> f (nth i l d) = true) ->
  forall i, (i < length l)%nat -> (f (nth i l d) = true <-> (i < length (filter f l))%nat).
Proof.
  induction l as [|a l IH]; intros H i Hi; [cbn in Hi; lia|].
  cbn [filter]. destruct (f a) eqn:Ea.
  - destruct i as [|i]; cbn [nth length]; [split; intros; [lia|auto]|].
    rewrite IH; [lia| |cbn in Hi; lia]. intros i' j' L1 L2 E. apply (H (S i') (S j')); cbn; auto; lia.
  - assert (N : forall j, (j < length l)%nat -> f (nth j l d) = false).
    { intros j Hj. destruct (f (nth j l d)) eqn:E; auto. specialize (H 0%nat (S j)). cbn in H. rewrite H in Ea; auto; lia. }
    assert (F : filter f l = []).
    { clear -N. induction l as [|b l IH]; auto. cbn [filter]. specialize (N 0%nat) as N0. cbn in N0. rewrite N0 by lia.
      apply IH. intros j Hj. apply (N (S j)). cbn. lia. }
    rewrite F. destruct i as [|i]; cbn [nth length]; [rewrite Ea; split; [discriminate|lia]|].
    rewrite N by (cbn in Hi; lia). split; [discriminate|lia].
Qed.

Lemma filter_length_le' {A} (f : A -> bool) l : (length (filter f l) <= length l)%nat.
Proof. induction l as [|a l IH]; cbn; [lia|]. destruct (f a); cbn; lia. Qed.

Lemma set_n_eigs_value_rule eigs m : 
  (forall i j, (i <= j)%nat -> (j < length eigs)%nat -> nth j eigs 0 <= nth i eigs 0) ->
  exists k, set_n_eigs eigs m "value" = Ok k /\ (k <= length eigs)%nat /\
    forall i, (i < length eigs)%nat -> ((i < k)%nat <-> m <= nth i eigs 0).
Proof.
  intros S. eexists. split; [reflexivity|]. split; [apply filter_length_le'|].
  intros i Hi. rewrite <- (filter_count_prefix (fun v => Rleb m v) eigs 0); auto.
  - destruct (Rleb_spec m (nth i eigs 0)); split; intros; auto; try discriminate; lra.
  - intros a b L1 L2. destruct (Rleb_spec m (nth b eigs 0)); [|discriminate]. intros _.
    specialize (S a b L1 L2). destruct (Rleb_spec m (nth a eigs 0)); [reflexivity|lra].
Qed.

Lemma cumsum_from_nth l : forall a i, (i < length l)%nat -> nth i (cumsum_from (Fin a) (map Fin l)) NaN = Fin (a + lsum (firstn (S i) l)).
Proof.
  induction l as [|x l IH]; intros a i Hi; [cbn in Hi; lia|].
  cbn [map cumsum_from]. destruct i as [|i].
  - cbn. f_equal. lra.
  - cbn [nth]. change (fadd (Fin a) (Fin x)) with (Fin (a + x)). rewrite IH by (cbn in Hi; lia).
    rewrite (firstn_cons (S i) x l), lsum_cons. f_equal. lra.
Qed.

Lemma cumsum_from_length l : forall a, length (cumsum_from a l) = length l.
Proof. induction l as [|x l IH]; intros; cbn; auto. Qed.

Lemma lsum_firstn_mono l : (forall v, In v l -> 0 <= v) -> forall i j, (i <= j)%nat -> lsum (firstn i l) <= lsum (firstn j l).
Proof.
  induction l as [|a l IH]; intros P i j L; [rewrite !firstn_nil; lra|].
  assert (N : forall k, 0 <= lsum (firstn k l)).
  { intros k. rewrite <- (map_id (firstn k l)). apply lsum_nonneg. intros x Hx. apply in_map_iff in Hx. destruct Hx as [y [<- Hy]].
    apply P. right. rewrite <- (firstn_skipn k l). apply in_or_app. now left. }
  destruct i as [|i]; destruct j as [|j]; try lia; cbn [firstn]; rewrite ?lsum_cons.
  - lra.
  - specialize (P a (or_introl eq_refl)). specialize (N j). cbn. lra.
  - specialize (IH (fun v H => P v (or_intror H)) i j ltac:(lia)). lra.
Qed.

Lemma set_n_eigs_proportion_rule eigs m : (forall v, In v eigs -> 0 <= v) -> 0 < lsum eigs ->
  exists k, set_n_eigs eigs m "proportion" = Ok (Nat.max 1 k) /\ (Nat.max 1 k <= length eigs)%nat /\
    forall i, (i < length eigs)%nat -> ((i < k)%nat <-> lsum (firstn (S i) eigs) / lsum eigs <= m).
Proof.
  intros P S. unfold set_n_eigs. change (String.eqb "proportion" "value") with false.
  change (String.eqb "proportion" "proportion") with true. cbv iota zeta.
  replace (map (fun v => fdiv (Fin v) (Fin (lsum eigs))) eigs) with (map Fin (proportions eigs))
    by (unfold proportions; rewrite map_map; apply map_ext; intros; symmetry; apply fdiv_fin; lra).
  set (cs := cumsum (map Fin (proportions eigs))).
  set (k := length (filter (fun c => fleb c (Fin m)) cs)).
  assert (Lcs : length cs = length eigs) by (unfold cs, cumsum; now rewrite cumsum_from_length, map_length, proportions_length).
  assert (V : forall i, (i < length eigs)%nat -> nth i cs NaN = Fin (lsum (firstn (Datatypes.S i) eigs) / lsum eigs)).
  { intros i Hi. unfold cs, cumsum. rewrite cumsum_from_nth by (now rewrite proportions_length). f_equal.
    unfold proportions. rewrite firstn_map. unfold Rdiv. rewrite (lsum_map_scal_r (/ lsum eigs) (fun v => v)), map_id. lra. }
  assert (Lk : (k <= length eigs)%nat) by (rewrite <- Lcs; apply filter_length_le').
  assert (Ne : (1 <= length eigs)%nat) by (destruct eigs; [cbn in S; lra|cbn; lia]).
  exists k. split; [destruct (Nat.eqb_spec k 0); f_equal; lia|]. split; [lia|].
  intros i Hi. unfold k. rewrite <- (filter_count_prefix (fun c => fleb c (Fin m)) cs NaN).
  - rewrite V by auto. cbn [fleb]. destruct (Rleb_spec (lsum (firstn (Datatypes.S i) eigs) / lsum eigs) m); split; intros; auto; try discriminate; lra.
  - intros a b L1 L2. rewrite Lcs in L2. rewrite !V by lia. cbn [fleb].
    destruct (Rleb_spec (lsum (firstn (Datatypes.S b) eigs) / lsum eigs) m); [|discriminate]. intros _.
    destruct (Rleb_spec (lsum (firstn (Datatypes.S a) eigs) / lsum eigs) m) as [|C]; [reflexivity|]. exfalso. apply C.
    eapply Rle_trans; [|exact r]. apply Rmult_le_compat_r; [left; now apply Rinv_0_lt_compat|].
    apply lsum_firstn_mono; auto. lia.
  - now rewrite Lcs.
Qed.

Lemma set_n_eigs_methods eigs m method : set_n_eigs eigs m method = Err ValueError <-> method <> "value"%string /\ method <> "proportion"%string.
Proof.
  unfold set_n_eigs. destruct (String.eqb_spec method "value"); [split; [discriminate|tauto]|].
  destruct (String.eqb_spec method "proportion"); [|tauto].
  cbv zeta. destruct (length _ =? 0)%nat; split; try discriminate; tauto.
Qed.

Lemma choose_auto_needs_min nz method eigs : choose_n_eigs nz Auto None method eigs = Err ValueError.
Proof. reflexivity. Qed.

Lemma choose_count nz z m method eigs : (1 <= nz)%nat ->
  choose_n_eigs nz (Count z) m method eigs =
    if (z =? -1)%Z then Ok (Z.of_nat nz)
    else if ((1 <=? z)%Z && (z <=? Z.of_nat nz)%Z)%bool then Ok z else Err OtherError.
Proof.
  intros H. unfold choose_n_eigs, n_eigs_setter.
  destruct (Z.eqb_spec z (-1)); [destruct (Z.leb_spec (Z.of_nat nz) 0); [lia|reflexivity]|].
  destruct (Z.ltb_spec z (-1)); destruct (Z.ltb_spec (Z.of_nat nz) z); destruct (Z.eqb_spec z 0); destruct (Z.leb_spec 1 z); destruct (Z.leb_spec z (Z.of_nat nz)); cbn [orb andb]; try lia; try reflexivity.
  destruct (Z.leb_spec z 0); [lia|reflexivity].
Qed.

Lemma choose_range nz a m method eigs n : length eigs = nz -> (1 <= nz)%nat -> choose_n_eigs nz a m method eigs = Ok n -> (1 <= n <= Z.of_nat nz)%Z.
Proof.
  intros L H. destruct a as [|z].
  - destruct m as [m|]; [|discriminate]. cbn [choose_n_eigs bind].
    destruct (set_n_eigs eigs m method) as [k|] eqn:E; [|discriminate]. cbn [bind]. unfold n_eigs_setter.
    destruct (Z.leb_spec (Z.of_nat k) 0); [discriminate|]. intros F. injection F as <-.
    assert (k <= nz)%nat; [|lia]. subst nz.
    unfold set_n_eigs in E. destruct (String.eqb method "value").
    + injection E as <-. apply filter_length_le'.
    + destruct (String.eqb method "proportion"); [|discriminate]. cbv zeta in E.
      destruct (Nat.eqb_spec (length (filter (fun c => fleb c (Fin m)) (cumsum (map (fun v => fdiv (Fin v) (Fin (lsum eigs))) eigs)))) 0).
      * injection E as <-. lia.
      * injection E as <-. etransitivity; [apply filter_length_le'|]. unfold cumsum. rewrite cumsum_from_length, map_length. lia.
  - rewrite choose_count by auto. destruct (Z.eqb_spec z (-1)); [intros F; injection F as <-; lia|].
    destruct (Z.leb_spec 1 z); destruct (Z.leb_spec z (Z.of_nat nz)); cbn [andb]; try discriminate. intros F; injection F as <-. lia.
Qed.

Lemma choose_auto nz m method eigs k : set_n_eigs eigs m method = Ok k ->
  choose_n_eigs nz Auto (Some m) method eigs = if Nat.eqb k 0 then Err ValueError else Ok (Z.of_nat k).
Proof.
  intros E. cbn [choose_n_eigs]. rewrite E. cbn [bind]. unfold n_eigs_setter.
  destruct (Z.leb_spec (Z.of_nat k) 0); destruct (Nat.eqb_spec k 0); try lia; reflexivity.
Qed.

Lemma ex_set_n_eigs : set_n_eigs [4; 3; 1] 2 "value" = Ok 2%nat /\ set_n_eigs [4; 3; 1] (9 / 10) "proportion" = Ok 2%nat /\
  set_n_eigs [4; 3; 1] (1 / 10) "proportion" = Ok 1%nat.
Proof.
  assert (S : forall v, In v [4; 3; 1] -> 0 <= v) by (intros v [<-|[<-|[<-|[]]]]; lra).
  assert (T : 0 < lsum [4; 3; 1]) by (cbn; lra).
  repeat split.
  - cbn. destruct (Rleb_spec 2 4); [|lra]. destruct (Rleb_spec 2 3); [|lra]. destruct (Rleb_spec 2 1); [lra|]. reflexivity.
  - destruct (set_n_eigs_proportion_rule [4; 3; 1] (9 / 10) S T) as [k [E [_ R]]]. rewrite E.
    assert (1 < k)%nat by (apply (R 1%nat); cbn; [lia|lra]).
    assert (~ (2 < k)%nat) by (intros C; apply (R 2%nat) in C; cbn in *; [lra|lia]). f_equal. lia.
  - destruct (set_n_eigs_proportion_rule [4; 3; 1] (1 / 10) S T) as [k [E [_ R]]]. rewrite E.
    assert (~ (0 < k)%nat) by (intros C; apply (R 0%nat) in C; cbn in *; [lra|lia]). f_equal. lia.
Qed.

(** ** Proportion of variance (C77) *)
Lemma variance_formula ms n eigs : (n <= length eigs)%nat ->
  variance_summary ms (Z.of_nat n) eigs =
    (Fin (lsum (compared ms (length eigs) eigs)), fdiv (Fin (lsum (compared ms n eigs))) (Fin (lsum (compared ms (length eigs) eigs)))).
Proof.
  intros H. unfold variance_summary. cbv zeta.
  assert (E1 : slice (if ms then None else Some 1%Z) None 1 eigs = compared ms (length eigs) eigs).
  { unfold compared. destruct ms; rewrite firstn_all.
    - change (slice None None 1 eigs = eigs). destruct eigs as [|a l]; [reflexivity|].
      pose proof (slice_to (a :: l) (length (a :: l))) as T. rewrite firstn_all in T. rewrite <- T at 2.
      rewrite !(slice_map a) by lia. f_equal. unfold slice_idx, slice_bounds, adjust. change (1 <? 0)%Z with false. cbv beta iota zeta.
      destruct (Z.ltb_spec (Z.of_nat (length (a :: l))) 0); [lia|]. now rewrite Z.min_id.
    - apply (slice_from eigs 1). }
  assert (E2 : slice (if ms then None else Some 1%Z) (Some (Z.of_nat n)) 1 eigs = compared ms n eigs).
  { unfold compared. destruct ms; [apply slice_to|]. change (Some 1%Z) with (Some (Z.of_nat 1)). rewrite (slice_range eigs 1 n) by auto. now rewrite skipn_firstn_comm. }
  now rewrite E1, E2.
Qed.

Lemma compared_mono ms l : (forall v, In v l -> 0 <= v) -> forall i j, (i <= j)%nat -> lsum (compared ms i l) <= lsum (compared ms j l).
Proof.
  intros P i j L. unfold compared. destruct ms; [now apply lsum_firstn_mono|].
  rewrite !skipn_firstn_comm. apply lsum_firstn_mono; [|lia]. intros v Hv. apply P. rewrite <- (firstn_skipn 1 l). apply in_or_app. now right.
Qed.

Lemma var_proportion_spec ms n eigs : (n <= length eigs)%nat -> (forall v, In v eigs -> 0 <= v) ->
  0 < lsum (compared ms (length eigs) eigs) ->
  exists r, snd (variance_summary ms (Z.of_nat n) eigs) = Fin r /\ 0 <= r <= 1 /\
    r = lsum (compared ms n eigs) / lsum (compared ms (length eigs) eigs) /\
    (n = length eigs -> r = 1) /\
    (forall m r', (m <= n)%nat -> snd (variance_summary ms (Z.of_nat m) eigs) = Fin r' -> r' <= r).
Proof.
  intros H P S. eexists. rewrite variance_formula by auto. cbn [snd]. split; [apply fdiv_fin; lra|].
  set (T := lsum (compared ms (length eigs) eigs)) in *.
  assert (I : 0 < / T) by (now apply Rinv_0_lt_compat).
  assert (B0 : 0 <= lsum (compared ms n eigs)).
  { pose proof (compared_mono ms eigs P 0 n ltac:(lia)) as Q. unfold compared at 1 in Q. destruct ms; cbn in Q; exact Q. }
  assert (B1 : lsum (compared ms n eigs) <= T) by (now apply compared_mono).
  split; [split|split; [reflexivity|split]].
  - unfold Rdiv. nra.
  - apply Rmult_le_reg_r with T; auto. unfold Rdiv. rewrite Rmult_assoc, Rinv_l; lra.
  - intros ->. fold T. unfold Rdiv. apply Rinv_r. lra.
  - intros m r' L. rewrite variance_formula by lia. cbn [snd]. fold T. rewrite fdiv_fin by lra. intros E. injection E as <-.
    apply Rmult_le_compat_r; [lra|]. now apply compared_mono.
Qed.

(** ** Precomputed objects and n_eigs = -1 (C78, C79) *)
Lemma pca_run_cubes e1 e2 ms n : (1 <= n)%nat -> (n <= length e1)%nat -> (n <= length e2)%nat ->
  pca_distance_run (Cube e1) (Cube e2) ms (Z.of_nat n) = pca_distance ms (Z.of_nat n) e1 e2.
Proof.
  intros H H1 H2. unfold pca_distance_run, pca_load.
  rewrite !choose_count by lia.
  destruct (Z.eqb_spec (Z.of_nat n) (-1)); [lia|].
  destruct (Z.leb_spec 1 (Z.of_nat n)); [|lia]. destruct (Z.leb_spec (Z.of_nat n) (Z.of_nat (length e1))); [|lia].
  destruct (Z.leb_spec (Z.of_nat n) (Z.of_nat (length e2))); [|lia]. reflexivity.
Qed.

Lemma pca_precomputed_same e1 e2 ms n s1 s2 : (1 <= n)%nat -> (n < length e1)%nat -> (n < length e2)%nat ->
  pca_distance_run (Precomputed e1 s1) (Precomputed e2 s2) ms (Z.of_nat n) = pca_distance_run (Cube e1) (Cube e2) ms (Z.of_nat n) /\
  pca_distance_run (Cube e1) (Precomputed e2 s2) ms (Z.of_nat n) = pca_distance_run (Cube e1) (Cube e2) ms (Z.of_nat n) /\
  pca_distance_run (Precomputed e1 s1) (Cube e2) ms (Z.of_nat n) = pca_distance_run (Cube e1) (Cube e2) ms (Z.of_nat n).
Proof.
  intros H H1 H2. rewrite pca_run_cubes by lia. unfold pca_distance_run, pca_load. rewrite !choose_count by lia. unfold n_eigs_setter.
  destruct (Z.eqb_spec (Z.of_nat n) (-1)); [lia|]. destruct (Z.leb_spec (Z.of_nat n) 0); [lia|].
  destruct (Z.leb_spec 1 (Z.of_nat n)); [|lia].
  destruct (Z.leb_spec (Z.of_nat n) (Z.of_nat (length e1))); [|lia].
  destruct (Z.leb_spec (Z.of_nat n) (Z.of_nat (length e2))); [|lia].
  destruct (Z.leb_spec (Z.of_nat (length e1)) (Z.of_nat n)); [lia|].
  destruct (Z.leb_spec (Z.of_nat (length e2)) (Z.of_nat n)); [lia|]. cbn. auto.
Qed.

Lemma pca_precomputed_refuted : exists e s n r, (1 <= n <= length e)%nat /\
  pca_distance_run (Cube e) (Cube e) true (Z.of_nat n) = Ok (Fin r) /\
  pca_distance_run (Precomputed e s) (Precomputed e s) true (Z.of_nat n) = Err ValueError /\
  snd (pca_load (Precomputed e s) (Z.of_nat n)) <> Some s.
Proof.
  exists [3; 1], 1%Z, 2%nat. eexists. split; [cbn; lia|]. split; [|split].
  - rewrite pca_run_cubes by (cbn; lia). apply pca_distance_formula; cbn; try lia; lra.
  - reflexivity.
  - cbn. discriminate.
Qed.

Lemma pca_all_refuted : exists e1 e2 r1 r2,
  pca_distance_run (Cube e1) (Cube e2) true (-1) = Ok (Fin r1) /\
  pca_distance_run (Cube e1) (Cube e2) true (Z.of_nat (length e1)) = Ok (Fin r2) /\ length e1 = length e2 /\ r1 <> r2.
Proof.
  exists [2; 2], [2; 0].
  destruct (pca_distance_bounded true 2 [2; 2] [2; 0]) as [r2 [E2 [_ Z2]]].
  { repeat split; cbn; [lia| |lra]. intros v [<-|[<-|[]]]; lra. }
  { repeat split; cbn; [lia| |lra]. intros v [<-|[<-|[]]]; lra. }
  destruct (pca_distance_bounded true 1 [2; 2] [2; 0]) as [r1 [E1 [_ Z1]]].
  { repeat split; cbn; [lia| |lra]. intros v [<-|[]]; lra. }
  { repeat split; cbn; [lia| |lra]. intros v [<-|[]]; lra. }
  exists r1, r2. split; [|split; [|split]].
  - exact E1.
  - exact E2.
  - reflexivity.
  - assert (r1 = 0). { apply Z1. reflexivity. }
    intros Er. assert (C : r2 = 0) by congruence. apply Z2 in C. cbn in C. injection C as A _. lra.
Qed.
