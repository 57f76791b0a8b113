(** Proofs about the points and the starting breaks of the VCS fit. *)
From Coq Require Import Reals List Arith Bool Lia Lra Sorted.
From Verif Require Import Lib.PyBase Lib.Fl Lib.Arr Model.StatsUtils Spec.VcsFit Model.VcsFit.
Import ListNotations.
Local Open Scope R_scope.

Lemma half_le : forall n k, (k < n / 2)%nat -> (k < (n - 1) / 2 + 1)%nat /\ (k < n)%nat.
Proof.
  intros n k H. assert (A := Nat.div_mod n 2). assert (B := Nat.mod_upper_bound n 2).
  assert (C := Nat.div_mod (n - 1) 2). assert (D := Nat.mod_upper_bound (n - 1) 2). lia.
Qed.
Lemma seq_cut : forall {A} (f : nat -> A) n m, (m < n)%nat \/ m = 0%nat -> firstn (m - 1) (skipn 1 (map f (seq 0 n))) = map f (seq 1 (m - 1)).
Proof.
  intros A f n m H. destruct n as [|n]; [destruct H as [H|H]; [lia|subst; reflexivity]|]. cbn [seq map skipn].
  destruct H as [H|H]; [|subst; reflexivity]. rewrite firstn_map. f_equal.
  replace n with ((m - 1) + (n - (m - 1)))%nat by lia. rewrite seq_app, firstn_app, seq_length, Nat.sub_diag. cbn.
  rewrite app_nil_r. rewrite <- (seq_length (m - 1) 1) at 1. apply firstn_all.
Qed.
Lemma freqs_inner : forall n, inner_half n (vcs_freqs n) = map (fun k => INR k / INR n) (seq 1 (n / 2 - 1)).
Proof.
  intros n. unfold inner_half, vcs_freqs, tab1. rewrite seq_cut.
  2: { destruct n as [|n]; [now right|]. left. assert (A := Nat.div_mod (S n) 2). assert (B := Nat.mod_upper_bound (S n) 2). lia. }
  apply map_ext_in. intros k Hk. apply in_seq in Hk. destruct (half_le n k) as [H1 H2]; [lia|].
  unfold fftfreq. destruct (Nat.ltb_spec k ((n - 1) / 2 + 1)); [|lia]. apply Rabs_pos_eq.
  apply Rmult_le_pos; [apply pos_INR|]. apply Rlt_le, Rinv_0_lt_compat, lt_0_INR. lia.
Qed.
Lemma list_tab : forall {A} (l : list A) d, l = map (fun k => nth k l d) (seq 0 (length l)).
Proof.
  intros A l d. induction l as [|a l IH]; [reflexivity|]. cbn [length seq map]. f_equal. rewrite IH at 1. rewrite <- seq_shift, map_map. reflexivity.
Qed.
Lemma ps_inner : forall n (ps : list fl), length ps = n -> inner_half n ps = map (fun k => nth k ps NaN) (seq 1 (n / 2 - 1)).
Proof.
  intros n ps L. unfold inner_half. rewrite (list_tab ps NaN) at 1. rewrite L. apply seq_cut.
  destruct n as [|n]; [now right|]. left. assert (A := Nat.div_mod (S n) 2). assert (B := Nat.mod_upper_bound (S n) 2). lia.
Qed.
Lemma combine_map : forall {A B C} (f : A -> B) (g : A -> C) l, combine (map f l) (map g l) = map (fun x => (f x, g x)) l.
Proof. intros A B C f g l. induction l as [|a l IH]; [reflexivity|]. cbn. now rewrite IH. Qed.
Lemma filter_map : forall {A B} (f : A -> B) p l, filter p (map f l) = map f (filter (fun x => p (f x)) l).
Proof. intros A B f p l. induction l as [|a l IH]; [reflexivity|]. cbn. destruct (p (f a)); cbn; now rewrite IH. Qed.
Lemma points_list : forall n ps low high l, length ps = n -> vcs_points n ps low high = Ok l ->
  l = map (fun k => (INR k / INR n, nth k ps NaN))
          (filter (fun k => Rltb (vcs_low n low) (INR k / INR n) && Rleb (INR k / INR n) (vcs_high n high)) (seq 1 (n / 2 - 1))).
Proof.
  intros n ps low high l L H. unfold vcs_points in H. destruct (Nat.eqb n 0); [discriminate|].
  assert (E : l = filter (fun p => Rltb (vcs_low n low) (fst p) && Rleb (fst p) (vcs_high n high)) (combine (inner_half n (vcs_freqs n)) (inner_half n ps))) by congruence.
  rewrite E, freqs_inner, (ps_inner n ps L), combine_map, filter_map. reflexivity.
Qed.
Lemma points_in : forall n ps low high l f p, length ps = n -> vcs_points n ps low high = Ok l ->
  (In (f, p) l <-> exists k, (1 <= k < n / 2)%nat /\ f = INR k / INR n /\ p = nth k ps NaN /\ vcs_low n low < f <= vcs_high n high).
Proof.
  intros n ps low high l f p L H. rewrite (points_list n ps low high l L H). rewrite in_map_iff. split.
  - intros [k [E Hk]]. apply filter_In in Hk as [Hs Hb]. apply in_seq in Hs. apply andb_true_iff in Hb as [B1 B2].
    destruct (Rltb_spec (vcs_low n low) (INR k / INR n)); [|discriminate]. destruct (Rleb_spec (INR k / INR n) (vcs_high n high)); [|discriminate].
    assert (f = INR k / INR n) by congruence. assert (p = nth k ps NaN) by congruence. exists k. subst f. split; [lia|]. now repeat split.
  - intros [k [Hk [-> [-> [B1 B2]]]]]. exists k. split; [reflexivity|]. apply filter_In. split; [apply in_seq; lia|].
    apply andb_true_iff. split; [now destruct (Rltb_spec (vcs_low n low) (INR k / INR n))|now destruct (Rleb_spec (INR k / INR n) (vcs_high n high))].
Qed.
Lemma rmax_ge : forall l v, In v l -> v <= rmax l.
Proof.
  induction l as [|a l IH]; intros v H; [destruct H|]. cbn. destruct H as [<-|H]; [apply Rmax_l|].
  apply Rle_trans with (rmax l); [now apply IH|apply Rmax_r].
Qed.
Lemma freq_in : forall n k, (k < (n - 1) / 2 + 1)%nat -> (k < n)%nat -> In (INR k / INR n) (vcs_freqs n).
Proof.
  intros n k H1 H2. unfold vcs_freqs, tab1. apply in_map_iff. exists k. split; [|apply in_seq; lia]. unfold fftfreq.
  destruct (Nat.ltb_spec k ((n - 1) / 2 + 1)); [|lia]. apply Rabs_pos_eq. apply Rmult_le_pos; [apply pos_INR|]. apply Rlt_le, Rinv_0_lt_compat, lt_0_INR. lia.
Qed.
Lemma filter_all : forall {A} (p : A -> bool) l, (forall x, In x l -> p x = true) -> filter p l = l.
Proof. intros A p l H. induction l as [|a l IH]; [reflexivity|]. cbn. rewrite (H a (or_introl eq_refl)). f_equal. apply IH. intros; apply H; now right. Qed.
Lemma default_points : forall n ps l, length ps = n -> vcs_points n ps None None = Ok l ->
  l = map (fun k => (INR k / INR n, nth k ps NaN)) (seq 1 (n / 2 - 1)).
Proof.
  intros n ps l L H. rewrite (points_list n ps None None l L H). f_equal. apply filter_all. intros k Hk. apply in_seq in Hk.
  destruct (half_le n k) as [H1 H2]; [lia|]. assert (Hn : 0 < INR n) by (apply lt_0_INR; lia).
  assert (Hk1 : 1 <= INR k) by (change 1 with (INR 1); apply le_INR; lia).
  apply andb_true_iff. split.
  - destruct (Rltb_spec (vcs_low n None) (INR k / INR n)) as [_|N]; [reflexivity|]. exfalso. apply N. unfold vcs_low, Rdiv.
    apply Rmult_lt_compat_r; [now apply Rinv_0_lt_compat|lra].
  - destruct (Rleb_spec (INR k / INR n) (vcs_high n None)) as [_|N]; [reflexivity|]. exfalso. apply N. unfold vcs_high.
    assert (G := rmax_ge _ _ (freq_in n k H1 H2)).
    assert (P : 0 <= INR k / INR n) by (apply Rmult_le_pos; [apply pos_INR|apply Rlt_le, Rinv_0_lt_compat; exact Hn]). lra.
Qed.
(** The highest frequency, index n // 2, is never fitted *)
Lemma highest_lost : forall n ps low high l p, (2 <= n)%nat -> length ps = n -> vcs_points n ps low high = Ok l ->
  In (INR (n / 2) / INR n) (vcs_freqs n) /\ (forall f, In f (vcs_freqs n) -> f <= INR (n / 2) / INR n) /\ ~ In (INR (n / 2) / INR n, p) l.
Proof.
  intros n ps low high l p Hn L H. assert (Pn : 0 < INR n) by (apply lt_0_INR; lia).
  assert (A := Nat.div_mod n 2). assert (B := Nat.mod_upper_bound n 2). assert (C := Nat.div_mod (n - 1) 2). assert (D := Nat.mod_upper_bound (n - 1) 2).
  assert (Pi : 0 < / INR n) by now apply Rinv_0_lt_compat.
  split; [|split].
  - unfold vcs_freqs, tab1. apply in_map_iff. exists (n / 2)%nat. split; [|apply in_seq; lia]. unfold fftfreq.
    destruct (Nat.ltb_spec (n / 2) ((n - 1) / 2 + 1)) as [G|G].
    + apply Rabs_pos_eq. apply Rmult_le_pos; [apply pos_INR|lra].
    + assert (E : n = (2 * (n / 2))%nat) by lia. assert (En : INR n = 2 * INR (n / 2)) by (rewrite E at 1; now rewrite mult_INR).
      replace ((INR (n / 2) - INR n) / INR n) with (- (INR (n / 2) / INR n)) by (rewrite En; field; lra). rewrite Rabs_Ropp.
      apply Rabs_pos_eq. apply Rmult_le_pos; [apply pos_INR|lra].
  - intros f Hf. unfold vcs_freqs, tab1 in Hf. apply in_map_iff in Hf as [k [<- Hk]]. apply in_seq in Hk. unfold fftfreq.
    destruct (Nat.ltb_spec k ((n - 1) / 2 + 1)) as [G|G].
    + rewrite Rabs_pos_eq by (apply Rmult_le_pos; [apply pos_INR|lra]). apply Rmult_le_compat_r; [lra|]. apply le_INR. lia.
    + assert (Hkn : INR k <= INR n) by (apply le_INR; lia).
      replace ((INR k - INR n) / INR n) with (- ((INR n - INR k) * / INR n)) by (unfold Rdiv; ring). rewrite Rabs_Ropp, Rabs_pos_eq by (apply Rmult_le_pos; lra).
      apply Rmult_le_compat_r; [lra|]. rewrite <- minus_INR by lia. apply le_INR. lia.
  - intros Hin. apply (points_in n ps low high l _ _ L H) in Hin as [k [Hk [E _]]].
    assert (INR (n / 2) = INR k).
    { apply (f_equal (fun t => t * INR n)) in E. unfold Rdiv in E. rewrite !Rmult_assoc, Rinv_l, !Rmult_1_r in E by lra. exact E. }
    assert ((n / 2)%nat = k) by now apply INR_eq. lia.
Qed.

(** ** The starting breaks *)
Lemma tl_nth : forall (l : list R) i, nth i (tl l) 0 = nth (S i) l 0.
Proof. intros [|a l] i; [destruct i; reflexivity|reflexivity]. Qed.
Lemma firstn_nth : forall (l : list R) m i, (i < m)%nat -> nth i (firstn m l) 0 = nth i l 0.
Proof.
  induction l as [|a l IH]; intros m i H; [now rewrite firstn_nil|]. destruct m as [|m]; [lia|]. destruct i as [|i]; [reflexivity|]. cbn. apply IH. lia.
Qed.
Lemma in_drop_last : forall (l : list R) b, In b (drop_last l) -> In b l.
Proof. intros l b H. unfold drop_last in H. rewrite <- (firstn_skipn (length l - 1) l). apply in_or_app. now left. Qed.
Lemma start_inside : forall x knots bs b, increasing x -> increasing knots ->
  (forall k, In k knots -> hd 0 x <= k <= last x 0) -> vcs_start x knots = Ok bs -> In b bs ->
  hd 0 x < b < last x 0.
Proof.
  intros x knots bs b Ix Ik Hk H Hb. unfold vcs_start in H.
  set (k0 := drop_last (tl knots)) in *.
  set (b1 := match rev k0 with b :: rest => if Reqb b (last x 0) then rest else rev k0 | [] => [] end) in *.
  set (b2 := match b1 with [] => [] | _ => if Reqb (last b1 0) (hd 0 x) then drop_last b1 else b1 end) in *.
  destruct (Nat.leb_spec (length x) 3) as [|Lx]; [discriminate|].
  assert (Last : last x 0 = nth (length x - 1) x 0).
  { clear - Lx. destruct x as [|a x]; [cbn in Lx; lia|]. clear Lx. revert a. induction x as [|c x IH]; intros a; [reflexivity|].
    change (last (a :: c :: x) 0) with (last (c :: x) 0). rewrite IH. cbn [length]. now replace (S (S (length x)) - 1)%nat with (S (S (length x) - 1)) by lia. }
  assert (Hd : hd 0 x = nth 0 x 0) by (now destruct x).
  (* interior knots are strictly inside *)
  assert (Ins : forall c, In c k0 -> hd 0 x < c < last x 0).
  { intros c Hc. destruct (In_nth _ _ 0 Hc) as [i [Hi E]]. unfold k0, drop_last in Hi, E. rewrite firstn_length in Hi.
    rewrite firstn_nth in E by lia. rewrite tl_nth in E.
    assert (Lt : length (tl knots) = (length knots - 1)%nat) by (destruct knots; cbn; lia). rewrite Lt in Hi.
    assert (K0 : nth 0 knots 0 < c) by (rewrite <- E; apply Ik; lia).
    assert (K1 : c < nth (length knots - 1) knots 0) by (rewrite <- E; apply Ik; lia).
    assert (H0 : In (nth 0 knots 0) knots) by (apply nth_In; lia). assert (H1 : In (nth (length knots - 1) knots 0) knots) by (apply nth_In; lia).
    destruct (Hk _ H0), (Hk _ H1). lra. }
  assert (B1 : forall c, In c b1 -> In c k0).
  { intros c Hc. apply in_rev. unfold b1 in Hc. destruct (rev k0) as [|a rest]; [exact Hc|]. destruct (Reqb a (last x 0)); [now right|exact Hc]. }
  assert (B2 : forall c, In c b2 -> In c k0).
  { intros c Hc. apply B1. unfold b2 in Hc. destruct b1 as [|a rest]; [exact Hc|].
    destruct (Reqb (last (a :: rest) 0) (hd 0 x)); [now apply in_drop_last|exact Hc]. }
  destruct b2 as [|a rest] eqn:Q.
  - assert (bs = [1 / 2 * (nth (length x - 1) x 0 + nth (length x - 3) x 0)]) as -> by congruence. destruct Hb as [<-|[]].
    rewrite Last, Hd. assert (nth 0 x 0 < nth (length x - 3) x 0) by (apply Ix; lia).
    assert (nth (length x - 3) x 0 < nth (length x - 1) x 0) by (apply Ix; lia). lra.
  - assert (bs = a :: rest) as -> by congruence. apply Ins. now apply B2.
Qed.
(** The frequencies of the fit are increasing *)
Lemma x_increasing : forall n ps low high l, length ps = n -> vcs_points n ps low high = Ok l -> increasing (vcs_x l).
Proof.
  intros n ps low high l L H. rewrite (points_list n ps low high l L H). unfold vcs_x. rewrite map_map. cbn [fst].
  match goal with |- context [filter ?f _] => set (p := f) end. assert (Srt : StronglySorted lt (filter p (seq 1 (n / 2 - 1)))).
  { assert (S0 : forall s m, StronglySorted lt (seq s m)).
    { intros s m. revert s. induction m as [|m IH]; intros s; [constructor|]. cbn. constructor; [apply IH|]. apply Forall_forall. intros y Hy. apply in_seq in Hy. lia. }
    specialize (S0 1%nat (n / 2 - 1)%nat). induction S0 as [|a r Sr IH F]; [constructor|]. cbn. destruct (p a); [|exact IH]. constructor; [exact IH|].
    apply Forall_forall. intros y Hy. apply filter_In in Hy as [Hy _]. rewrite Forall_forall in F. now apply F. }
  assert (Rng : forall k, In k (filter p (seq 1 (n / 2 - 1))) -> (1 <= k)%nat /\ (k < n)%nat).
  { intros k Hk. apply filter_In in Hk as [Hk _]. apply in_seq in Hk. destruct (half_le n k); lia. }
  intros i j Hij. rewrite map_length in Hij. set (q := filter p (seq 1 (n / 2 - 1))) in *.
  rewrite !(nth_indep (map (fun k => ln (INR k / INR n) / ln 10) q) 0 ((fun k => ln (INR k / INR n) / ln 10) 0%nat)) by (rewrite map_length; lia).
  rewrite !(map_nth (fun k => ln (INR k / INR n) / ln 10)).
  assert (Lt : (nth i q 0 < nth j q 0)%nat).
  { clear - Srt Hij. revert i j Hij. induction Srt as [|a r Sr IH F]; intros i j Hij; [cbn in Hij; lia|]. destruct j as [|j]; [lia|]. destruct i as [|i].
    - cbn. rewrite Forall_forall in F. apply F. apply nth_In. cbn in Hij. lia.
    - cbn. apply IH. cbn in Hij. lia. }
  destruct (Rng (nth i q 0%nat)) as [R1 R2]; [apply nth_In; lia|].
  assert (Pn : 0 < INR n) by (apply lt_0_INR; lia).
  assert (Q1 : 0 < INR (nth i q 0%nat)) by (apply lt_0_INR; lia). assert (Q2 : INR (nth i q 0%nat) < INR (nth j q 0%nat)) by now apply lt_INR.
  assert (L10 : 0 < ln 10) by (rewrite <- ln_1; apply ln_increasing; lra).
  assert (Pi : 0 < / INR n) by now apply Rinv_0_lt_compat.
  apply Rmult_lt_compat_r; [now apply Rinv_0_lt_compat|]. apply ln_increasing; [apply Rmult_lt_0_compat; assumption|]. apply Rmult_lt_compat_r; assumption.
Qed.

(** The points of the fit, for limits that are given or not *)
Lemma low_none : forall n k, (1 <= k < n / 2)%nat -> vcs_low n None < INR k / INR n.
Proof.
  intros n k Hk. destruct (half_le n k) as [H1 H2]; [lia|]. assert (Hn : 0 < INR n) by (apply lt_0_INR; lia).
  assert (Hk1 : 1 <= INR k) by (change 1 with (INR 1); apply le_INR; lia). unfold vcs_low, Rdiv.
  apply Rmult_lt_compat_r; [now apply Rinv_0_lt_compat|lra].
Qed.
Lemma high_none : forall n k, (1 <= k < n / 2)%nat -> INR k / INR n <= vcs_high n None.
Proof.
  intros n k Hk. destruct (half_le n k) as [H1 H2]; [lia|]. unfold vcs_high. assert (G := rmax_ge _ _ (freq_in n k H1 H2)).
  assert (P : 0 <= INR k / INR n) by (apply Rmult_le_pos; [apply pos_INR|apply Rlt_le, Rinv_0_lt_compat, lt_0_INR; lia]). lra.
Qed.
Lemma points_exact : forall n ps low high l f p, length ps = n -> vcs_points n ps low high = Ok l ->
  (In (f, p) l <-> exists k, (1 <= k < n / 2)%nat /\ f = INR k / INR n /\ p = nth k ps NaN /\ within low high f).
Proof.
  intros n ps low high l f p L H. rewrite (points_in n ps low high l f p L H). split; intros [k [Hk [E [Ep W]]]]; exists k; (split; [exact Hk|]); (split; [exact E|]); (split; [exact Ep|]).
  - destruct W as [W1 W2]. split; [destruct low; [exact W1|exact I]|destruct high; [exact W2|exact I]].
  - destruct W as [W1 W2]. subst f. split; [destruct low as [c|]; [exact W1|now apply low_none]|destruct high as [c|]; [exact W2|now apply high_none]].
Qed.
Lemma points_ok : forall n ps low high, (0 < n)%nat -> is_ok (vcs_points n ps low high) = true.
Proof. intros n ps low high H. unfold vcs_points. destruct (Nat.eqb_spec n 0); [lia|reflexivity]. Qed.
