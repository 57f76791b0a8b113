(** Blank pixels around an image in the delta variance (C313). *)
From Coq Require Import Reals List Bool ZArith Arith Lra Lia Permutation.
From Verif Require Import Lib.PyBase Lib.RSum Lib.Fl Lib.Arr Spec.Blank Spec.DeltaVar Spec.Orders Spec.Turned Spec.TurnedDeltaVar Spec.DeltaVarFrame Model.StatsUtils Model.Scf Model.DeltaVar
  Proofs.Fl_Proofs Proofs.TurnedDeltaVar_Proofs Proofs.DeltaVar_Proofs Proofs.DeltaVar3_Proofs.
From Verif Require Proofs.Tsallis_Proofs Proofs.PspecFit_Proofs Proofs.Scf2_Proofs.
Import ListNotations.
Local Open Scope R_scope.

Definition later {A} (n m : nat) (f : nat -> A) : list A := tab1 m (fun i => f (n + i)%nat).
Lemma tab_later {A} n m (f : nat -> A) : tab1 (n + m) f = tab1 n f ++ later n m f.
Proof.
  unfold later. rewrite tab1_app. apply tab1_ext. intros i Hi. destruct (Nat.ltb_spec i n); [reflexivity|]. f_equal. lia.
Qed.
Lemma nonnan_blank n m (f : nat -> fl) : (forall i, (i < m)%nat -> f (n + i)%nat = NaN) -> nonnan (later n m f) = [].
Proof.
  intros H. unfold later. rewrite (tab1_ext m _ (fun _ => NaN)) by exact H. unfold nonnan, tab1. generalize (seq 0 m). induction l; [reflexivity|exact IHl].
Qed.
Section Frame.
  Variables (n m : nat).
  Lemma nansum_frame f : (forall i, (i < m)%nat -> f (n + i)%nat = NaN) -> nansum (tab1 (n + m) f) = nansum (tab1 n f).
  Proof. intros H. unfold nansum. rewrite tab_later. unfold nonnan. rewrite filter_app. fold (nonnan (later n m f)). rewrite (nonnan_blank n m f H), app_nil_r. reflexivity. Qed.
  Lemma nanmean_frame f : (forall i, (i < m)%nat -> f (n + i)%nat = NaN) -> nanmean (tab1 (n + m) f) = nanmean (tab1 n f).
  Proof. intros H. unfold nanmean. rewrite (nansum_frame f H). unfold nancount. rewrite tab_later. unfold nonnan at 1. rewrite filter_app. fold (nonnan (later n m f)). rewrite (nonnan_blank n m f H), app_nil_r. reflexivity. Qed.
  Lemma finite_frame f : (forall i, (i < m)%nat -> f (n + i)%nat = NaN) -> length (filter is_fin (tab1 (n + m) f)) = length (filter is_fin (tab1 n f)).
  Proof.
    intros H. rewrite tab_later, filter_app, app_length. unfold later. rewrite (tab1_ext m _ (fun _ => NaN)) by exact H.
    replace (filter is_fin (tab1 m (fun _ : nat => NaN))) with (@nil fl); [cbn; lia|]. unfold tab1. generalize (seq 0 m). induction l; [reflexivity|exact IHl].
  Qed.
  Lemma fill_zero x : fill0 (fmul x (Fin 0)) = 0.
  Proof. destruct x; cbn; [ring|..]; unfold sinf; repeat match goal with |- context [Rltb ?a ?b] => destruct (Rltb_spec a b) end; try reflexivity; lra. Qed.
  Lemma nan_r x : fmul x NaN = NaN.
  Proof. now destruct x. Qed.
  Lemma delvar_frame a w lag : (forall i, (i < m)%nat -> a (n + i)%nat = NaN) -> (forall i, (i < m)%nat -> w (n + i)%nat = NaN) ->
    delvar (tab1 (n + m) a) (tab1 (n + m) w) lag = delvar (tab1 n a) (tab1 n w) lag.
  Proof.
    intros HA HW. unfold delvar. cbv zeta. rewrite (nanmean_frame a HA). set (mu := nanmean (tab1 n a)). clearbody mu. rewrite !tab1_map, !Tsallis_Proofs.map2_tab.
    rewrite (nansum_frame w HW). rewrite (nansum_frame (fun i => fmul (fsqr (fsub (a i) mu)) (w i))), (nansum_frame (fun i => fmul (fsqr (fsqr (fsub (a i) mu))) (w i))), (finite_frame (fun i => fsub (a i) mu)).
    - reflexivity.
    - intros i Hi. now rewrite (HA i Hi).
    - intros i Hi. rewrite (HW i Hi). apply nan_r.
    - intros i Hi. rewrite (HW i Hi). apply nan_r.
  Qed.
  Lemma conv_frame k (a : nat -> fl) i : (forall j, (j < m)%nat -> fill0 (a (n + j)%nat) = 0) -> conv1 (n + m) k a i = conv1 n k a i.
  Proof. intros H. unfold conv1. rewrite rsum_split. rewrite (rsum_zero m) by (intros j Hj; rewrite (H j Hj); ring). ring. Qed.
  Lemma deltavar_frame core annulus d w wmax mf pn lag : (forall j, (j < m)%nat -> w (n + j)%nat = 0) ->
    (forall i, (i < m)%nat -> rsum n (fun j => core (n + i)%nat j * w j) <= mf * wmax \/ rsum n (fun j => annulus (n + i)%nat j * w j) <= mf * wmax) ->
    deltavar_lag core annulus (tab1 (n + m) d) (tab1 (n + m) w) wmax mf pn lag = deltavar_lag core annulus (tab1 n d) (tab1 n w) wmax mf pn lag.
  Proof.
    intros W0 FAR. unfold deltavar_lag. cbv zeta. f_equal. rewrite !conv_tab, !weight_tab.
    assert (CW : forall k i, conv1 (n + m) k (fun j => Fin (w j)) i = conv1 n k (fun j => Fin (w j)) i) by (intros k i; apply conv_frame; intros j Hj; cbn; apply W0, Hj).
    assert (CD : forall k i, conv1 (n + m) k (fun j => fmul (d j) (Fin (w j))) i = conv1 n k (fun j => fmul (d j) (Fin (w j))) i).
    { intros k i. apply conv_frame. intros j Hj. rewrite (W0 j Hj). apply fill_zero. }
    assert (LOW : forall i, (i < m)%nat -> mask_low (mf * wmax) (conv1 n core (fun j => Fin (w j)) (n + i)) = NaN \/ mask_low (mf * wmax) (conv1 n annulus (fun j => Fin (w j)) (n + i)) = NaN).
    { intros i Hi. unfold mask_low, conv1. cbn [fill0]. destruct (FAR i Hi) as [L|L]; [left|right]; match goal with |- (if Rleb ?x ?y then _ else _) = _ => destruct (Rleb_spec x y); [reflexivity|contradiction] end. }
    rewrite <- (delvar_frame (conv_at n core annulus d w (mf * wmax) pn) (weight_at n core annulus w (mf * wmax))).
    - f_equal; apply tab1_ext; intros i _; unfold conv_at, weight_at, ratio; cbv zeta; now rewrite ?CW, ?CD.
    - intros i Hi. unfold conv_at, ratio. cbv zeta.
      assert (N : fsub (fdiv (Fin (conv1 n core (fun j => fmul (d j) (Fin (w j))) (n + i))) (mask_low (mf * wmax) (conv1 n core (fun j => Fin (w j)) (n + i))))
                      (fdiv (Fin (conv1 n annulus (fun j => fmul (d j) (Fin (w j))) (n + i))) (mask_low (mf * wmax) (conv1 n annulus (fun j => Fin (w j)) (n + i)))) = NaN).
      { destruct (LOW i Hi) as [-> | ->]; [reflexivity|]. cbn [fdiv]. match goal with |- fsub ?x NaN = NaN => now destruct x end. }
      rewrite N. destruct pn; [|reflexivity]. now destruct (is_nan _).
    - intros i Hi. unfold weight_at. destruct (LOW i Hi) as [-> | ->]; [reflexivity|apply nan_r].
  Qed.
End Frame.

(** ** An image in a larger one *)
Lemma filter_parts {A} (f : A -> bool) l : Permutation l (filter f l ++ filter (fun x => negb (f x)) l).
Proof.
  induction l as [|x l IH]; [constructor|]. cbn [filter]. destruct (f x); cbn [negb app]; [now constructor|]. etransitivity; [apply perm_skip, IH|]. apply Permutation_middle.
Qed.
Section Image.
  Variables (n0 n1 N0 N1 b0 b1 : nat).
  Hypotheses (H0 : (b0 + n0 <= N0)%nat) (H1 : (b1 + n1 <= N1)%nat).
  Definition place (i : nat) : nat := ((b0 + i / n1) * N1 + (b1 + i mod n1))%nat.
  Definition inside (k : nat) : bool := of_image n0 n1 b0 b1 (k / N1) (k mod N1).
  Definition listing : list nat := map place (seq 0 (n0 * n1)) ++ filter (fun k => negb (inside k)) (seq 0 (N0 * N1)).
  Lemma place_split i : (i < n0 * n1)%nat -> (place i / N1 = b0 + i / n1 /\ place i mod N1 = b1 + i mod n1)%nat.
  Proof. intros H. destruct (split_index _ _ _ H). apply join_index. lia. Qed.
  Lemma inside_iff k : inside k = true <-> (b0 <= k / N1 < b0 + n0 /\ b1 <= k mod N1 < b1 + n1)%nat.
  Proof. unfold inside, of_image. rewrite !andb_true_iff, !Nat.leb_le, !Nat.ltb_lt. lia. Qed.
  Lemma places : Permutation (map place (seq 0 (n0 * n1))) (filter inside (seq 0 (N0 * N1))).
  Proof.
    apply NoDup_Permutation.
    - apply PspecFit_Proofs.NoDup_map_in; [|apply seq_NoDup]. intros i j Hi Hj E. apply in_seq in Hi, Hj.
      destruct (place_split i) as [A B]; [lia|]. destruct (place_split j) as [C D]; [lia|]. rewrite E in A, B. assert (n1 <> 0)%nat by lia.
      rewrite (Nat.div_mod i n1), (Nat.div_mod j n1) by assumption. replace (i / n1)%nat with (j / n1)%nat by lia. lia.
    - apply NoDup_filter, seq_NoDup.
    - intros k. rewrite in_map_iff, filter_In, in_seq, inside_iff. split.
      + intros (i & <- & Hi). apply in_seq in Hi. destruct (place_split i) as [A B]; [lia|]. destruct (split_index n0 n1 i) as [C D]; [lia|]. rewrite A, B. unfold place. nia.
      + intros (_ & A & B). exists ((k / N1 - b0) * n1 + (k mod N1 - b1))%nat. destruct (join_index n1 (k / N1 - b0) (k mod N1 - b1)) as [C D]; [lia|]. split.
        * unfold place. rewrite C, D. assert (N1 <> 0)%nat by lia. pose proof (Nat.div_mod k N1) as V. replace (b0 + (k / N1 - b0))%nat with (k / N1)%nat by lia. replace (b1 + (k mod N1 - b1))%nat with (k mod N1) by lia. lia.
        * apply in_seq. nia.
  Qed.
  Lemma listing_perm : Permutation listing (seq 0 (N0 * N1)).
  Proof. unfold listing. rewrite places. symmetry. apply filter_parts. Qed.
  Definition outer : nat := length (filter (fun k => negb (inside k)) (seq 0 (N0 * N1))).
  Lemma size_parts : (n0 * n1 + outer = N0 * N1)%nat.
  Proof. pose proof (Permutation_length listing_perm) as L. unfold listing in L. rewrite app_length, map_length, !seq_length in L. exact L. Qed.
  Definition pos (i : nat) : nat := nth i listing 0%nat.
  Lemma pos_reorders : reorders pos (N0 * N1).
  Proof.
    unfold reorders. replace (map pos (seq 0 (N0 * N1))) with listing; [exact listing_perm|].
    pose proof (Permutation_length listing_perm) as L. rewrite seq_length in L. rewrite <- L. exact (list_tab listing 0%nat).
  Qed.
  Lemma pos_image i : (i < n0 * n1)%nat -> pos i = place i.
  Proof.
    intros H. unfold pos, listing. rewrite app_nth1 by now rewrite map_length, seq_length. rewrite (nth_indep _ 0%nat (place 0)) by now rewrite map_length, seq_length.
    rewrite map_nth, seq_nth by exact H. reflexivity.
  Qed.
  Lemma pos_outer i : (i < outer)%nat -> (pos (n0 * n1 + i) < N0 * N1)%nat /\ inside (pos (n0 * n1 + i)) = false.
  Proof.
    intros H. assert (I : In (pos (n0 * n1 + i)) (filter (fun k => negb (inside k)) (seq 0 (N0 * N1)))).
    { unfold pos, listing. rewrite app_nth2 by (rewrite map_length, seq_length; lia). apply nth_In. rewrite map_length, seq_length. unfold outer in H. lia. }
    apply filter_In in I. destruct I as [I J]. apply in_seq in I. split; [lia|]. now apply negb_true_iff.
  Qed.
  Lemma deltavar_framed core annulus around image weights wmax mf pn lag :
    (forall Y X, (Y < N0)%nat -> (X < N1)%nat -> of_image n0 n1 b0 b1 Y X = false ->
      collected n0 n1 b0 b1 core weights Y X <= mf * wmax \/ collected n0 n1 b0 b1 annulus weights Y X <= mf * wmax) ->
    deltavar_lag (on_grid N1 core) (on_grid N1 annulus) (row_by_row N0 N1 (framed n0 n1 b0 b1 around image)) (row_by_row N0 N1 (framed n0 n1 b0 b1 (fun _ _ => 0) weights)) wmax mf pn lag =
    deltavar_lag (on_grid n1 core) (on_grid n1 annulus) (row_by_row n0 n1 image) (row_by_row n0 n1 weights) wmax mf pn lag.
  Proof.
    intros FAR. unfold row_by_row.
    rewrite <- (deltavar_order (N0 * N1) pos pos_reorders (on_grid N1 core) (on_grid N1 annulus)).
    set (D := fun i => framed n0 n1 b0 b1 around image (pos i / N1) (pos i mod N1)). set (W := fun i => framed n0 n1 b0 b1 (fun _ _ => 0) weights (pos i / N1) (pos i mod N1)).
    assert (FI : forall A (ar im : nat -> nat -> A) i, (i < n0 * n1)%nat -> framed n0 n1 b0 b1 ar im (pos i / N1) (pos i mod N1) = im (i / n1)%nat (i mod n1)%nat).
    { intros A ar im i Hi. rewrite (pos_image i Hi). destruct (place_split i Hi) as [E1 E2]. destruct (split_index _ _ _ Hi). unfold framed. fold (inside (place i)).
      rewrite (proj2 (inside_iff (place i))) by (rewrite E1, E2; lia). rewrite E1, E2. f_equal; lia. }
    change (deltavar_lag (fun i j => on_grid N1 core (pos i) (pos j)) (fun i j => on_grid N1 annulus (pos i) (pos j)) (tab1 (N0 * N1) D) (tab1 (N0 * N1) W) wmax mf pn lag =
      deltavar_lag (on_grid n1 core) (on_grid n1 annulus) (tab1 (n0 * n1) (fun i => image (i / n1)%nat (i mod n1)%nat)) (tab1 (n0 * n1) (fun i => weights (i / n1)%nat (i mod n1)%nat)) wmax mf pn lag).
    rewrite <- size_parts. rewrite deltavar_frame.
    - rewrite (tab1_ext (n0 * n1) D (fun i => image (i / n1)%nat (i mod n1)%nat)) by (intros i Hi; now apply FI).
      rewrite (tab1_ext (n0 * n1) W (fun i => weights (i / n1)%nat (i mod n1)%nat)) by (intros i Hi; now apply FI).
      apply deltavar_ext; intros i j Hi Hj; unfold on_grid; rewrite (pos_image i Hi), (pos_image j Hj); destruct (place_split i Hi) as [-> ->], (place_split j Hj) as [-> ->]; f_equal; lia.
    - intros j Hj. unfold W, framed. destruct (pos_outer j Hj) as [_ O]. unfold inside in O. now rewrite O.
    - intros i Hi. destruct (pos_outer i Hi) as [L O]. set (k := pos (n0 * n1 + i)) in *. destruct (split_index _ _ _ L) as [L0 L1].
      assert (C : forall K, rsum (n0 * n1) (fun j => on_grid N1 K k (pos j) * W j) = collected n0 n1 b0 b1 K weights (k / N1) (k mod N1)).
      { intros K. unfold collected. rewrite (Scf2_Proofs.rsum_flatten n0 n1 (fun y x => K (Z.of_nat (k / N1) - Z.of_nat (b0 + y))%Z (Z.of_nat (k mod N1) - Z.of_nat (b1 + x))%Z * weights y x)).
        apply rsum_ext. intros j Hj. unfold W. rewrite (FI R _ _ j Hj). unfold on_grid. rewrite (pos_image j Hj). destruct (place_split j Hj) as [-> ->]. reflexivity. }
      rewrite !C. apply FAR; [exact L0|exact L1|exact O].
  Qed.
End Image.

(** ** One blank pixel beside two *)
Definition near_core (a b : Z) : R := if ((a =? 0) && (Z.abs b <=? 1))%Z%bool then 1 else 0.
Definition near_annulus (a b : Z) : R := if ((a =? 0) && (Z.abs b =? 1))%Z%bool then 1 else 0.
Definition pair_image (y x : nat) : fl := if (x =? 0)%nat then Fin 0 else Fin 2.
Ltac on_grids := repeat match goal with |- context [on_grid ?n ?k ?i ?j] => first [change (on_grid n k i j) with 1 | change (on_grid n k i j) with 0] end.
Ltac above := repeat match goal with |- context [Rleb ?a ?b] => destruct (Rleb_spec a b); [exfalso; lra|] end.
Lemma two_conv : conv_arr (on_grid 2 near_core) (on_grid 2 near_annulus) [Fin 0; Fin 2] [1; 1] (/ 100 * 1) false = [Fin (-1); Fin 1].
Proof. rewrite conv_arr_tab by (try lra; reflexivity). unfold tab1. cbn [length seq map rsum nth fmul fill0]. on_grids. above. f_equal; [|f_equal]; f_equal; field. Qed.
Lemma two_weights : conv_weight (on_grid 2 near_core) (on_grid 2 near_annulus) [1; 1] (/ 100 * 1) = [Fin 2; Fin 2].
Proof. rewrite conv_weight_tab. unfold tab1. cbn [length seq map rsum nth]. on_grids. above. f_equal; [|f_equal]; f_equal; field. Qed.
Lemma three_conv v : conv_arr (on_grid 3 near_core) (on_grid 3 near_annulus) [Fin 0; Fin 2; Fin v] [1; 1; 0] (/ 100 * 1) false = [Fin (-1); Fin 1; Fin 0].
Proof. rewrite conv_arr_tab by (try lra; reflexivity). unfold tab1. cbn [length seq map rsum nth fmul fill0]. on_grids. above. apply fin3; field. Qed.
Lemma three_weights : conv_weight (on_grid 3 near_core) (on_grid 3 near_annulus) [1; 1; 0] (/ 100 * 1) = [Fin 2; Fin 2; Fin 1].
Proof. rewrite conv_weight_tab. unfold tab1. cbn [length seq map rsum nth]. on_grids. above. apply fin3; field. Qed.
Lemma area_cases : kern_area 1 = 1%Z \/ kern_area 1 = 2%Z.
Proof. pose proof kern_area_1. lia. Qed.
Lemma two_value : deltavar_lag (on_grid 2 near_core) (on_grid 2 near_annulus) [Fin 0; Fin 2] [1; 1] 1 (/ 100) false 1 = (NaN, NaN).
Proof.
  unfold deltavar_lag. cbv zeta. rewrite two_conv, two_weights. set (A := [Fin (-1); Fin 1]). set (W := [Fin 2; Fin 2]).
  assert (HA : Forall blankable A) by (repeat constructor). assert (HW : Forall weight_value W) by (repeat constructor; cbn; lra).
  assert (SW : lsum (fins W) = 4) by (unfold W, lsum; cbn; ring).
  assert (M : rmean (fins A) = 0) by (unfold A, rmean, lsum; cbn; field).
  assert (VP : valid_pairs A W = [(-1, 2); (1, 2)]) by reflexivity.
  assert (M2 : weighted_moment 2 A W = 1) by (unfold weighted_moment; rewrite SW, M, VP; unfold lsum; cbn; field).
  assert (M4 : weighted_moment 4 A W = 1) by (unfold weighted_moment; rewrite SW, M, VP; unfold lsum; cbn; field).
  destruct (delvar_value A W 1 HA HW) as [E _]; [rewrite SW; lra|]. rewrite E, M2, M4.
  assert (NI : 0 < n_indep A 1) by (unfold n_indep; apply sqrt_lt_R0; apply IZR_lt; cbn [A fins length]; destruct area_cases as [-> | ->]; reflexivity).
  rewrite fdiv_fin by lra. unfold store_delvar. replace (1 - 1 ^ 2) with 0 by ring. rewrite sqrt_0. unfold Rdiv. rewrite Rmult_0_l. cbn [fleb is_nan].
  destruct (Rleb_spec 0 0); [|exfalso; lra]. now rewrite orb_true_r.
Qed.
Lemma three_value v : fst (deltavar_lag (on_grid 3 near_core) (on_grid 3 near_annulus) [Fin 0; Fin 2; Fin v] [1; 1; 0] 1 (/ 100) false 1) = Fin (4 / 5).
Proof.
  unfold deltavar_lag. cbv zeta. rewrite three_conv, three_weights. set (A := [Fin (-1); Fin 1; Fin 0]). set (W := [Fin 2; Fin 2; Fin 1]).
  assert (HA : Forall blankable A) by (repeat constructor). assert (HW : Forall weight_value W) by (repeat constructor; cbn; lra).
  assert (SW : lsum (fins W) = 5) by (unfold W, lsum; cbn; ring).
  assert (M : rmean (fins A) = 0) by (unfold A, rmean, lsum; cbn; field).
  assert (VP : valid_pairs A W = [(-1, 2); (1, 2); (0, 1)]) by reflexivity.
  assert (M2 : weighted_moment 2 A W = 4 / 5) by (unfold weighted_moment; rewrite SW, M, VP; unfold lsum; cbn; field).
  assert (M4 : weighted_moment 4 A W = 4 / 5) by (unfold weighted_moment; rewrite SW, M, VP; unfold lsum; cbn; field).
  destruct (delvar_value A W 1 HA HW) as [E _]; [rewrite SW; lra|]. rewrite E, M2, M4.
  assert (NI : 0 < n_indep A 1) by (unfold n_indep; apply sqrt_lt_R0; apply IZR_lt; cbn [A fins length]; destruct area_cases as [-> | ->]; reflexivity).
  rewrite fdiv_fin by lra. unfold store_delvar.
  assert (S' : 0 < sqrt (4 / 5 - (4 / 5) ^ 2) / n_indep A 1) by (apply Rdiv_lt_0_compat; [apply sqrt_lt_R0; lra|exact NI]).
  cbn [fleb is_nan]. destruct (Rleb_spec (4 / 5) 0); [exfalso; lra|]. destruct (Rleb_spec (sqrt (4 / 5 - (4 / 5) ^ 2) / n_indep A 1) 0); [exfalso; lra|]. reflexivity.
Qed.
Lemma near_frame_refuted v :
  even_kernel near_core /\ even_kernel near_annulus /\
  deltavar_lag (on_grid 3 near_core) (on_grid 3 near_annulus) (row_by_row 1 3 (framed 1 2 0 0 (fun _ _ => Fin v) pair_image)) (row_by_row 1 3 (framed 1 2 0 0 (fun _ _ => 0) (fun _ _ => 1))) 1 (/ 100) false 1 <>
  deltavar_lag (on_grid 2 near_core) (on_grid 2 near_annulus) (row_by_row 1 2 pair_image) (row_by_row 1 2 (fun _ _ => 1)) 1 (/ 100) false 1.
Proof.
  split; [|split].
  - intros a b. unfold near_core. rewrite Z.abs_opp. split; [|reflexivity]. now destruct a.
  - intros a b. unfold near_annulus. rewrite Z.abs_opp. split; [|reflexivity]. now destruct a.
  - change (row_by_row 1 3 (framed 1 2 0 0 (fun _ _ => Fin v) pair_image)) with [Fin 0; Fin 2; Fin v]. change (row_by_row 1 3 (framed 1 2 0 0 (fun _ _ => 0) (fun _ _ => 1))) with [1; 1; 0].
    change (row_by_row 1 2 pair_image) with [Fin 0; Fin 2]. change (row_by_row 1 2 (fun _ _ : nat => 1)) with [1; 1]. intros E. apply (f_equal fst) in E. rewrite three_value, two_value in E. discriminate.
Qed.
