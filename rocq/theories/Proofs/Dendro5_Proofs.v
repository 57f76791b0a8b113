From Coq Require Import Reals List Bool ZArith Lia Lra Arith.
From Verif Require Import Lib.PyBase Lib.RSum Lib.Fl Lib.Arr Lib.Hist Spec.Blank Spec.Bins Spec.Distrib Spec.Tree Model.StatsUtils Model.Dendro.
From Verif Require Import Proofs.StatsUtils_Proofs Proofs.Hist_Proofs Proofs.Dendro_Proofs Proofs.Dendro3_Proofs Proofs.Dendro4_Proofs.
Import ListNotations.
Local Open Scope R_scope.

Definition allowed (nbins : nbins_state) : Prop := nbins = NBest \/ (exists n, (1 <= n)%nat /\ nbins = NInt n).

Section S.
Variables (num1 num2 : list nat) (vals1 vals2 : list (list R)) (cut : nat) (nbins : nbins_state).
Hypothesis C : comparable num1 num2 vals1 vals2 cut.
Hypothesis NB : nbins = NBest \/ (exists n, (1 <= n)%nat /\ nbins = NInt n).

Lemma stat_dist : exists D d, let nb := nb_list num1 num2 cut nbins in
  let h1 := tab1 cut (fun i => row (nth i vals1 []) (nth i vals2 []) (nth i vals1 []) (nth i nb 0%nat) (list_max nb)) in
  let h2 := tab1 cut (fun i => row (nth i vals1 []) (nth i vals2 []) (nth i vals2 []) (nth i nb 0%nat) (list_max nb)) in
  hellinger_stat h1 h2 = Fin d /\ 0 <= d <= 1 /\ d = rsum cut D / INR cut /\ forall i, (i < cut)%nat -> hellinger (nth i h1 []) (nth i h2 []) 1 = Fin (D i).
Proof.
  destruct (nb_pos _ _ _ _ _ _ C NB) as [_ P]. destruct C as [C1 [_ [_ [_ [_ C6]]]]]. set (nb := nb_list num1 num2 cut nbins) in *.
  destruct (choose_d cut (fun i => hellinger (row (nth i vals1 []) (nth i vals2 []) (nth i vals1 []) (nth i nb 0%nat) (list_max nb)) (row (nth i vals1 []) (nth i vals2 []) (nth i vals2 []) (nth i nb 0%nat) (list_max nb)) 1)) as [D HD].
  { intros i Hi. destruct (C6 i Hi) as [_ [_ [V1 V2]]]. apply row_dist; auto. }
  exists D, (rsum cut D / INR cut). cbn zeta. assert (N : 0 < INR cut) by (apply lt_0_INR; lia). split; [apply stat_mean; [exact C1|]; intros i Hi; now apply HD|].
  split; [|split; [reflexivity|]].
  - assert (A : 0 <= rsum cut D) by (apply rsum_nonneg; intros i Hi; apply HD; exact Hi).
    assert (B : rsum cut D <= INR cut) by (rewrite <- (Rmult_1_r (INR cut)), <- (rsum_const cut 1); apply rsum_le; intros i Hi; apply HD; exact Hi).
    split; [apply Rmult_le_pos; [exact A|left; now apply Rinv_0_lt_compat]|]. apply Rmult_le_reg_r with (INR cut); [exact N|]. unfold Rdiv. rewrite Rmult_assoc, Rinv_l by lra. lra.
  - intros i Hi. rewrite !tab1_nth by exact Hi. now apply HD.
Qed.

Lemma stat_spec : exists nb h1 h2 d D, histogram_stat num1 num2 vals1 vals2 cut nbins = Ok (nb, h1, h2, Fin d) /\
  length nb = cut /\ length h1 = cut /\ length h2 = cut /\ 0 <= d <= 1 /\ d = rsum cut D / INR cut /\
  forall i, (i < cut)%nat ->
    let z1 := zscores (nth i vals1 []) in let z2 := zscores (nth i vals2 []) in let k := nth i nb 0%nat in
    (forall n, nbins = NInt n -> k = n) /\
    (nbins = NBest -> (2 * (k * k) <= nth i num1 0 + nth i num2 0 < 2 * (S k * S k))%nat) /\
    (1 <= k)%nat /\
    (exists lo hi, is_min lo (z1 ++ z2) /\ is_max hi (z1 ++ z2) /\
      nth i h1 [] = padded (shares z1 (even_edges lo hi k)) (list_max nb - k) /\
      nth i h2 [] = padded (shares z2 (even_edges lo hi k)) (list_max nb - k)) /\
    hellinger (nth i h1 []) (nth i h2 []) 1 = Fin (D i).
Proof.
  destruct stat_dist as [D [d [E1 [E2 [E3 E4]]]]]. pose proof (stat_core _ _ _ _ _ _ C NB) as Q. cbn zeta in *. rewrite E1 in Q. destruct (nb_pos _ _ _ _ _ _ C NB) as [N P].
  destruct C as [C1 [C2 [C3 [_ [_ C6]]]]]. destruct (nb_spec num1 num2 cut nbins C2 C3 N) as [L H].
  eexists _, _, _, d, D. split; [exact Q|]. rewrite !tab1_length. split; [exact L|]. do 2 (split; [reflexivity|]). split; [exact E2|]. split; [exact E3|]. intros i Hi. destruct (C6 i Hi) as [_ [_ [V1 V2]]].
  split; [|split; [|split; [|split]]].
  - intros n En. rewrite H by exact Hi. now rewrite En.
  - intros En. rewrite H by exact Hi. rewrite En. destruct (sqrt_bounds (nth i num1 0 + nth i num2 0)%nat) as [A B]. cbn zeta in A, B. split; assumption.
  - apply P. exact Hi.
  - assert (NE : zscores (nth i vals1 []) ++ zscores (nth i vals2 []) <> []) by (intro Z; apply app_eq_nil in Z; destruct Z as [Z _]; now apply (varied_ne _ (zscores_varied _ V1))).
    eexists _, _. split; [apply (lo_min _ NE)|]. split; [apply (hi_max _ NE)|]. rewrite !tab1_nth by exact Hi. split; reflexivity.
  - apply E4. exact Hi.
Qed.
End S.

Lemma comparable_sym num1 num2 vals1 vals2 cut : comparable num1 num2 vals1 vals2 cut -> comparable num2 num1 vals2 vals1 cut.
Proof. intros [C1 [C2 [C3 [C4 [C5 C6]]]]]. repeat split; auto; apply C6; assumption. Qed.
Lemma nb_sym num1 num2 cut nbins : (cut <= length num1)%nat -> (cut <= length num2)%nat -> (forall l, nbins <> NArr l) -> nb_list num2 num1 cut nbins = nb_list num1 num2 cut nbins.
Proof.
  intros L1 L2 N. destruct (nb_spec num1 num2 cut nbins L1 L2 N) as [A B]. destruct (nb_spec num2 num1 cut nbins L2 L1 N) as [A' B'].
  apply (nth_ext _ _ 0%nat 0%nat); [congruence|]. intros i Hi. rewrite A' in Hi. rewrite B, B' by exact Hi. now rewrite Nat.add_comm.
Qed.
Lemma row_sym v1 v2 w nb maxb : varied v1 -> row v2 v1 w nb maxb = row v1 v2 w nb maxb.
Proof.
  intros V. unfold row, common_edges. pose proof (varied_ne _ (zscores_varied v1 V)) as NE. now rewrite <- (lo_comm (zscores v1) (zscores v2)), <- (hi_comm (zscores v1) (zscores v2)) by exact NE.
Qed.
Lemma stat_sym num1 num2 vals1 vals2 cut nbins nb h1 h2 d : comparable num1 num2 vals1 vals2 cut -> nbins = NBest \/ (exists n, (1 <= n)%nat /\ nbins = NInt n) ->
  histogram_stat num1 num2 vals1 vals2 cut nbins = Ok (nb, h1, h2, d) -> histogram_stat num2 num1 vals2 vals1 cut nbins = Ok (nb, h2, h1, d).
Proof.
  intros C NB E. pose proof (stat_core _ _ _ _ _ _ C NB) as Q. pose proof (stat_core _ _ _ _ _ _ (comparable_sym _ _ _ _ _ C) NB) as Q'. cbn zeta in Q, Q'.
  destruct (stat_dist _ _ _ _ _ _ C NB) as [D [dd [E1 [_ [E3 E4]]]]]. cbn zeta in *.
  destruct (nb_pos _ _ _ _ _ _ C NB) as [N P]. destruct C as [C1 [C2 [C3 [_ [_ C6]]]]]. rewrite (nb_sym num1 num2) in Q' by assumption. set (K := nb_list num1 num2 cut nbins) in *.
  rewrite Q, E1 in E. rewrite Q'. inversion E; subst nb h1 h2 d; clear E.
  rewrite (tab1_ext cut (fun i => row (nth i vals2 []) (nth i vals1 []) (nth i vals2 []) (nth i K 0%nat) (list_max K)) (fun i => row (nth i vals1 []) (nth i vals2 []) (nth i vals2 []) (nth i K 0%nat) (list_max K))) by (intros i Hi; apply row_sym; now apply C6).
  rewrite (tab1_ext cut (fun i => row (nth i vals2 []) (nth i vals1 []) (nth i vals1 []) (nth i K 0%nat) (list_max K)) (fun i => row (nth i vals1 []) (nth i vals2 []) (nth i vals1 []) (nth i K 0%nat) (list_max K))) by (intros i Hi; apply row_sym; now apply C6).
  do 2 f_equal. rewrite (stat_mean cut _ _ D); [now rewrite E3|exact C1|]. intros i Hi. rewrite <- (E4 i Hi). rewrite !tab1_nth by exact Hi. destruct (C6 i Hi) as [_ [_ [V1 V2]]].
  destruct (row_hist _ _ _ _ _ V1 V2 (or_introl eq_refl) (P i Hi)) as [A1 [_ A3]]. destruct (row_hist _ _ _ _ _ V1 V2 (or_intror eq_refl) (P i Hi)) as [B1 [_ B3]]. apply hellinger_sym; auto; congruence.
Qed.
Lemma stat_same num vals cut nbins : comparable num num vals vals cut -> nbins = NBest \/ (exists n, (1 <= n)%nat /\ nbins = NInt n) ->
  exists nb h, histogram_stat num num vals vals cut nbins = Ok (nb, h, h, Fin 0).
Proof.
  intros C NB. pose proof (stat_core _ _ _ _ _ _ C NB) as Q. cbn zeta in Q. destruct (nb_pos _ _ _ _ _ _ C NB) as [N P]. destruct C as [C1 [C2 [C3 [_ [_ C6]]]]]. rewrite Q. eexists _, _. do 2 f_equal.
  rewrite (stat_mean cut _ _ (fun _ => 0)); [|exact C1|].
  - f_equal. rewrite rsum_zero by reflexivity. unfold Rdiv. ring.
  - intros i Hi. destruct (C6 i Hi) as [_ [_ [V1 V2]]]. destruct (row_hist _ _ _ _ _ V1 V1 (or_introl eq_refl) (P i Hi)) as [A1 [_ A3]].
    destruct (hellinger_zero _ _ 1 Rlt_0_1 A1 A1 eq_refl) as [d [E [_ Z]]]. rewrite E. f_equal. apply Z. set (r := row _ _ _ _ _). clearbody r. clear. intros a b H. unfold valid_pairs in H. apply in_flat_map in H. destruct H as [[u v] [H1 H2]].
    assert (G : u = v) by (clear H2; induction r as [|x r IH]; [destruct H1|]; cbn in H1; destruct H1 as [H1|H1]; [now inversion H1|now apply IH]). subst v. destruct u; try contradiction. destruct H2 as [H2|[]]. now inversion H2.
Qed.
Lemma varied_affine a b v : 0 < a -> varied v -> varied (map (fun x => a * x + b) v).
Proof.
  intros A [x [y [Hx [Hy N]]]]. exists (a * x + b), (a * y + b). split; [now apply (in_map (fun x => a * x + b))|]. split; [now apply (in_map (fun x => a * x + b))|]. intros E. apply N. apply (Rmult_eq_reg_l a); lra.
Qed.
Lemma stat_affine num1 num2 vals1 vals2 cut nbins a b : comparable num1 num2 vals1 vals2 cut -> nbins = NBest \/ (exists n, (1 <= n)%nat /\ nbins = NInt n) -> 0 < a ->
  histogram_stat num1 num2 (map (map (fun x => a * x + b)) vals1) vals2 cut nbins = histogram_stat num1 num2 vals1 vals2 cut nbins.
Proof.
  intros C NB A. assert (C' : comparable num1 num2 (map (map (fun x => a * x + b)) vals1) vals2 cut).
  { destruct C as [C1 [C2 [C3 [C4 [C5 C6]]]]]. split; [exact C1|]. split; [exact C2|]. split; [exact C3|]. split; [now rewrite map_length|]. split; [exact C5|]. intros i Hi. destruct (C6 i Hi) as [Q1 [Q2 [Q3 Q4]]]. repeat split; auto.
    change (@nil R) with (map (fun x => a * x + b) []) at 1. rewrite map_nth. now apply varied_affine. }
  pose proof (stat_core _ _ _ _ _ _ C NB) as Q. pose proof (stat_core _ _ _ _ _ _ C' NB) as Q'. cbn zeta in *. rewrite Q, Q'. destruct C as [C1 [C2 [C3 [C4 [C5 C6]]]]]. set (K := nb_list num1 num2 cut nbins).
  assert (Z : forall i, (i < cut)%nat -> zscores (nth i (map (map (fun x => a * x + b)) vals1) []) = zscores (nth i vals1 [])).
  { intros i Hi. change (@nil R) with (map (fun x => a * x + b) []) at 1. rewrite map_nth. apply zscores_affine; [exact A|]. now apply C6. }
  rewrite (tab1_ext cut (fun i => row (nth i (map (map (fun x => a * x + b)) vals1) []) (nth i vals2 []) (nth i (map (map (fun x => a * x + b)) vals1) []) (nth i K 0%nat) (list_max K)) (fun i => row (nth i vals1 []) (nth i vals2 []) (nth i vals1 []) (nth i K 0%nat) (list_max K))) by (intros i Hi; unfold row, common_edges; now rewrite !Z by exact Hi).
  rewrite (tab1_ext cut (fun i => row (nth i (map (map (fun x => a * x + b)) vals1) []) (nth i vals2 []) (nth i vals2 []) (nth i K 0%nat) (list_max K)) (fun i => row (nth i vals1 []) (nth i vals2 []) (nth i vals2 []) (nth i K 0%nat) (list_max K))) by (intros i Hi; unfold row, common_edges; now rewrite !Z by exact Hi).
  reflexivity.
Qed.
Lemma stat_again num1 num2 vals1 vals2 cut nbins nb h1 h2 d : histogram_stat num1 num2 vals1 vals2 cut nbins = Ok (nb, h1, h2, d) ->
  histogram_stat num1 num2 vals1 vals2 cut (NArr nb) = Err OtherError.
Proof. reflexivity. Qed.
Lemma stat_requested num1 num2 vals1 vals2 cut n nb h1 h2 d : comparable num1 num2 vals1 vals2 cut -> (1 <= n)%nat -> histogram_stat num1 num2 vals1 vals2 cut (NInt n) = Ok (nb, h1, h2, d) ->
  length h1 = cut /\ length h2 = cut /\ forall i, (i < cut)%nat -> (exists v1, nth i h1 [] = map Fin v1 /\ length v1 = n) /\ (exists v2, nth i h2 [] = map Fin v2 /\ length v2 = n).
Proof.
  intros C N E. destruct (stat_spec _ _ _ _ _ _ C (or_intror (ex_intro _ n (conj N eq_refl)))) as [nb' [h1' [h2' [d' [D [E' [L [L1 [L2 [_ [_ H]]]]]]]]]]]. rewrite E in E'. inversion E'; subst nb h1 h2 d. clear E'. split; [exact L1|]. split; [exact L2|].
  assert (M : list_max nb' = n).
  { assert (G : forall x, In x nb' -> x = n) by (intros x Hx; apply (In_nth _ _ 0%nat) in Hx; destruct Hx as [i [Hi <-]]; rewrite L in Hi; destruct (H i Hi) as [Q _]; now apply Q).
    destruct nb' as [|x r]; [destruct C as [C1 _]; cbn in L; lia|]. apply Nat.le_antisymm; [apply list_max_le; apply Forall_forall; intros y Hy; rewrite (G y Hy); lia|].
    pose proof (proj1 (list_max_le (x :: r) (list_max (x :: r))) (le_n _)) as F. rewrite Forall_forall in F. rewrite <- (G x (or_introl eq_refl)) at 1. apply F. now left. }
  intros i Hi. destruct (H i Hi) as [K [_ [_ [[lo [hi [_ [_ [A B]]]]] _]]]]. cbn zeta in *. rewrite (K n eq_refl), M, Nat.sub_diag in A, B. rewrite A, B. unfold padded. cbn [repeat]. rewrite !app_nil_r.
  split; eexists; (split; [reflexivity|]); unfold shares; rewrite tab1_length; unfold even_edges; rewrite tab1_length; lia.
Qed.
Lemma stat_mecdf_nan num1 num2 vals1 vals2 cut nb h1 h2 d i : comparable num1 num2 vals1 vals2 cut -> histogram_stat num1 num2 vals1 vals2 cut NBest = Ok (nb, h1, h2, d) ->
  (i < cut)%nat -> (nth i nb 0 < list_max nb)%nat -> mecdf_row (nth i h1 []) = repeat NaN (list_max nb) /\ mecdf_row (nth i h2 []) = repeat NaN (list_max nb).
Proof.
  intros C E Hi HM. destruct (stat_spec _ _ _ _ _ _ C (or_introl eq_refl)) as [nb' [h1' [h2' [d' [D [E' [L [L1 [L2 [_ [_ H]]]]]]]]]]]. rewrite E in E'. inversion E'; subst nb h1 h2 d. clear E'.
  destruct (H i Hi) as [_ [_ [_ [[lo [hi [_ [_ [A B]]]]] _]]]]. cbn zeta in *. rewrite A, B. set (k := nth i nb' 0%nat) in *.
  assert (W : forall z, In NaN (padded (shares z (even_edges lo hi k)) (list_max nb' - k)) /\ length (padded (shares z (even_edges lo hi k)) (list_max nb' - k)) = list_max nb').
  { intros z. split; [unfold padded; apply in_or_app; right; destruct (list_max nb' - k)%nat eqn:Z; [lia|now left]|]. rewrite padded_length. unfold shares. rewrite tab1_length. unfold even_edges. rewrite tab1_length. lia. }
  split; (rewrite mecdf_nan by apply W); f_equal; apply W.
Qed.
Lemma hist_not_requested mn n values hs i j : make_hists mn (Some (NumBins n)) values = Ok hs -> (i < j < length values)%nat ->
  (mn <= length (nth i values []))%nat -> (mn <= length (nth j values []))%nat -> Nat.sqrt (length (nth j values [])) <> n ->
  length (snd (nth j hs ([], []))) = Nat.sqrt (length (nth j values [])) /\ length (snd (nth j hs ([], []))) <> n.
Proof.
  intros E [H1 H2] Li Lj N. destruct (hists_bins _ _ _ _ E) as [L H]. specialize (H j H2). cbn zeta in H. destruct (Nat.ltb_spec (length (nth j values [])) mn); [lia|].
  assert (X : existsb (fun w => negb (Nat.ltb (length w) mn)) (firstn j values) = true).
  { apply existsb_exists. exists (nth i values []). split; [|destruct (Nat.ltb_spec (length (nth i values [])) mn); [lia|reflexivity]].
    assert (K : nth i values [] = nth i (firstn j values) []) by (rewrite <- (firstn_skipn j values) at 1; rewrite app_nth1; [reflexivity|rewrite firstn_length; lia]).
    rewrite K. apply nth_In. rewrite firstn_length. lia. }
  rewrite X in H. destruct H as [e [B Q]]. rewrite Q. cbn [snd]. destruct (auto_edges _ _ _ B) as [_ [LE _]]. rewrite counts_length, LE. lia.
Qed.
Lemma hist_first mn b values hs i : make_hists mn (Some b) values = Ok hs -> (i < length values)%nat -> (mn <= length (nth i values []))%nat ->
  (forall j, (j < i)%nat -> (length (nth j values []) < mn)%nat) ->
  exists edges, bin_edges (nth i values []) b = Ok edges /\ nth i hs ([], []) = (mid edges, counts (nth i values []) edges).
Proof.
  intros E Hi Li F. destruct (hists_bins _ _ _ _ E) as [L H]. specialize (H i Hi). cbn zeta in H. destruct (Nat.ltb_spec (length (nth i values [])) mn); [lia|].
  assert (X : existsb (fun w => negb (Nat.ltb (length w) mn)) (firstn i values) = false).
  { destruct (existsb _ _) eqn:X; [|reflexivity]. exfalso. apply existsb_exists in X. destruct X as [w [W1 W2]]. apply (In_nth _ _ []) in W1. destruct W1 as [j [Hj <-]]. rewrite firstn_length in Hj.
    assert (K : nth j (firstn i values) [] = nth j values []) by (rewrite <- (firstn_skipn i values) at 2; rewrite app_nth1; [reflexivity|rewrite firstn_length; lia]). rewrite K in W2. specialize (F j ltac:(lia)). destruct (Nat.ltb_spec (length (nth j values [])) mn); [discriminate|lia]. }
  rewrite X in H. exact H.
Qed.
