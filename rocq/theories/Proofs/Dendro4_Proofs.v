From Coq Require Import Reals List Bool ZArith Lia Lra Arith.
From Verif Require Import Lib.PyBase Lib.RSum Lib.Fl Lib.Arr Lib.Hist Spec.Blank Spec.Bins Spec.Distrib Spec.Tree Model.StatsUtils Model.Dendro.
From Verif Require Import Proofs.Fl_Proofs Proofs.FlAlg_Proofs Proofs.StatsUtils_Proofs Proofs.StatsUtils2_Proofs Proofs.Hist_Proofs Proofs.Bispec3_Proofs Proofs.Dendro_Proofs Proofs.Dendro3_Proofs.
Import ListNotations.
Local Open Scope R_scope.

Definition lo_of (l : list R) : R := match l with [] => 0 | x :: r => lmin x r end.
Definition hi_of (l : list R) : R := match l with [] => 0 | x :: r => lmax x r end.
Lemma lmin_in x l : In (lmin x l) (x :: l).
Proof.
  revert x. induction l as [|z l IH]; intros x; cbn [lmin]; [now left|]. destruct (IH (Rmin x z)) as [E|E]; [|right; now right].
  rewrite <- E. unfold Rmin. destruct (Rle_dec x z); [now left|right; now left].
Qed.
Lemma lo_min l : l <> [] -> is_min (lo_of l) l.
Proof. destruct l as [|x r]; [contradiction|]. intros _. split; [apply lmin_in|]. destruct (lmin_le x r) as [A B]. intros y [<-|H]; [exact A|now apply B]. Qed.
Lemma hi_max l : l <> [] -> is_max (hi_of l) l.
Proof. destruct l as [|x r]; [contradiction|]. intros _. split; [apply lmax_in|]. destruct (lmax_ge x r) as [A B]. intros y [<-|H]; [exact A|now apply B]. Qed.
Lemma min_eq a b l l' : is_min a l -> is_min b l' -> (forall x, In x l <-> In x l') -> a = b.
Proof. intros [A1 A2] [B1 B2] H. apply Rle_antisym; [apply A2; now apply H|apply B2; now apply H]. Qed.
Lemma max_eq a b l l' : is_max a l -> is_max b l' -> (forall x, In x l <-> In x l') -> a = b.
Proof. intros [A1 A2] [B1 B2] H. apply Rle_antisym; [apply B2; now apply H|apply A2; now apply H]. Qed.
Lemma lo_comm a b : a <> [] -> lo_of (a ++ b) = lo_of (b ++ a).
Proof.
  intros N. apply (min_eq _ _ (a ++ b) (b ++ a)); [apply lo_min; destruct a; [contradiction|discriminate]|apply lo_min; intro E; apply app_eq_nil in E; tauto|].
  intros x. rewrite !in_app_iff. tauto.
Qed.
Lemma hi_comm a b : a <> [] -> hi_of (a ++ b) = hi_of (b ++ a).
Proof.
  intros N. apply (max_eq _ _ (a ++ b) (b ++ a)); [apply hi_max; destruct a; [contradiction|discriminate]|apply hi_max; intro E; apply app_eq_nil in E; tauto|].
  intros x. rewrite !in_app_iff. tauto.
Qed.
Lemma varied_ne v : varied v -> v <> [].
Proof. intros [x [_ [H _]]] ->. destruct H. Qed.
Lemma varied_lt v w : varied v -> lo_of (v ++ w) < hi_of (v ++ w).
Proof.
  intros V. assert (NE : v ++ w <> []) by (intro E; apply app_eq_nil in E; destruct E as [E _]; now apply (varied_ne v V)).
  destruct (lo_min _ NE) as [_ A]. destruct (hi_max _ NE) as [_ B]. destruct V as [x [y [Hx [Hy N]]]].
  assert (Ix : In x (v ++ w)) by (apply in_or_app; now left). assert (Iy : In y (v ++ w)) by (apply in_or_app; now left).
  pose proof (A x Ix). pose proof (A y Iy). pose proof (B x Ix). pose proof (B y Iy). destruct (Rlt_or_le (lo_of (v ++ w)) (hi_of (v ++ w))); [assumption|]. exfalso. apply N. lra.
Qed.

Definition common_edges (v1 v2 : list R) (nb : nat) : list R := even_edges (lo_of (zscores v1 ++ zscores v2)) (hi_of (zscores v1 ++ zscores v2)) nb.
Definition row (v1 v2 w : list R) (nb maxb : nat) : list fl := padded (shares (zscores w) (common_edges v1 v2 nb)) (maxb - nb).

Definition body (maxb : nat) (t : (list R * list R) * nat) : result (list fl * list fl) :=
  let '((data1, data2), nbin) := t in
  let s1 := standardize (map Fin data1) in
  let s2 := standardize (map Fin data2) in
  b <- common_histogram_bins 1 1 s1 s2 (Some (nbin + 1)%nat) false None None ;;
  match b with
  | None => Err OtherError
  | Some (edges, _) => h1 <- hist_row s1 edges maxb ;; h2 <- hist_row s2 edges maxb ;; Ok (h1, h2)
  end.

Lemma in_lims v1 v2 x : varied v1 -> varied v2 -> In x (zscores v1) \/ In x (zscores v2) -> lo_of (zscores v1 ++ zscores v2) <= x <= hi_of (zscores v1 ++ zscores v2).
Proof.
  intros V1 V2 H. assert (NE : zscores v1 ++ zscores v2 <> []) by (intro E; apply app_eq_nil in E; destruct E as [E _]; now apply (varied_ne _ (zscores_varied v1 V1))).
  assert (Ix : In x (zscores v1 ++ zscores v2)) by (apply in_or_app; exact H). split; [now apply (lo_min _ NE)|now apply (hi_max _ NE)].
Qed.
Lemma body_val v1 v2 nb maxb : varied v1 -> varied v2 -> (1 <= nb <= maxb)%nat ->
  body maxb ((v1, v2), nb) = Ok (row v1 v2 v1 nb maxb, row v1 v2 v2 nb maxb).
Proof.
  intros V1 V2 H. unfold body. rewrite !std_val by assumption. pose proof (varied_ne _ (zscores_varied v1 V1)) as N1. pose proof (varied_ne _ (zscores_varied v2 V2)) as N2.
  destruct (limits (zscores v1) (zscores v2) N1 N2) as [lo [hi [I1 [I2 E]]]]. rewrite E by lia. cbn [bind].
  assert (NE : zscores v1 ++ zscores v2 <> []) by (intro Z; apply app_eq_nil in Z; tauto).
  assert (El : lo = lo_of (zscores v1 ++ zscores v2)) by (apply (min_eq _ _ _ _ I1 (lo_min _ NE)); tauto).
  assert (Eh : hi = hi_of (zscores v1 ++ zscores v2)) by (apply (max_eq _ _ _ _ I2 (hi_max _ NE)); tauto).
  pose proof (varied_lt (zscores v1) (zscores v2) (zscores_varied v1 V1)) as LT. subst lo hi.
  rewrite row_val; [|lia|exact LT|exact N1|intros x Hx; apply in_lims; auto]. cbn [bind].
  rewrite row_val; [|lia|exact LT|exact N2|intros x Hx; apply in_lims; auto]. reflexivity.
Qed.

Lemma each_tab {A B} (f : A -> result B) (l : list A) (d : A) (g : nat -> B) : (forall i, (i < length l)%nat -> f (nth i l d) = Ok (g i)) -> each f l = Ok (tab1 (length l) g).
Proof.
  revert g. induction l as [|a l IH]; intros g H; [reflexivity|]. cbn [each]. pose proof (H 0%nat ltac:(cbn; lia)) as H0. cbn [nth] in H0. rewrite H0. cbn [bind]. rewrite (IH (fun i => g (S i))) by (intros i Hi; apply (H (S i)); cbn; lia). cbn [bind length].
  f_equal. apply (nth_ext _ _ (g 0%nat) (g 0%nat)); [cbn [length]; now rewrite !tab1_length|]. intros [|i] Hi; cbn [length] in Hi; rewrite tab1_length in Hi.
  - cbn [nth]. rewrite tab1_nth by lia. reflexivity.
  - cbn [nth]. rewrite !tab1_nth by lia. reflexivity.
Qed.

Definition nb_list (num1 num2 : list nat) (cut : nat) (nbins : nbins_state) : list nat :=
  match nbins with
  | NBest => map (fun p => Z.to_nat (Int_part (sqrt (INR (fst p + snd p) / 2)))) (combine (firstn cut num1) (firstn cut num2))
  | NInt n => repeat n (length (firstn cut num1))
  | NArr _ => []
  end.
Lemma stat_unfold num1 num2 vals1 vals2 cut nbins : (forall l, nbins <> NArr l) ->
  histogram_stat num1 num2 vals1 vals2 cut nbins =
  (let nb := nb_list num1 num2 cut nbins in
   rows <- each (body (list_max nb)) (combine (combine (firstn cut vals1) (firstn cut vals2)) nb) ;;
   Ok (nb, map fst rows, map snd rows, hellinger_stat (map fst rows) (map snd rows))).
Proof. destruct nbins as [|n|l]; intros H; try reflexivity. exfalso. now apply (H l). Qed.

Lemma sqrt_bounds n : let k := Z.to_nat (Int_part (sqrt (INR n / 2))) in (2 * (k * k) <= n)%nat /\ (n < 2 * (S k * S k))%nat.
Proof.
  cbn zeta. set (s := sqrt (INR n / 2)). assert (Hs0 : 0 <= s) by apply sqrt_pos. assert (SQ : s * s = INR n / 2) by (apply sqrt_sqrt; pose proof (pos_INR n); lra).
  destruct (base_Int_part s) as [B1 B2]. assert (P : (0 <= Int_part s)%Z) by (apply Z.lt_succ_r, lt_IZR; rewrite succ_IZR; lra).
  assert (K : INR (Z.to_nat (Int_part s)) = IZR (Int_part s)) by (rewrite INR_IZR_INZ, Z2Nat.id; auto). set (k := Z.to_nat (Int_part s)) in *. pose proof (pos_INR k).
  split.
  - apply INR_le. rewrite !mult_INR. replace (INR 2) with 2 by reflexivity. assert (INR k * INR k <= s * s) by (apply Rmult_le_compat; lra). lra.
  - apply INR_lt. rewrite !mult_INR, (S_INR k). replace (INR 2) with 2 by reflexivity. assert (s * s < (INR k + 1) * (INR k + 1)) by (apply Rmult_le_0_lt_compat; lra). lra.
Qed.

Lemma nb_spec num1 num2 cut nbins : (cut <= length num1)%nat -> (cut <= length num2)%nat -> (forall l, nbins <> NArr l) ->
  length (nb_list num1 num2 cut nbins) = cut /\
  forall i, (i < cut)%nat -> nth i (nb_list num1 num2 cut nbins) 0%nat =
    match nbins with NInt n => n | _ => Z.to_nat (Int_part (sqrt (INR (nth i num1 0%nat + nth i num2 0%nat) / 2))) end.
Proof.
  intros L1 L2 N. destruct nbins as [|n|l]; [| |exfalso; now apply (N l)]; cbn [nb_list].
  - assert (LC : length (combine (firstn cut num1) (firstn cut num2)) = cut) by (rewrite combine_length, !firstn_length; lia). split; [now rewrite map_length|].
    intros i Hi. set (f := fun p : nat * nat => _). rewrite (nth_indep _ 0%nat (f (0, 0)%nat)) by (rewrite map_length; lia). rewrite (map_nth f). rewrite combine_nth by (rewrite !firstn_length; lia). unfold f. cbn [fst snd].
    assert (FN : forall l : list nat, (cut <= length l)%nat -> nth i (firstn cut l) 0%nat = nth i l 0%nat).
    { intros l Hl. rewrite <- (firstn_skipn cut l) at 2. rewrite app_nth1; [reflexivity|]. rewrite firstn_length. lia. }
    now rewrite !FN by assumption.
  - rewrite firstn_length. replace (Nat.min cut (length num1)) with cut by lia. split; [apply repeat_length|]. intros i Hi. rewrite nth_indep with (d' := n) by (now rewrite repeat_length). apply nth_repeat.
Qed.
Lemma nb_pos num1 num2 vals1 vals2 cut nbins : comparable num1 num2 vals1 vals2 cut -> nbins = NBest \/ (exists n, (1 <= n)%nat /\ nbins = NInt n) ->
  (forall l, nbins <> NArr l) /\ forall i, (i < cut)%nat -> (1 <= nth i (nb_list num1 num2 cut nbins) 0 <= list_max (nb_list num1 num2 cut nbins))%nat.
Proof.
  intros [C1 [C2 [C3 [C4 [C5 C6]]]]] NB. assert (N : forall l, nbins <> NArr l) by (intros l; destruct NB as [->|[n [_ ->]]]; discriminate). split; [exact N|].
  destruct (nb_spec num1 num2 cut nbins C2 C3 N) as [L H]. intros i Hi. split.
  - rewrite H by exact Hi. destruct NB as [->|[n [Hn ->]]]; [|exact Hn]. destruct (C6 i Hi) as [Q1 [Q2 _]]. destruct (sqrt_bounds (nth i num1 0 + nth i num2 0)%nat) as [_ U]. cbn zeta in U.
    destruct (Z.to_nat (Int_part (sqrt (INR (nth i num1 0%nat + nth i num2 0%nat) / 2)))) as [|k]; [|lia]. exfalso. cbn in U. lia.
  - pose proof (proj1 (list_max_le (nb_list num1 num2 cut nbins) (list_max (nb_list num1 num2 cut nbins))) (le_n _)) as F. rewrite Forall_forall in F. apply F. apply nth_In. now rewrite L.
Qed.

Lemma tab1_fst {A B} n (f : nat -> A) (g : nat -> B) : map fst (tab1 n (fun i => (f i, g i))) = tab1 n f.
Proof. now rewrite tab1_map. Qed.
Lemma tab1_snd {A B} n (f : nat -> A) (g : nat -> B) : map snd (tab1 n (fun i => (f i, g i))) = tab1 n g.
Proof. now rewrite tab1_map. Qed.

Lemma stat_core num1 num2 vals1 vals2 cut nbins : comparable num1 num2 vals1 vals2 cut -> nbins = NBest \/ (exists n, (1 <= n)%nat /\ nbins = NInt n) ->
  let nb := nb_list num1 num2 cut nbins in
  let h1 := tab1 cut (fun i => row (nth i vals1 []) (nth i vals2 []) (nth i vals1 []) (nth i nb 0%nat) (list_max nb)) in
  let h2 := tab1 cut (fun i => row (nth i vals1 []) (nth i vals2 []) (nth i vals2 []) (nth i nb 0%nat) (list_max nb)) in
  histogram_stat num1 num2 vals1 vals2 cut nbins = Ok (nb, h1, h2, hellinger_stat h1 h2).
Proof.
  intros C NB. cbn zeta. destruct (nb_pos _ _ _ _ _ _ C NB) as [N P]. rewrite stat_unfold by exact N. cbn zeta. destruct C as [C1 [C2 [C3 [C4 [C5 C6]]]]]. destruct (nb_spec num1 num2 cut nbins C2 C3 N) as [L _].
  set (nb := nb_list num1 num2 cut nbins) in *.
  assert (LC : length (combine (combine (firstn cut vals1) (firstn cut vals2)) nb) = cut) by (rewrite !combine_length, !firstn_length, L; lia).
  rewrite (each_tab _ _ (([], []), 0%nat) (fun i => (row (nth i vals1 []) (nth i vals2 []) (nth i vals1 []) (nth i nb 0%nat) (list_max nb), row (nth i vals1 []) (nth i vals2 []) (nth i vals2 []) (nth i nb 0%nat) (list_max nb)))).
  - rewrite LC. cbn [bind]. now rewrite tab1_fst, tab1_snd.
  - intros i Hi. rewrite LC in Hi. rewrite !combine_nth; [|rewrite !firstn_length; lia|rewrite combine_length, !firstn_length, L; lia].
    assert (FN : forall l : list (list R), (cut <= length l)%nat -> nth i (firstn cut l) [] = nth i l []).
    { intros l Hl. rewrite <- (firstn_skipn cut l) at 2. rewrite app_nth1; [reflexivity|]. rewrite firstn_length. lia. }
    rewrite !FN by assumption. destruct (C6 i Hi) as [_ [_ [V1 V2]]]. apply body_val; auto.
Qed.

(** The Hellinger distance of two rows. *)
Lemma row_hist v1 v2 w nb maxb : varied v1 -> varied v2 -> w = v1 \/ w = v2 -> (1 <= nb <= maxb)%nat ->
  Forall hist_value (row v1 v2 w nb maxb) /\ lsum (fins (row v1 v2 w nb maxb)) = 1 /\ length (row v1 v2 w nb maxb) = maxb.
Proof.
  intros V1 V2 Hw H. assert (LT := varied_lt (zscores v1) (zscores v2) (zscores_varied v1 V1)). assert (V : varied w) by (destruct Hw; now subst).
  assert (NE := varied_ne _ (zscores_varied w V)). assert (IN : forall x, In x (zscores w) -> lo_of (zscores v1 ++ zscores v2) <= x <= hi_of (zscores v1 ++ zscores v2)) by (intros x Hx; apply in_lims; auto; destruct Hw; subst; auto).
  unfold row, common_edges. split; [apply padded_hist; intros x Hx; exact (shares_nonneg _ _ _ _ _ H NE IN x Hx)|]. split.
  - rewrite padded_fins. eapply shares_sum; eauto.
  - rewrite padded_length. rewrite (shares_len _ _ _ _ _ H). lia.
Qed.
Lemma row_dist v1 v2 nb maxb : varied v1 -> varied v2 -> (1 <= nb <= maxb)%nat ->
  exists d, hellinger (row v1 v2 v1 nb maxb) (row v1 v2 v2 nb maxb) 1 = Fin d /\ 0 <= d <= 1.
Proof.
  intros V1 V2 H. destruct (row_hist v1 v2 v1 nb maxb V1 V2 (or_introl eq_refl) H) as [A1 [A2 A3]]. destruct (row_hist v1 v2 v2 nb maxb V1 V2 (or_intror eq_refl) H) as [B1 [B2 B3]].
  destruct (hellinger_le_1 _ _ A1 B1 (eq_trans A3 (eq_sym B3)) (Req_le _ _ A2) (Req_le _ _ B2)) as [d [E D]]. destruct (hellinger_zero _ _ 1 Rlt_0_1 A1 B1 (eq_trans A3 (eq_sym B3))) as [d' [E' [D' _]]]. exists d. rewrite E in E'. inversion E'; subst. split; [exact E|lra].
Qed.

Lemma map2_tab1 {A B C} (f : A -> B -> C) n (a : nat -> A) (b : nat -> B) : map2 f (tab1 n a) (tab1 n b) = tab1 n (fun i => f (a i) (b i)).
Proof.
  unfold tab1. generalize (seq 0 n). intros l. induction l as [|x l IH]; [reflexivity|]. cbn. now rewrite IH.
Qed.
Lemma stat_mean n (a b : nat -> list fl) (d : nat -> R) : (1 <= n)%nat -> (forall i, (i < n)%nat -> hellinger (a i) (b i) 1 = Fin (d i)) ->
  hellinger_stat (tab1 n a) (tab1 n b) = Fin (rsum n d / INR n).
Proof.
  intros N H. unfold hellinger_stat. rewrite map2_tab1, tab1_length. rewrite (tab1_ext _ _ (fun i => Fin (d i))) by exact H. rewrite <- (tab1_map n d Fin), fsum_Fin. rewrite rsum_lsum. apply fdiv_fin. apply not_0_INR. lia.
Qed.
Lemma choose_d n (f : nat -> fl) : (forall i, (i < n)%nat -> exists d, f i = Fin d /\ 0 <= d <= 1) -> exists g, forall i, (i < n)%nat -> f i = Fin (g i) /\ 0 <= g i <= 1.
Proof.
  intros H. exists (fun i => match f i with Fin d => d | _ => 0 end). intros i Hi. destruct (H i Hi) as [d [E D]]. rewrite E. now split.
Qed.
