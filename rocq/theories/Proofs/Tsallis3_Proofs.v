From Coq Require Import Reals List Bool ZArith Arith Lia Lra Sorted.
From Verif Require Import Lib.PyBase Lib.PySlice Lib.RSum Lib.Fl Lib.Arr Lib.Hist Spec.Lag Spec.Blank Spec.Bins Model.Units Model.StatsUtils Model.Tsallis
  Proofs.StatsUtils_Proofs Proofs.StatsUtils2_Proofs Proofs.Fl_Proofs Proofs.Hist_Proofs Proofs.Tsallis_Proofs Proofs.Tsallis2_Proofs.
Import ListNotations.
Local Open Scope R_scope.

(** ** standardised arrays *)
Lemma std2_concat img : concat (standardize2 img) = standardize (concat img).
Proof. unfold standardize2, standardize. cbv zeta. now rewrite concat_map. Qed.
Lemma fmul_fins a x : Forall blankable x -> fins (map (fmul (Fin a)) x) = map (Rmult a) (fins x).
Proof. intros. apply fins_map; auto. Qed.
Lemma fmul_blankable a x : Forall blankable x -> Forall blankable (map (fmul (Fin a)) x).
Proof. intros. apply (blankable_map _ (Rmult a)); auto. Qed.
Lemma rmean_scal a l : rmean (map (Rmult a) l) = a * rmean l.
Proof. unfold rmean. rewrite map_length, (lsum_map_scal a (fun r => r)), map_id. unfold Rdiv. ring. Qed.
Lemma rvar_scal a l : rvar (map (Rmult a) l) = a * a * rvar l.
Proof.
  unfold rvar. rewrite rmean_scal, map_map. rewrite (map_ext _ (fun r => (a * a) * ((r - rmean l) * (r - rmean l)))) by (intros; ring).
  rewrite <- (map_map (fun r => (r - rmean l) * (r - rmean l)) (Rmult (a * a))). apply rmean_scal.
Qed.
Lemma rvar_nonneg l : 0 <= rvar l.
Proof. unfold rvar. apply rmean_nonneg. intros r H. apply in_map_iff in H. destruct H as [x [<- _]]. apply Rle_0_sqr. Qed.
Lemma fins_nil_nan x v : Forall blankable x -> fins x = [] -> In v x -> v = NaN.
Proof.
  intros B F I. rewrite Forall_forall in B. destruct (blankable_cases v (B v I)) as [|[r ->]]; [assumption | exfalso].
  assert (In r (fins x)) by (unfold fins; apply in_flat_map; exists (Fin r); split; [exact I | now left]). rewrite F in H. exact H.
Qed.
Lemma standardize_values x v : Forall blankable x -> In v x ->
  fdiv (fsub v (nanmean x)) (nanstd x) =
  match v with Fin r => if Reqb (rvar (fins x)) 0 then NaN else Fin ((r - rmean (fins x)) / sqrt (rvar (fins x))) | _ => NaN end.
Proof.
  intros B I. pose proof B as B'. rewrite Forall_forall in B'. destruct (blankable_cases v (B' v I)) as [->|[r ->]]; [reflexivity |].
  assert (J : In r (fins x)) by (unfold fins; apply in_flat_map; exists (Fin r); split; [exact I | now left]).
  assert (N : fins x <> []) by (intro E; rewrite E in J; exact J). rewrite nanmean_rmean, nanstd_rvar by auto. cbn [fsub fadd fneg]. unfold fdiv.
  pose proof (rvar_nonneg (fins x)) as P. destruct (Reqb_spec (rvar (fins x)) 0) as [E|E].
  - rewrite E, sqrt_0. destruct (Reqb_spec 0 0); [| lra]. replace (r + - rmean (fins x)) with 0.
    + unfold sinf. destruct (Rltb_spec 0 0); [lra | reflexivity].
    + (* zero variance: every value is the mean *)
      unfold rvar in E. set (m := rmean (fins x)) in *. unfold rmean in E.
      assert (L : 0 < INR (length (map (fun r => (r - m) * (r - m)) (fins x)))) by (rewrite map_length; apply lt_0_INR; destruct (fins x); [contradiction | cbn; lia]).
      assert (S0 : lsum (map (fun r => (r - m) * (r - m)) (fins x)) = 0).
      { apply (Rmult_eq_reg_r (/ INR (length (map (fun r => (r - m) * (r - m)) (fins x))))); [unfold Rdiv in E; rewrite E; ring | apply Rinv_neq_0_compat; lra]. }
      assert (Z : (r - m) * (r - m) = 0).
      { apply (lsum_nonneg_eq0 (map (fun r => (r - m) * (r - m)) (fins x))); [| exact S0 | apply in_map_iff; eauto]. intros y Hy. apply in_map_iff in Hy. destruct Hy as [u [<- _]]. apply Rle_0_sqr. }
      apply Rmult_integral in Z. lra.
  - assert (Q : 0 < sqrt (rvar (fins x))) by (apply sqrt_lt_R0; lra). destruct (Reqb_spec (sqrt (rvar (fins x))) 0); [lra | reflexivity].
Qed.
Lemma standardize2_scaled a arr : a <> 0 -> numbers arr ->
  standardize2 (map (map (fmul (Fin a))) arr) = map (map (fun v => if Rltb 0 a then v else fneg v)) (standardize2 arr).
Proof.
  intros A N. unfold standardize2. cbv zeta. rewrite <- concat_map. set (x := concat arr). rewrite !map_map. apply map_ext_in. intros row Hr. rewrite !map_map. apply map_ext_in. intros v Hv.
  assert (I : In v x) by (apply in_concat; eauto). rewrite (standardize_values x v N I).
  rewrite (standardize_values (map (fmul (Fin a)) x) (fmul (Fin a) v)) by (auto using fmul_blankable, in_map). rewrite fmul_fins, rmean_scal, rvar_scal by exact N.
  pose proof N as N'. unfold numbers in N'. rewrite Forall_forall in N'. destruct (blankable_cases v (N' v I)) as [->|[r ->]]; [cbn; destruct (Rltb 0 a); reflexivity |]. cbn [fmul].
  pose proof (rvar_nonneg (fins x)) as P. assert (AA : 0 < a * a) by nra.
  destruct (Reqb_spec (rvar (fins x)) 0) as [E|E].
  - rewrite E, Rmult_0_r. destruct (Reqb_spec 0 0); [| lra]. destruct (Rltb 0 a); reflexivity.
  - destruct (Reqb_spec (a * a * rvar (fins x)) 0) as [E2|E2]; [exfalso; apply Rmult_integral in E2; lra |].
    rewrite sqrt_mult by lra. assert (Q : 0 < sqrt (rvar (fins x))) by (apply sqrt_lt_R0; lra).
    replace (sqrt (a * a)) with (Rabs a) by (symmetry; apply sqrt_Rsqr_abs).
    destruct (Rltb_spec 0 a).
    + rewrite Rabs_right by lra. f_equal. field. lra.
    + rewrite Rabs_left1 by lra. cbn [fneg]. f_equal. field. lra.
Qed.
Lemma difference_numbers per n0 n1 img lag : shape n0 n1 img -> numbers img -> (1 <= lag)%nat -> numbers (lag_difference per n1 img lag).
Proof.
  intros S N L. unfold numbers. rewrite Forall_forall. intros v Hv. apply (in_px n0 n1) in Hv; [| now apply difference_shape]. destruct Hv as [i [j [Hi [Hj ->]]]].
  rewrite (difference_px per n0) by auto. cbv zeta. unfold four. cbv zeta. cbn [map nth fst snd].
  assert (B : blankable (px img i j)) by (unfold numbers in N; rewrite Forall_forall in N; apply N, (px_in n0 n1); auto).
  assert (K : forall y x, blankable (seen per n0 n1 img y x)) by (intros; apply seen_blankable; auto; lia).
  match goal with |- blankable (combo ?a ?b ?c ?d ?v) => generalize (K (Z.of_nat i - Z.of_nat lag) (Z.of_nat j))%Z (K (Z.of_nat i + Z.of_nat lag) (Z.of_nat j))%Z (K (Z.of_nat i) (Z.of_nat j - Z.of_nat lag))%Z (K (Z.of_nat i) (Z.of_nat j + Z.of_nat lag))%Z B; generalize a b c d v end.
  clear. intros a b c d v A B C D V.
  destruct (blankable_cases a A) as [->|[a' ->]], (blankable_cases b B) as [->|[b' ->]], (blankable_cases c C) as [->|[c' ->]], (blankable_cases d D) as [->|[d' ->]], (blankable_cases v V) as [->|[v' ->]]; try exact I; try (rewrite combo_fin; exact I);
  unfold combo; cbn; destruct (Reqb_spec 4 0); [lra | exact I].
Qed.
Theorem arrays_standard per n0 n1 img lag nb arr d : shape n0 n1 img -> numbers img -> (1 <= lag)%nat ->
  let diff := fins (concat (lag_difference per n1 img lag)) in diff <> [] -> 0 < rvar diff ->
  distribution nb (lag_difference per n1 img lag) = Ok (arr, d) ->
  rmean (fins (concat arr)) = 0 /\ rvar (fins (concat arr)) = 1 /\ numbers arr /\ map is_nan (concat arr) = map is_nan (concat (lag_difference per n1 img lag)).
Proof.
  intros S N L diff D V E. unfold distribution in E. cbv zeta in E.
  assert (A : arr = standardize2 (lag_difference per n1 img lag)).
  { destruct (counts_edges _ nb) as [[h e]|]; cbn [bind] in E; [| discriminate]. now inversion E. }
  rewrite A. rewrite std2_concat. pose proof (difference_numbers per n0 n1 img lag S N L) as NB. unfold numbers in NB.
  assert (B : Forall blankable (standardize (concat (lag_difference per n1 img lag)))).
  { unfold standardize. apply Forall_forall. intros v Hv. apply in_map_iff in Hv. destruct Hv as [u [<- Hu]]. rewrite standardize_values by auto. destruct u; try exact I. destruct (Reqb _ 0); exact I. }
  assert (F : fins (standardize (concat (lag_difference per n1 img lag))) = map (fun r => (r - rmean diff) / sqrt (rvar diff)) diff).
  { unfold standardize. rewrite nanmean_rmean, nanstd_rvar by auto. fold diff. apply fins_map; auto. intros r _. cbn. unfold fdiv. assert (Q : 0 < sqrt (rvar diff)) by (apply sqrt_lt_R0; lra). destruct (Reqb_spec (sqrt (rvar diff)) 0); [lra | reflexivity]. }
  destruct (standardize_spec (concat (lag_difference per n1 img lag)) NB D V) as [M [W K]].
  assert (NE : fins (standardize (concat (lag_difference per n1 img lag))) <> []) by (rewrite F; destruct diff; [contradiction | discriminate]).
  rewrite nanmean_rmean in M by auto. rewrite nanstd_rvar in W by auto. split; [congruence |]. split.
  - assert (W' : sqrt (rvar (fins (standardize (concat (lag_difference per n1 img lag))))) = 1) by congruence.
    rewrite <- (sqrt_sqrt (rvar _)) by apply rvar_nonneg. rewrite W'. ring.
  - split; [unfold numbers; now rewrite std2_concat | exact K].
Qed.

(** positive factors and offsets change neither the arrays nor the distributions *)
Lemma map_id2 {A} (l : list (list A)) : map (map (fun v => v)) l = l.
Proof. transitivity (map (fun r : list A => r) l); [apply map_ext; intros; apply map_id | apply map_id]. Qed.
Theorem distribution_affine n0 n1 img lag a b nb : shape n0 n1 img -> numbers img -> (1 <= lag)%nat -> 0 < a ->
  distribution nb (lag_difference true n1 (scale_offset a b img) lag) = distribution nb (lag_difference true n1 img lag).
Proof.
  intros S N L A. rewrite (difference_affine n0) by auto. unfold distribution. cbv zeta.
  rewrite standardize2_scaled; [| lra | now apply (difference_numbers true n0)]. destruct (Rltb_spec 0 a); [| lra]. now rewrite map_id2.
Qed.
Lemma default_bins_affine a b img : numbers img -> default_bins (scale_offset a b img) = default_bins img.
Proof.
  intros N. unfold default_bins, scale_offset. rewrite <- concat_map. unfold numbers in N. assert (E : length (filter is_fin (map (fun v => fadd (fmul (Fin a) v) (Fin b)) (concat img))) = length (filter is_fin (concat img))); [| now rewrite E].
  induction (concat img) as [|v l IH]; [reflexivity |]. inversion N; subst. destruct v; cbn in *; try contradiction; rewrite IH; auto.
Qed.
Lemma each_ext {A B} (f g : A -> result B) l : (forall a, In a l -> f a = g a) -> each f l = each g l.
Proof. induction l as [|a l IH]; intros H; [reflexivity |]. cbn. rewrite (H a) by now left. destruct (g a); cbn; [| reflexivity]. rewrite IH; [reflexivity |]. intros; apply H; now right. Qed.
Theorem make_affine s n0 n1 img lags a b nb : shape n0 n1 img -> numbers img -> set_lags s (Nat.min n0 n1) (Some lags) = Ok lags -> 0 < a ->
  make_tsallis s n1 (scale_offset a b img) lags true nb = make_tsallis s n1 img lags true nb.
Proof.
  intros S N E A. unfold make_tsallis. rewrite default_bins_affine by exact N. destruct (to_pixel s lags) as [p|] eqn:T; [| reflexivity]. cbn [bind].
  apply each_ext. intros r Hr. apply (distribution_affine n0); auto.
  unfold set_lags in E. rewrite T in E. cbn [bind] in E. destruct (existsb (fun r => Rltb r 1) (q_vals p)) eqn:X; [discriminate |].
  assert (R1 : 1 <= r). { apply Rnot_lt_le. intros Lt. assert (C : existsb (fun r => Rltb r 1) (q_vals p) = true); [| congruence]. apply existsb_exists. exists r. split; [exact Hr |]. destruct (Rltb_spec r 1); [reflexivity | lra]. }
  assert (K : (1 <= Int_part r)%Z) by (apply le_Int_part; exact R1). lia.
Qed.
Theorem arrays_negative n0 n1 img lag a b : shape n0 n1 img -> numbers img -> (1 <= lag)%nat -> a < 0 ->
  standardize2 (lag_difference true n1 (scale_offset a b img) lag) = map (map fneg) (standardize2 (lag_difference true n1 img lag)).
Proof.
  intros S N L A. rewrite (difference_affine n0) by auto. rewrite standardize2_scaled; [| lra | now apply (difference_numbers true n0)]. destruct (Rltb_spec 0 a); [lra | reflexivity].
Qed.

(** without periodic boundaries an offset changes the pixels near the border *)
Theorem offset_interior n0 n1 img lag c i j : shape n0 n1 img -> numbers img -> (1 <= lag)%nat -> (lag <= i)%nat -> (i + lag < n0)%nat -> (lag <= j)%nat -> (j + lag < n1)%nat ->
  px (lag_difference false n1 (scale_offset 1 c img) lag) i j = px (lag_difference false n1 img lag) i j.
Proof.
  intros S N L I1 I2 J1 J2. assert (S' : shape n0 n1 (scale_offset 1 c img)).
  { rewrite (shape_tab _ _ _ S), scale_offset_tab. apply tab2_shape. }
  rewrite !(difference_px false n0) by (auto; lia). cbv zeta. unfold four. cbv zeta. cbn [map nth fst snd].
  assert (P : forall a b, (a < n0)%nat -> (b < n1)%nat -> px (scale_offset 1 c img) a b = affine 1 c (px img a b)).
  { intros a b Ha Hb. rewrite (shape_tab _ _ _ S) at 1. rewrite scale_offset_tab, tab2_px by auto. reflexivity. }
  assert (V : forall im y x, (0 <= y < Z.of_nat n0)%Z -> (0 <= x < Z.of_nat n1)%Z -> seen false n0 n1 im y x = px im (Z.to_nat y) (Z.to_nat x)).
  { intros im y x Hy Hx. unfold seen. destruct (Z.leb_spec 0 y), (Z.ltb_spec y (Z.of_nat n0)), (Z.leb_spec 0 x), (Z.ltb_spec x (Z.of_nat n1)); cbn; try lia; reflexivity. }
  rewrite !V by lia. rewrite !P by lia.
  assert (B : forall i j, (i < n0)%nat -> (j < n1)%nat -> blankable (px img i j)).
  { unfold numbers in N. rewrite Forall_forall in N. intros. apply N, (px_in n0 n1); auto. }
  rewrite combo_affine by (apply B; lia). match goal with |- fmul (Fin 1) ?e = _ => generalize e end.
  intros [r| | |]; cbn; rewrite ?Rmult_1_l; try reflexivity; unfold sinf; destruct (Rltb_spec 0 1); try lra; reflexivity.
Qed.
Definition zeros (n0 n1 : nat) : list (list fl) := tab2 n0 n1 (fun _ _ => Fin 0).
Theorem offset_border c n0 n1 lag : c <> 0 -> (1 <= n0)%nat -> (1 <= n1)%nat -> (1 <= lag)%nat ->
  px (lag_difference false n1 (zeros n0 n1) lag) 0 0 = Fin 0 /\
  exists v, px (lag_difference false n1 (scale_offset 1 c (zeros n0 n1)) lag) 0 0 = Fin v /\ v <> 0.
Proof.
  intros C H0 H1 L. assert (T : forall k, px (lag_difference false n1 (tab2 n0 n1 (fun _ _ => Fin k)) lag) 0 0 =
     let w y x := if ((y <? n0) && (x <? n1))%nat%bool then k else 0 in Fin ((w lag 0%nat + w 0%nat lag) / 4 - k)).
  { intros k. rewrite (difference_px false n0) by (auto using tab2_shape). cbv zeta. unfold four. cbv zeta. cbn [map nth fst snd]. rewrite tab2_px by lia.
    assert (V : forall y x, seen false n0 n1 (tab2 n0 n1 (fun _ _ => Fin k)) y x = Fin (if ((0 <=? y) && (y <? Z.of_nat n0) && (0 <=? x) && (x <? Z.of_nat n1))%Z%bool then k else 0)).
    { intros y x. unfold seen. destruct ((0 <=? y) && (y <? Z.of_nat n0) && (0 <=? x) && (x <? Z.of_nat n1))%Z%bool eqn:E; [| reflexivity]. rewrite !andb_true_iff, !Z.leb_le, !Z.ltb_lt in E. apply tab2_px; lia. }
    rewrite !V, combo_fin. f_equal. cbn [Z.of_nat]. rewrite !Z.add_0_l, !Z.sub_0_l.
    destruct (Z.leb_spec 0 (- Z.of_nat lag)); [lia |]. rewrite !andb_false_r. cbn [andb]. destruct (Z.leb_spec 0 (Z.of_nat lag)); [| lia].
    destruct (Z.leb_spec 0 0); [| lia]. destruct (Z.ltb_spec (Z.of_nat lag) (Z.of_nat n0)), (Nat.ltb_spec lag n0), (Z.ltb_spec (Z.of_nat lag) (Z.of_nat n1)), (Nat.ltb_spec lag n1), (Z.ltb_spec 0 (Z.of_nat n0)), (Nat.ltb_spec 0 n0), (Z.ltb_spec 0 (Z.of_nat n1)), (Nat.ltb_spec 0 n1); try lia; cbn [andb]; lra. }
  split.
  - unfold zeros. rewrite T. cbv zeta beta. f_equal. destruct ((lag <? n0) && (0 <? n1))%nat%bool, ((0 <? n0) && (lag <? n1))%nat%bool; lra.
  - unfold zeros. rewrite scale_offset_tab. rewrite (tab2_ext _ _ _ (fun _ _ => Fin c)) by (intros; unfold affine; cbn; f_equal; ring). rewrite T. cbv zeta beta. eexists. split; [reflexivity |].
    destruct ((lag <? n0) && (0 <? n1))%nat%bool, ((0 <? n0) && (lag <? n1))%nat%bool; lra.
Qed.
