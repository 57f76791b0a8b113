(** Proofs about Model/DeltaVar.v: distance and lags (C30, C87, C88, C75). *)
From Coq Require Import Reals List ZArith Lia Lra Arith Bool.
From Verif Require Import Lib.PyBase Lib.RSum Lib.Fl Lib.Arr Lib.ListMore Spec.Blank Spec.DeltaVar Spec.Components
  Model.StatsUtils Model.Scf Model.DeltaVar Proofs.Fl_Proofs Proofs.Scf_Proofs Proofs.Cov_Proofs Proofs.Pca_Proofs Proofs.DeltaVar_Proofs.
Import ListNotations.
Local Open Scope R_scope.

Lemma select_common lo hi lags a b : curve a -> curve b ->
  let valids := map2 (fun c n => c && negb n) (map (fun l => Rleb lo l && Rleb l hi) lags) (map2 orb (map blank_or_neg a) (map blank_or_neg b)) in
  select a valids = map Fin (map fst (common_values lo hi lags a b)) /\
  select b valids = map Fin (map snd (common_values lo hi lags a b)).
Proof.
  unfold curve. cbv zeta. revert a b. induction lags as [|l lags IH]; intros a b Ha Hb.
  - cbn [map map2 common_values]. destruct a, b; split; reflexivity.
  - destruct a as [|x a]; [destruct b; split; reflexivity|]. destruct b as [|y b].
    { cbn [map map2]. destruct x; split; reflexivity. }
    inversion Ha as [|? ? Hx Ha']; inversion Hb as [|? ? Hy Hb']; subst. destruct (IH a b Ha' Hb') as [A B].
    cbn [map map2].
    destruct x as [x| | |]; try contradiction; destruct y as [y| | |]; try contradiction; cbn [common_values].
    + assert (X : blank_or_neg (Fin x) = false) by (unfold blank_or_neg; cbn; destruct (Rleb_spec x 0); [lra|reflexivity]).
      assert (Y : blank_or_neg (Fin y) = false) by (unfold blank_or_neg; cbn; destruct (Rleb_spec y 0); [lra|reflexivity]).
      rewrite X, Y. destruct (Rleb lo l); [destruct (Rleb l hi)|]; cbn [andb orb negb select map fst snd]; rewrite A, B; split; reflexivity.
    + replace (blank_or_neg (Fin x) || blank_or_neg NaN) with true by (cbn; rewrite Bool.orb_true_r; reflexivity).
      cbn [negb]. rewrite Bool.andb_false_r. cbn [select]. auto.
    + change (blank_or_neg NaN) with true. cbn [orb negb]. rewrite Bool.andb_false_r. cbn [select]. auto.
    + change (blank_or_neg NaN) with true. cbn [orb negb]. rewrite Bool.andb_false_r. cbn [select]. auto.
Qed.

Lemma common_positive lo hi lags a b : curve a -> curve b -> Forall (fun p => 0 < fst p /\ 0 < snd p) (common_values lo hi lags a b).
Proof.
  unfold curve. revert a b. induction lags as [|l lags IH]; intros a b Ha Hb; [constructor|].
  destruct a as [|x a]; [constructor|]. destruct b as [|y b]; [destruct x; constructor|].
  inversion Ha as [|? ? Hx Ha']; inversion Hb as [|? ? Hy Hb']; subst. specialize (IH a b Ha' Hb').
  destruct x as [x| | |]; try contradiction; destruct y as [y| | |]; try contradiction; cbn [common_values]; auto.
  destruct (Rleb lo l); [|auto]. destruct (Rleb l hi); [|auto]. constructor; auto.
Qed.

Lemma lsum_pos l : l <> [] -> Forall (fun v => 0 < v) l -> 0 < lsum l.
Proof.
  intros N H. induction H as [|x l Hx H IH]; [congruence|]. rewrite lsum_cons. destruct l; [cbn; lra|].
  assert (0 < lsum (r :: l)) by (apply IH; discriminate). lra.
Qed.

Lemma normed_log_share l : Forall (fun v => 0 < v) l ->
  map (fun x => flog10 (fdiv x (fsum (map Fin l)))) (map Fin l) = map Fin (log_share l).
Proof.
  intros H. rewrite fsum_Fin. unfold log_share. rewrite !map_map. apply map_ext_in. intros v Hv.
  assert (L : 0 < lsum l) by (apply lsum_pos; [intros ->; destruct Hv|exact H]).
  rewrite fdiv_fin by lra. rewrite Forall_forall in H. specialize (H v Hv). cbn.
  destruct (Rltb_spec 0 (v / lsum l)); [reflexivity|]. exfalso. assert (0 < v / lsum l) by (apply Rdiv_lt_0_compat; auto). lra.
Qed.

Lemma log_share_length l : length (log_share l) = length l.
Proof. apply map_length. Qed.

Lemma in_map2 {A B C} (f : A -> B -> C) a b v : In v (map2 f a b) -> exists x y, In x a /\ In y b /\ v = f x y.
Proof.
  revert b. induction a as [|x a IH]; intros [|y b] H; try destruct H.
  - exists x, y. cbn. auto.
  - destruct (IH b H) as [u [w [? [? ?]]]]. exists u, w. cbn. auto.
Qed.

Lemma l2_fl a b : fsqrt (fsum (map2 (fun x y => fsqr (fsub x y)) (map Fin a) (map Fin b))) = Fin (l2_distance a b).
Proof.
  unfold l2_distance.
  replace (map2 (fun x y => fsqr (fsub x y)) (map Fin a) (map Fin b)) with (map Fin (map2 (fun x y => (x - y) ^ 2) a b)).
  - rewrite fsum_Fin. apply fsqrt_fin. apply lsum_nonneg. intros v Hv. apply in_map2 in Hv. destruct Hv as [x [y [_ [_ ->]]]]. apply pow2_ge_0.
  - revert b. induction a as [|x a IH]; intros [|y b]; cbn [map map2]; try reflexivity. rewrite IH. f_equal. cbn. f_equal. ring.
Qed.

Lemma common_fst_pos lo hi lags a b : curve a -> curve b -> Forall (fun v => 0 < v) (map fst (common_values lo hi lags a b)) /\ Forall (fun v => 0 < v) (map snd (common_values lo hi lags a b)).
Proof.
  intros Ha Hb. pose proof (common_positive lo hi lags a b Ha Hb) as P. rewrite Forall_forall in P.
  split; apply Forall_forall; intros v Hv; apply in_map_iff in Hv; destruct Hv as [p [<- Hp]]; apply (P p Hp).
Qed.

Lemma curve_distance_value lags a b lo hi : curve a -> curve b ->
  curve_distance true a lags (lo, hi) b lags (lo, hi) =
  Ok (Fin (l2_distance (log_share (map fst (common_values lo hi lags a b))) (log_share (map snd (common_values lo hi lags a b))))).
Proof.
  intros Ha Hb. unfold curve_distance. cbn [fst snd].
  destruct (Reqb_spec lo lo); [|lra]. destruct (Reqb_spec hi hi); [|lra]. cbn [andb]. cbv zeta.
  destruct (select_common lo hi lags a b Ha Hb) as [A B]. cbv zeta in A, B. unfold normed_curve. cbv zeta. rewrite A, B.
  destruct (common_fst_pos lo hi lags a b Ha Hb) as [P Q]. rewrite !normed_log_share by auto.
  rewrite !map_length, !log_share_length, !map_length, Nat.eqb_refl. apply (f_equal Ok). apply l2_fl.
Qed.

Lemma common_swap lo hi lags a b : common_values lo hi lags b a = map (fun p => (snd p, fst p)) (common_values lo hi lags a b).
Proof.
  revert a b. induction lags as [|l lags IH]; intros a b; [reflexivity|].
  destruct a as [|x a]; destruct b as [|y b]; cbn [common_values]; try reflexivity.
  - destruct y; reflexivity.
  - destruct x; reflexivity.
  - destruct x, y; cbn [common_values]; try apply IH. destruct (Rleb lo l); [|apply IH]. destruct (Rleb l hi); [|apply IH]. cbn [map fst snd]. now rewrite IH.
Qed.

Lemma curve_distance_sym lags a b lo hi : curve a -> curve b ->
  curve_distance true a lags (lo, hi) b lags (lo, hi) = curve_distance true b lags (lo, hi) a lags (lo, hi).
Proof.
  intros Ha Hb. rewrite !curve_distance_value by auto. apply (f_equal Ok), (f_equal Fin). rewrite (common_swap lo hi lags a b), !map_map. cbn [fst snd]. apply l2_sym.
Qed.

Lemma same_blanks_sym a b : same_blanks a b -> same_blanks b a. Proof. unfold same_blanks. congruence. Qed.

Lemma common_within lo hi lags a b : curve a -> curve b -> same_blanks a b ->
  map fst (common_values lo hi lags a b) = values_within lo hi lags a /\ map snd (common_values lo hi lags a b) = values_within lo hi lags b.
Proof.
  unfold curve, same_blanks. revert a b. induction lags as [|l lags IH]; intros a b Ha Hb E; [split; reflexivity|].
  destruct a as [|x a]; destruct b as [|y b]; try discriminate; [split; reflexivity|].
  inversion Ha as [|? ? Hx Ha']; inversion Hb as [|? ? Hy Hb']; subst. cbn [map] in E. injection E as E1 E2.
  destruct (IH a b Ha' Hb' E2) as [A B].
  destruct x as [x| | |]; try contradiction; destruct y as [y| | |]; try contradiction; try discriminate; cbn [common_values values_within]; auto.
  destruct (Rleb lo l); [|auto]. destruct (Rleb l hi); [|auto]. cbn [map fst snd]. rewrite A, B. auto.
Qed.

Lemma curve_distance_within lags a b lo hi : curve a -> curve b -> same_blanks a b ->
  curve_distance true a lags (lo, hi) b lags (lo, hi) =
  Ok (Fin (l2_distance (log_share (values_within lo hi lags a)) (log_share (values_within lo hi lags b)))).
Proof.
  intros Ha Hb E. rewrite curve_distance_value by auto. destruct (common_within lo hi lags a b Ha Hb E) as [A B]. now rewrite A, B.
Qed.

Lemma within_length lo hi lags a b : curve a -> curve b -> same_blanks a b -> length (values_within lo hi lags a) = length (values_within lo hi lags b).
Proof. intros Ha Hb E. destruct (common_within lo hi lags a b Ha Hb E) as [<- <-]. now rewrite !map_length. Qed.

Lemma curve_triangle lags a b c lo hi : curve a -> curve b -> curve c -> same_blanks a b -> same_blanks b c ->
  exists dab dbc dac,
  curve_distance true a lags (lo, hi) b lags (lo, hi) = Ok (Fin dab) /\ curve_distance true b lags (lo, hi) c lags (lo, hi) = Ok (Fin dbc) /\
  curve_distance true a lags (lo, hi) c lags (lo, hi) = Ok (Fin dac) /\ dac <= dab + dbc.
Proof.
  intros Ha Hb Hc E1 E2. assert (E3 : same_blanks a c) by (unfold same_blanks in *; congruence).
  do 3 eexists. repeat split; [apply curve_distance_within; auto|apply curve_distance_within; auto|apply curve_distance_within; auto|].
  apply l2_triangle; rewrite !log_share_length; apply within_length; auto.
Qed.

(** *** Zero exactly for proportional curves *)
Lemma log_share_inj a b : Forall (fun v => 0 < v) a -> Forall (fun v => 0 < v) b -> length a = length b ->
  (log_share a = log_share b <-> proportions a = proportions b).
Proof.
  intros Ha Hb L. assert (T : ln 10 <> 0) by (apply Rgt_not_eq; rewrite <- ln_1; apply ln_increasing; lra).
  assert (P : forall l, Forall (fun v => 0 < v) l -> Forall (fun v => 0 < v) (proportions l)).
  { intros l Hl. apply Forall_forall. intros v Hv. unfold proportions in Hv. apply in_map_iff in Hv. destruct Hv as [u [<- Hu]].
    rewrite Forall_forall in Hl. apply Rdiv_lt_0_compat; [auto|]. apply lsum_pos; [intros ->; destruct Hu|]. now apply Forall_forall. }
  assert (G : forall l, log_share l = map (fun v => ln v / ln 10) (proportions l)) by (intros l; unfold log_share, proportions; now rewrite map_map).
  rewrite !G. split; [|intros ->; reflexivity]. pose proof (P a Ha) as Pa. pose proof (P b Hb) as Pb.
  revert Pa Pb. generalize (proportions a) (proportions b). clear -T. intros u. induction u as [|x u IH]; intros [|y v] Pu Pv E; try discriminate; [reflexivity|].
  inversion Pu; inversion Pv; subst. cbn [map] in E. injection E as E1 E2. f_equal; [|apply IH; auto].
  apply ln_inv; auto. apply Rmult_eq_reg_r with (/ ln 10); auto. now apply Rinv_neq_0_compat.
Qed.

Lemma proportions_iff a b : Forall (fun v => 0 < v) a -> Forall (fun v => 0 < v) b -> length a = length b ->
  (proportions a = proportions b <-> exists c, 0 < c /\ b = map (Rmult c) a).
Proof.
  intros Ha Hb L. destruct a as [|x a'].
  { destruct b; [|discriminate]. split; [|reflexivity]. intros _. exists 1. split; [lra|reflexivity]. }
  set (a := x :: a') in *. assert (La : 0 < lsum a) by (apply lsum_pos; [discriminate|auto]).
  assert (Lb : 0 < lsum b) by (apply lsum_pos; [destruct b; discriminate|auto]).
  split.
  - intros E. exists (lsum b / lsum a). split; [now apply Rdiv_lt_0_compat|].
    assert (G : b = map (fun v => lsum b * v) (proportions b)).
    { unfold proportions. rewrite map_map. rewrite <- (map_id b) at 1. apply map_ext. intros. field. lra. }
    rewrite G at 1. rewrite <- E. unfold proportions. rewrite map_map. apply map_ext. intros. unfold Rdiv. ring.
  - intros [c [Hc ->]]. unfold proportions. rewrite map_map. apply map_ext. intros v.
    replace (lsum (map (Rmult c) a)) with (c * lsum a); [field; lra|]. symmetry. rewrite <- (map_id a) at 2. apply lsum_map_scal.
Qed.

Lemma curve_distance_zero lags a b lo hi : curve a -> curve b ->
  (curve_distance true a lags (lo, hi) b lags (lo, hi) = Ok (Fin 0) <->
   exists c, 0 < c /\ map snd (common_values lo hi lags a b) = map (Rmult c) (map fst (common_values lo hi lags a b))).
Proof.
  intros Ha Hb. rewrite curve_distance_value by auto. destruct (common_fst_pos lo hi lags a b Ha Hb) as [P Q].
  assert (L : length (map fst (common_values lo hi lags a b)) = length (map snd (common_values lo hi lags a b))) by (now rewrite !map_length).
  rewrite <- proportions_iff, <- log_share_inj, <- l2_zero by (rewrite ?log_share_length; auto).
  split; [intros E; now injection E|intros ->; reflexivity].
Qed.

Lemma common_scaled c lo hi lags a b : common_values lo hi lags (scaled c a) b = map (fun p => (c * fst p, snd p)) (common_values lo hi lags a b) \/ ~ Forall blankable a.
Proof.
  destruct (Forall_dec blankable (fun x => match x with Fin _ => left I | NaN => left I | PInf => right (fun H => H) | NInf => right (fun H => H) end) a) as [H|H]; [left|now right].
  unfold scaled. revert a b H. induction lags as [|l lags IH]; intros a b H; [reflexivity|].
  destruct a as [|x a]; [reflexivity|]. inversion H; subst. cbn [map]. destruct b as [|y b]; [destruct x; try contradiction; reflexivity|].
  destruct x; try contradiction; cbn [fmul common_values].
  - destruct y; try (apply IH; auto). destruct (Rleb lo l); [|apply IH; auto]. destruct (Rleb l hi); [|apply IH; auto]. cbn [map fst snd]. now rewrite IH.
  - apply IH; auto.
Qed.

Lemma curve_blankable a : curve a -> Forall blankable a.
Proof. apply Forall_impl. intros [ | | | ]; cbn; tauto. Qed.

Lemma curve_scaled c a : 0 < c -> curve a -> curve (scaled c a).
Proof.
  intros Hc H. unfold curve, scaled in *. apply Forall_forall. intros v Hv. apply in_map_iff in Hv. destruct Hv as [u [<- Hu]].
  rewrite Forall_forall in H. specialize (H u Hu). destruct u; try contradiction; cbn; auto. now apply Rmult_lt_0_compat.
Qed.

Lemma log_share_scale c l : 0 < c -> Forall (fun v => 0 < v) l -> log_share (map (Rmult c) l) = log_share l.
Proof.
  intros Hc H. unfold log_share. rewrite map_map. apply map_ext_in. intros v Hv. do 2 f_equal.
  replace (lsum (map (Rmult c) l)) with (c * lsum l).
  - assert (0 < lsum l) by (apply lsum_pos; [intros ->; destruct Hv|auto]). field. lra.
  - symmetry. rewrite <- (map_id l) at 2. apply lsum_map_scal.
Qed.

Lemma curve_distance_amplitude lags a b lo hi c : 0 < c -> curve a -> curve b ->
  curve_distance true (scaled c a) lags (lo, hi) b lags (lo, hi) = curve_distance true a lags (lo, hi) b lags (lo, hi).
Proof.
  intros Hc Ha Hb. rewrite !curve_distance_value by (auto using curve_scaled).
  destruct (common_scaled c lo hi lags a b) as [E|E]; [|exfalso; apply E; now apply curve_blankable].
  apply (f_equal Ok), (f_equal Fin). rewrite E, !map_map. cbn [fst snd].
  replace (map (fun x : R * R => c * fst x) (common_values lo hi lags a b)) with (map (Rmult c) (map fst (common_values lo hi lags a b))) by (now rewrite map_map).
  rewrite log_share_scale; auto. apply (common_fst_pos lo hi lags a b Ha Hb).
Qed.

Lemma curve_distance_ranges lags1 lags2 a b r1 r2 : r1 <> r2 -> curve_distance true a lags1 r1 b lags2 r2 = Ok NaN.
Proof.
  intros H. unfold curve_distance. destruct (Reqb_spec (fst r1) (fst r2)); [|reflexivity]. destruct (Reqb_spec (snd r1) (snd r2)); [|reflexivity].
  exfalso. apply H. destruct r1, r2; cbn in *. congruence.
Qed.

(** ** Lags *)
Lemma logspace_bounds a b n x : 0 < a -> a <= b -> (2 <= n)%nat -> In x (logspace a b n) -> a <= x <= b.
Proof.
  intros Ha Hab Hn H. unfold logspace, tab1 in H. apply in_map_iff in H. destruct H as [k [<- Hk]]. apply in_seq in Hk.
  assert (L : ln a <= ln b) by (destruct Hab as [Hab|<-]; [left; now apply ln_increasing|lra]).
  assert (N : 0 < INR (n - 1)) by (apply (lt_INR 0); lia).
  assert (K : 0 <= INR k <= INR (n - 1)) by (split; [apply pos_INR|apply le_INR; lia]).
  set (d := (ln b - ln a) / INR (n - 1)). assert (D : d * INR (n - 1) = ln b - ln a) by (unfold d; field; lra).
  assert (Dp : 0 <= d) by (unfold d; apply Rmult_le_pos; [lra|left; now apply Rinv_0_lt_compat]).
  assert (M : 0 <= INR k * d <= ln b - ln a).
  { split; [apply Rmult_le_pos; lra|]. rewrite <- D, (Rmult_comm d). apply Rmult_le_compat_r; lra. }
  split.
  - rewrite <- (exp_ln a) at 1 by auto. destruct (Rle_lt_or_eq_dec (ln a) (ln a + INR k * d)) as [G|G]; [lra|left; now apply exp_increasing|rewrite <- G; lra].
  - rewrite <- (exp_ln b) at 1 by lra. destruct (Rle_lt_or_eq_dec (ln a + INR k * d) (ln b)) as [G|G]; [lra|left; now apply exp_increasing|rewrite G; lra].
Qed.

Lemma lags_ok_iff side lags : lags_ok side lags = true <->
  forall l, In l lags -> 1 <= l /\ IZR (Int_part l) <= INR side / 2 + / 10 ^ 10.
Proof.
  unfold lags_ok. rewrite Bool.andb_true_iff, !Bool.negb_true_iff. split.
  - intros [A B] l Hl. split.
    + destruct (Rlt_dec l 1) as [C|C]; [|lra]. exfalso. assert (existsb (fun l => Rltb l 1) lags = true); [|congruence].
      apply existsb_exists. exists l. split; auto. destruct (Rltb_spec l 1); auto.
    + destruct (Rlt_dec (/ 10 ^ 10) (IZR (Int_part l) - INR side / 2)) as [C|C]; [|lra]. exfalso.
      assert (existsb (fun l => Rltb (/ 10 ^ 10) (IZR (Int_part l) - INR side / 2)) lags = true); [|congruence].
      apply existsb_exists. exists l. split; auto. destruct (Rltb_spec (/ 10 ^ 10) (IZR (Int_part l) - INR side / 2)); auto.
  - intros H. split.
    + destruct (existsb _ lags) eqn:E; auto. apply existsb_exists in E. destruct E as [l [Hl E]]. destruct (Rltb_spec l 1); [|discriminate].
      destruct (H l Hl). lra.
    + destruct (existsb (fun l => Rltb (/ 10 ^ 10) (IZR (Int_part l) - INR side / 2)) lags) eqn:E; auto. apply existsb_exists in E. destruct E as [l [Hl E]].
      destruct (Rltb_spec (/ 10 ^ 10) (IZR (Int_part l) - INR side / 2)); [|discriminate]. destruct (H l Hl). lra.
Qed.

Lemma pow10_pos : 0 < / 10 ^ 10. Proof. apply Rinv_0_lt_compat, pow_lt. lra. Qed.

Lemma common_lags_same_grid side1 side2 : (6 <= side1)%nat -> (6 <= side2)%nat ->
  let l := common_lags side1 side2 1 in fst l = snd l /\ lags_ok side1 (fst l) = true /\ lags_ok side2 (snd l) = true.
Proof.
  intros H1 H2. cbv zeta. unfold common_lags. destruct (Reqb_spec 1 1); [|lra]. cbn [fst snd]. split; [reflexivity|].
  set (s := if Nat.ltb side2 side1 then side2 else side1). assert (Hs : (s <= side1)%nat /\ (s <= side2)%nat /\ (6 <= s)%nat).
  { unfold s. destruct (Nat.ltb_spec side2 side1); lia. }
  assert (S6 : 6 <= INR s) by (replace 6 with (INR 6) by (cbn; lra); apply le_INR; lia).
  assert (G : forall side, (s <= side)%nat -> lags_ok side (logspace 3 (INR s / 2) 25) = true).
  { intros side Hle. apply le_INR in Hle. apply lags_ok_iff. intros l Hl. apply logspace_bounds in Hl; [|lra|lra|lia]. split; [lra|].
    pose proof (base_Int_part l) as [B _]. pose proof pow10_pos. lra. }
  split; apply G; lia.
Qed.

Lemma common_lags_other_grid : exists side scale, 0 < scale /\ lags_ok side (fst (common_lags side side scale)) = false.
Proof.
  exists 64%nat, 2. split; [lra|]. destruct (lags_ok 64 (fst (common_lags 64 64 2))) eqn:E; [exfalso|reflexivity].
  assert (T := proj1 (lags_ok_iff 64 (fst (common_lags 64 64 2))) E). clear E.
  unfold common_lags in T. destruct (Reqb_spec 2 1); [lra|]. destruct (Rltb_spec 1 2); [|lra]. cbn [fst] in T. rewrite Nat.ltb_irrefl in T.
  assert (I64 : INR 64 = 64) by (rewrite INR_IZR_INZ; reflexivity).
  destruct (T (2 * 32)) as [_ B].
  - apply in_map_iff. exists 32. split; [ring|]. unfold logspace, tab1. apply in_map_iff. exists 24%nat. split; [|apply in_seq; lia].
    rewrite I64. replace (ln 3 + INR 24 * ((ln (64 / 2) - ln 3) / INR (25 - 1))) with (ln 32).
    + apply exp_ln. lra.
    + replace (25 - 1)%nat with 24%nat by lia. assert (INR 24 <> 0) by (apply not_0_INR; lia). replace (64 / 2) with 32 by lra. field. auto.
  - replace (2 * 32) with (IZR 64) in B by lra.
    assert (Int_part (IZR 64) = 64%Z).
    { apply Int_part_IZR. }
    rewrite H in B. rewrite I64 in B. assert (/ 10 ^ 10 < 1).
    { rewrite <- Rinv_1. apply Rinv_lt_contravar; [rewrite Rmult_1_l; apply pow_lt; lra|]. apply Rlt_pow_R1; [lra|lia]. }
    lra.
Qed.

Lemma rmin_scale c l : 0 < c -> rmin_list (map (fun x => c * x) l) = c * rmin_list l.
Proof.
  intros Hc. destruct l as [|x l]; cbn; [ring|]. induction l as [|y l IH]; cbn; [ring|]. rewrite IH. generalize (fold_right Rmin x l). intros z. unfold Rmin.
  destruct (Rle_dec y z) as [A|A]; destruct (Rle_dec (c * y) (c * z)) as [B|B]; auto; exfalso.
  - apply B. apply Rmult_le_compat_l; lra.
  - apply A. apply Rmult_le_reg_l with c; auto.
Qed.
Lemma rmin_pos l : l <> [] -> Forall (fun v => 0 < v) l -> 0 < rmin_list l.
Proof.
  intros N H. destruct l as [|x l]; [congruence|]. inversion H as [|? ? Hx Hl]; subst. cbn. clear H N. induction Hl as [|y l Hy Hl IH]; cbn; auto.
  apply Rmin_glb_lt; auto.
Qed.

Lemma other_grid_blank side1 side2 scale a b : 0 < scale -> scale <> 1 ->
  let l := common_lags side1 side2 scale in
  curve_distance true a (fst l) (default_range (fst l)) b (snd l) (default_range (snd l)) = Ok NaN.
Proof.
  intros H0 H1. cbv zeta. apply curve_distance_ranges. unfold default_range. intros E. injection E as E _. revert E.
  unfold common_lags. destruct (Reqb_spec scale 1); [contradiction|]. set (l := logspace _ _ _).
  assert (P : 0 < rmin_list l).
  { apply rmin_pos; [unfold l, logspace, tab1; cbn; discriminate|]. apply Forall_forall. intros x Hx. unfold l, logspace, tab1 in Hx.
    apply in_map_iff in Hx. destruct Hx as [k [<- _]]. apply exp_pos. }
  destruct (Rltb_spec 1 scale); cbn [fst snd].
  - rewrite rmin_scale by auto. intros E. apply Rmult_eq_reg_l in E; [|lra]. assert (1 * rmin_list l < scale * rmin_list l) by (apply Rmult_lt_compat_r; lra). lra.
  - replace (map (fun l => l / scale) l) with (map (fun x => / scale * x) l) by (apply map_ext; intros; unfold Rdiv; ring).
    assert (I : 0 < / scale) by (now apply Rinv_0_lt_compat).
    rewrite rmin_scale by auto. intros E. apply Rmult_eq_reg_l in E; [|lra]. apply H1.
    assert (/ scale = 1) by (apply Rmult_eq_reg_r with (rmin_list l); lra). rewrite <- (Rinv_inv scale), H. apply Rinv_1.
Qed.

(** ** Statistic objects *)
Lemma lags_eqb_spec a b : lags_eqb a b = true <-> a = b.
Proof.
  revert b. induction a as [|x a IH]; intros [|y b]; cbn; try (split; [discriminate|discriminate]); [split; reflexivity|].
  rewrite Bool.andb_true_iff, IH. destruct (Reqb_spec x y) as [->|N]; split.
  - intros [_ ->]; reflexivity.
  - intros E. injection E as ->. auto.
  - intros [C _]. discriminate.
  - intros E. injection E as E _. contradiction.
Qed.

Lemma reuse_lags_kept stored has_slope lags : stored <> lags -> reuse_lags stored has_slope lags = stored.
Proof.
  intros H. unfold reuse_lags. destruct (lags_eqb stored lags) eqn:E; [apply lags_eqb_spec in E; contradiction|reflexivity].
Qed.
Lemma reuse_lags_same has_slope lags : reuse_lags lags has_slope lags = lags.
Proof. unfold reuse_lags. rewrite (proj2 (lags_eqb_spec lags lags) eq_refl). destruct has_slope; reflexivity. Qed.
