(** Remaining statements and examples for stats_utils. *)
From Coq Require Import String Reals List ZArith Lia Lra Arith Bool.
From Verif Require Import Lib.PyBase Lib.PySlice Lib.Arr Lib.Fl Lib.RSum
  Spec.Blank Spec.Grid Model.StatsUtils Proofs.Fl_Proofs Proofs.StatsUtils_Proofs Proofs.StatsUtils2_Proofs.
Import ListNotations.
Local Open Scope R_scope.

Ltac hv := try reflexivity; repeat (first [apply Forall_nil | apply Forall_cons]); cbn; try lra; auto.

Lemma half_sqrt2 : 1 / sqrt 2 * sqrt 2 = 1.
Proof. pose proof sqrt2_pos. field. lra. Qed.

Lemma hellinger_two a b c d w : 0 <= a -> 0 <= b -> 0 <= c -> 0 <= d ->
  hellinger [Fin a; Fin b] [Fin c; Fin d] w =
  Fin (w / sqrt 2 * sqrt ((sqrt a - sqrt c)² + (sqrt b - sqrt d)²)).
Proof.
  intros. rewrite hellinger_val by hv. unfold hterm. cbn [length rsum nth]. do 3 f_equal. lra.
Qed.

Lemma hellinger_triangle_blank : exists p q r dpr dpq dqr,
  Forall hist_value p /\ Forall hist_value q /\ Forall hist_value r /\
  length p = length q /\ length q = length r /\
  hellinger p r 1 = Fin dpr /\ hellinger p q 1 = Fin dpq /\ hellinger q r 1 = Fin dqr /\ dpq + dqr < dpr.
Proof.
  exists [Fin 1; Fin 0], [NaN; NaN], [Fin 0; Fin 1], 1, 0, 0.
  repeat split; try (hv; fail).
  - rewrite hellinger_two by lra. f_equal. rewrite sqrt_0, sqrt_1.
    replace (_ + _) with 2 by (unfold Rsqr; ring). apply half_sqrt2.
  - rewrite hellinger_val by hv. cbn. f_equal. unfold Rsqr. rewrite Rmult_0_l, !Rplus_0_l, sqrt_0. ring.
  - rewrite hellinger_val by hv. cbn. f_equal. unfold Rsqr. rewrite Rmult_0_l, !Rplus_0_l, sqrt_0. ring.
Qed.

Lemma hellinger_example : Forall hist_value [Fin (1/2); NaN; Fin (1/2)] /\
  Forall hist_value [Fin 1; Fin 0; NaN] /\
  valid_pairs [Fin (1/2); NaN; Fin (1/2)] [Fin 1; Fin 0; NaN] = [(1/2, 1)] /\
  hellinger [Fin 1; Fin 0] [Fin 0; Fin 1] 1 = Fin 1.
Proof.
  repeat split; try (hv; fail).
  rewrite hellinger_two by lra. f_equal. rewrite sqrt_0, sqrt_1.
  replace (_ + _) with 2 by (unfold Rsqr; ring). apply half_sqrt2.
Qed.

Lemma hellinger_width_refuted : exists p q w d,
  0 < w /\ Forall hist_value p /\ Forall hist_value q /\ length p = length q /\
  lsum (fins p) * w = 1 /\ lsum (fins q) * w = 1 /\
  hellinger p q w = Fin d /\ 1 < d.
Proof.
  exists [Fin (1/4); Fin 0], [Fin 0; Fin (1/4)], 4, 2.
  repeat split; try (hv; fail); try (cbn; lra).
  rewrite hellinger_two by lra. f_equal.
  replace (sqrt (1/4)) with (1/2) by (replace (1/4) with (1/2 * (1/2)) by field; rewrite sqrt_square; lra).
  rewrite sqrt_0. replace (_ + _) with (2 * (1/2 * (1/2))) by (unfold Rsqr; field).
  rewrite sqrt_mult, sqrt_square by lra. pose proof sqrt2_pos. field. lra.
Qed.

(** ** Normalisation *)

Lemma Fin_inj a b : Fin a = Fin b -> a = b.
Proof. now injection 1. Qed.


(** A blank-preserving image of data without infinities. *)
Lemma image_ok (f : fl -> fl) (g : R -> R) x : Forall blankable x -> fins x <> [] ->
  (forall r, In (Fin r) x -> f (Fin r) = Fin (g r)) -> f NaN = NaN ->
  Forall blankable (map f x) /\ fins (map f x) <> [].
Proof.
  intros H Hne Hf Hn. split; [now apply (blankable_map f g)|].
  rewrite (fins_map f g) by auto. now apply map_nonempty.
Qed.

Lemma norm_center x : Forall blankable x -> fins x <> [] ->
  exists y, data_normalization x "center" = Ok y /\ Forall blankable y /\
    rmean (fins y) = 0 /\ map is_nan y = map is_nan x.
Proof.
  intros H Hne. exists (center x). split; [reflexivity|].
  destruct (center_mean x H Hne) as [E1 E2].
  assert (HB : Forall blankable (center x) /\ fins (center x) <> []).
  { unfold center. rewrite (nanmean_rmean x) by auto.
    apply (image_ok _ (fun r => r - rmean (fins x))); auto. }
  destruct HB as [B N]. rewrite nanmean_rmean in E1 by auto. auto using Fin_inj.
Qed.

Lemma norm_standardize x : Forall blankable x -> fins x <> [] -> 0 < rvar (fins x) ->
  exists y, data_normalization x "standardize" = Ok y /\ Forall blankable y /\
    rmean (fins y) = 0 /\ rvar (fins y) = 1 /\ map is_nan y = map is_nan x.
Proof.
  intros H Hne Hv. exists (standardize x). split; [reflexivity|].
  destruct (standardize_spec x H Hne Hv) as [E1 [E2 E3]].
  assert (HB : Forall blankable (standardize x) /\ fins (standardize x) <> []).
  { unfold standardize. rewrite (nanmean_rmean x), (nanstd_rvar x) by auto.
    apply (image_ok _ (fun r => (r - rmean (fins x)) / sqrt (rvar (fins x)))); auto.
    intros r _. rewrite fsub_fin, fdiv_fin; [reflexivity|].
    apply Rgt_not_eq, sqrt_lt_R0; auto. }
  destruct HB as [B N]. rewrite nanmean_rmean in E1 by auto. rewrite nanstd_rvar in E2 by auto.
  apply Fin_inj in E1. apply Fin_inj in E2. repeat split; auto.
  rewrite <- (sqrt_sqrt (rvar _)) by apply rvar_nonneg. rewrite E2. ring.
Qed.

Lemma norm_by_mean x : Forall blankable x -> fins x <> [] -> rmean (fins x) <> 0 ->
  exists y, data_normalization x "normalize_by_mean" = Ok y /\ Forall blankable y /\
    rmean (fins y) = 1 /\ map is_nan y = map is_nan x.
Proof.
  intros H Hne Hm. exists (normalize_by_mean x). split; [reflexivity|].
  destruct (normalize_by_mean_spec x H Hne Hm) as [E1 E2].
  assert (HB : Forall blankable (normalize_by_mean x) /\ fins (normalize_by_mean x) <> []).
  { unfold normalize_by_mean. rewrite (nanmean_rmean x) by auto.
    apply (image_ok _ (fun r => r / rmean (fins x))); auto.
    intros r _. now rewrite fdiv_fin. }
  destruct HB as [B N]. rewrite nanmean_rmean in E1 by auto. auto using Fin_inj.
Qed.

Lemma norm_normalize x a b : Forall blankable x -> In (Fin a) x -> In (Fin b) x -> a <> b ->
  exists y, data_normalization x "normalize" = Ok y /\ Forall blankable y /\
    is_min 0 (fins y) /\ is_max 1 (fins y) /\ map is_nan y = map is_nan x.
Proof.
  intros H Ha Hb Hab. apply in_fins in Ha. apply in_fins in Hb.
  assert (Hne : fins x <> []) by (intros E; rewrite E in Ha; destruct Ha).
  exists (normalize x). split; [reflexivity|].
  destruct (normalize_spec x a b H Hne Ha Hb Hab) as [E1 [E2 E3]].
  assert (HB : Forall blankable (normalize x) /\ fins (normalize x) <> []).
  { destruct (nanmin_spec x H Hne) as [mn [Emn Hmn]].
    destruct (nanmax_spec x H Hne) as [mx [Emx Hmx]].
    unfold normalize. rewrite Emn, Emx.
    apply (image_ok _ (fun r => (r - mn) / (mx - mn))); auto.
    intros r _. rewrite !fsub_fin, fdiv_fin; [reflexivity|].
    destruct Hmn as [_ L1], Hmx as [_ L2].
    pose proof (L1 a Ha); pose proof (L1 b Hb); pose proof (L2 a Ha); pose proof (L2 b Hb).
    intros E. apply Hab. lra. }
  destruct HB as [B N].
  destruct (nanmin_spec _ B N) as [m [Em Hm]]. rewrite E1 in Em. apply Fin_inj in Em. subst m.
  destruct (nanmax_spec _ B N) as [m [Em Hm']]. rewrite E2 in Em. apply Fin_inj in Em. subst m.
  auto.
Qed.

Lemma norm_example : Forall blankable [Fin 1; NaN; Fin 3] /\ fins [Fin 1; NaN; Fin 3] = [1; 3] /\
  rmean [1; 3] = 2 /\ rvar [1; 3] = 1 /\
  data_normalization [Fin 1; NaN; Fin 3] "center" = Ok [Fin (-1); NaN; Fin 1].
Proof.
  assert (Hb : Forall blankable [Fin 1; NaN; Fin 3]) by hv.
  assert (Em : rmean [1; 3] = 2) by (unfold rmean; cbn; field).
  repeat split; auto.
  - unfold rvar. rewrite Em. unfold rmean. cbn. field.
  - change (data_normalization _ _) with (Ok (center [Fin 1; NaN; Fin 3])). unfold center.
    rewrite nanmean_rmean by (auto; discriminate). change (fins _) with [1; 3]. rewrite Em.
    cbn. do 2 f_equal; [|do 2 f_equal]; f_equal; lra.
Qed.

(** ** Kullback-Leibler *)

Lemma kl_blanks_refuted : exists p q,
  Forall hist_value p /\ Forall hist_value q /\ length p = length q /\
  kl_divergence p q <>
  kl_divergence (map Fin (map fst (valid_pairs p q))) (map Fin (map snd (valid_pairs p q))).
Proof.
  exists [NaN; Fin (1/2); Fin (1/2)], [Fin (9/10); NaN; Fin (1/10)].
  split; [hv|]. split; [hv|]. split; [reflexivity|]. exact kl_misaligned.
Qed.

Lemma nonnan_hist p : Forall hist_value p ->
  filter is_fin (filter (fun v => negb (is_nan v)) p) = map Fin (fins p).
Proof.
  induction 1 as [|a p Ha Hp IH]; [reflexivity|].
  destruct a; cbn in Ha; try contradiction; cbn [filter is_nan negb is_fin].
  - rewrite IH. reflexivity.
  - exact IH.
Qed.

Lemma valid_same p q : Forall hist_value p -> Forall hist_value q -> map is_nan p = map is_nan q ->
  map fst (valid_pairs p q) = fins p /\ map snd (valid_pairs p q) = fins q.
Proof.
  intros Hp. revert q. induction Hp as [|a p Ha Hp IH]; intros [|b q] Hq E; try discriminate; [split; reflexivity|].
  inversion Hq as [|? ? Hb Hq']; subst. cbn in E. injection E as E1 E2.
  destruct (IH q Hq' E2) as [I1 I2].
  destruct a, b; cbn in Ha, Hb, E1; try contradiction; try discriminate.
  - change (valid_pairs (Fin r :: p) (Fin r0 :: q)) with ((r, r0) :: valid_pairs p q).
    cbn [map fst snd]. rewrite I1, I2. split; reflexivity.
  - change (valid_pairs (NaN :: p) (NaN :: q)) with (valid_pairs p q). auto.
Qed.

Lemma kl_same_blanks p q :
  Forall hist_value p -> Forall hist_value q -> map is_nan p = map is_nan q ->
  kl_divergence p q =
  kl_divergence (map Fin (map fst (valid_pairs p q))) (map Fin (map snd (valid_pairs p q))).
Proof.
  intros Hp Hq E. destruct (valid_same p q Hp Hq E) as [-> ->].
  unfold kl_divergence. rewrite !nonnan_hist by auto. now rewrite !filter_map_Fin_nan, !filter_map_Fin_fin.
Qed.

Lemma kl_example : lsum [1/4; 3/4] = 1 /\ lsum [1/2; 1/2] = 1 /\ (forall p, In p [1/4; 3/4] -> 0 < p).
Proof. cbn. repeat split; try lra. intros p [<-|[<-|[]]]; lra. Qed.

(** ** Bins *)

Lemma bins_example :
  common_histogram_bins 1 1 [Fin 0; NaN; Fin 2] [Fin 4; Fin 1] (Some 3%nat) false None (Some 2)
  = Ok (Some ([0; 1; 2], [1/2; 3/2])).
Proof.
  destruct (common_bins_spec 1 1 [Fin 0; NaN; Fin 2] [Fin 4; Fin 1] (Some 3%nat) false None (Some 2))
    as [lo [hi [I1 [I2 E]]]]; try (hv; fail); try discriminate; try lia.
  cbv zeta in E. rewrite E. clear E.
  assert (lo = 0).
  { apply (is_min_unique _ _ _ I1). split; [cbn; auto|]. cbn. intros y [<-|[<-|[<-|[<-|[]]]]]; lra. }
  assert (hi = 4).
  { apply (is_max_unique _ _ _ I2). split; [cbn; auto|]. cbn. intros y [<-|[<-|[<-|[<-|[]]]]]; lra. }
  subst. cbn [clip_lo clip_hi]. rewrite Rmin_right by lra.
  assert (EL : linspace 0 2 3 = [0; 1; 2]).
  { unfold linspace, tab1. cbn. repeat f_equal; field. }
  rewrite EL. assert (EC : centers [0;1;2] = [1/2;3/2]); [|now rewrite EC].
  unfold centers. change (slice None (Some (-1)%Z) 1 [0;1;2]) with [0;1]. change (slice (Some 1%Z) None 1 [0;1;2]) with [1;2]. cbn [map2]. repeat apply f_equal2; lra || reflexivity.
Qed.

Lemma common_scale_value a b tol s : common_scale a b tol = Ok s ->
  s = Rabs (scale0 b) / Rabs (scale0 a).
Proof.
  intros H. rewrite common_scale_square in H.
  - injection H as <-. reflexivity.
  - apply (proj1 (common_scale_defined a b tol)). eauto.
  - apply (proj1 (common_scale_defined a b tol)). eauto.
Qed.

Lemma common_scale_example : square (1/100000) {| distorted := false; scale0 := -2; scale1 := 2 |} /\
  common_scale {| distorted := false; scale0 := -2; scale1 := 2 |}
               {| distorted := false; scale0 := -1; scale1 := 1 |} (1/100000) = Ok (1/2).
Proof.
  assert (E2 : Rabs (-2) = 2) by (rewrite Rabs_left; lra).
  assert (E1 : Rabs (-1) = 1) by (rewrite Rabs_left; lra).
  assert (F2 : Rabs 2 = 2) by (rewrite Rabs_pos_eq; lra).
  assert (F1 : Rabs 1 = 1) by (rewrite Rabs_pos_eq; lra).
  assert (S2 : square (1/100000) {| distorted := false; scale0 := -2; scale1 := 2 |}).
  { split; [reflexivity|]. cbn [scale0 scale1]. rewrite E2, F2, Rminus_diag_eq, Rabs_R0 by reflexivity. lra. }
  assert (S1 : square (1/100000) {| distorted := false; scale0 := -1; scale1 := 1 |}).
  { split; [reflexivity|]. cbn [scale0 scale1]. rewrite E1, F1, Rminus_diag_eq, Rabs_R0 by reflexivity. lra. }
  split; [exact S2|]. rewrite common_scale_square by auto. cbn [scale0]. now rewrite E1, E2.
Qed.

Lemma padwith_spec {A} (v : A) vec pad0 pad1 : (1 <= pad1)%nat ->
  length (padwith v vec pad0 pad1) = length vec /\
  forall j d, (j < length vec)%nat ->
    nth j (padwith v vec pad0 pad1) d =
    if (Nat.ltb j pad0 || Nat.leb (length vec - pad1) j)%bool then v else nth j vec d.
Proof. intros H. split; [apply padwith_length|]. intros j d Hj. now apply padwith_nth. Qed.
