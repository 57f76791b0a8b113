From Coq Require Import Reals List Bool ZArith Lia Lra Arith.
From Verif Require Import Lib.PyBase Lib.RSum Lib.Fl Lib.Arr Lib.Hist Spec.Blank Spec.Bins Spec.Distrib Spec.Tree Model.StatsUtils Model.Dendro.
From Verif Require Import Proofs.Fl_Proofs Proofs.FlAlg_Proofs Proofs.StatsUtils_Proofs Proofs.StatsUtils2_Proofs Proofs.Hist_Proofs Proofs.Bispec3_Proofs Proofs.Dendro_Proofs.
Import ListNotations.
Local Open Scope R_scope.

(** Standardized values. *)
Lemma rvar_pos v : varied v -> 0 < rvar v.
Proof.
  intros [x [y [Hx [Hy N]]]]. assert (L : 0 < INR (length v)) by (apply lt_0_INR; destruct v; [destruct Hx|cbn; lia]).
  unfold rvar at 1, rmean at 1. rewrite map_length. apply Rdiv_lt_0_compat; [|exact L].
  assert (P : forall z, In z (map (fun r => (r - rmean v) * (r - rmean v)) v) -> 0 <= z) by (intros z Hz; apply in_map_iff in Hz; destruct Hz as [r [<- _]]; apply Rle_0_sqr).
  destruct (Rle_lt_or_eq_dec _ _ (lsum_nonneg _ P)) as [G|G]; [exact G|]. exfalso. symmetry in G.
  assert (Z : forall r, In r v -> r = rmean v).
  { intros r Hr. assert (Q : (r - rmean v) * (r - rmean v) = 0) by (apply (lsum_nonneg_eq0 _ P G); now apply (in_map (fun r => (r - rmean v) * (r - rmean v)))). apply Rmult_integral in Q. lra. }
  apply N. rewrite (Z x Hx), (Z y Hy). reflexivity.
Qed.
Lemma std_val v : varied v -> standardize (map Fin v) = map Fin (zscores v).
Proof.
  intros V. pose proof (rvar_pos v V) as P. assert (NE : fins (map Fin v) <> []) by (rewrite fins_map_Fin; destruct V as [x [_ [H _]]]; destruct v; [destruct H|discriminate]).
  assert (B : Forall blankable (map Fin v)) by (apply Forall_forall; intros z Hz; apply in_map_iff in Hz; destruct Hz as [r [<- _]]; exact I).
  unfold standardize, zscores. rewrite nanmean_rmean, nanstd_rvar by auto. rewrite fins_map_Fin, !map_map. apply map_ext. intros r. cbn [fsub fadd fneg]. 
  apply fdiv_fin. assert (0 < sqrt (rvar v)) by now apply sqrt_lt_R0. lra.
Qed.
Lemma zscores_length v : length (zscores v) = length v.
Proof. apply map_length. Qed.
Lemma zscores_varied v : varied v -> varied (zscores v).
Proof.
  intros V. assert (Q : 0 < sqrt (rvar v)) by (apply sqrt_lt_R0; now apply rvar_pos). destruct V as [x [y [Hx [Hy N]]]]. unfold zscores.
  exists ((x - rmean v) / sqrt (rvar v)), ((y - rmean v) / sqrt (rvar v)). split; [now apply (in_map (fun x => (x - rmean v) / sqrt (rvar v)))|]. split; [now apply (in_map (fun x => (x - rmean v) / sqrt (rvar v)))|].
  intros E. apply N. unfold Rdiv in E. apply Rmult_eq_reg_r in E; [lra|]. apply Rgt_not_eq. now apply Rinv_0_lt_compat.
Qed.
Lemma rvar_def v : rvar v = lsum (map (fun r => (r - rmean v) * (r - rmean v)) v) / INR (length v).
Proof. unfold rvar. unfold rmean at 1. now rewrite map_length. Qed.
Lemma zscores_affine a b v : 0 < a -> varied v -> zscores (map (fun x => a * x + b) v) = zscores v.
Proof.
  intros A V. assert (Q : 0 < sqrt (rvar v)) by (apply sqrt_lt_R0; now apply rvar_pos).
  assert (L : INR (length v) <> 0) by (apply not_0_INR; destruct V as [x [_ [H _]]]; destruct v; [destruct H|discriminate]).
  assert (M : rmean (map (fun x => a * x + b) v) = a * rmean v + b).
  { unfold rmean. rewrite map_length. rewrite (lsum_map_plus (fun x => a * x) (fun _ => b)), lsum_map_const. rewrite <- (map_id v) at 1. rewrite map_map. rewrite lsum_map_scal, map_id. field. exact L. }
  assert (W : rvar (map (fun x => a * x + b) v) = a * a * rvar v).
  { rewrite !rvar_def, M, map_length, map_map. rewrite (map_ext (fun x => (a * x + b - (a * rmean v + b)) * (a * x + b - (a * rmean v + b))) (fun x => (a * a) * ((x - rmean v) * (x - rmean v)))) by (intro; ring). rewrite lsum_map_scal. unfold Rdiv. ring. }
  unfold zscores at 1. rewrite M, W, map_map. unfold zscores. apply map_ext. intros x. pose proof (rvar_pos v V). rewrite sqrt_mult by nra. rewrite sqrt_square by lra. field. split; lra.
Qed.

(** Common edges. *)
Lemma limits v1 v2 : v1 <> [] -> v2 <> [] -> exists lo hi, is_min lo (v1 ++ v2) /\ is_max hi (v1 ++ v2) /\
  forall nb, (1 <= nb)%nat -> common_histogram_bins 1 1 (map Fin v1) (map Fin v2) (Some (nb + 1)%nat) false None None = Ok (Some (even_edges lo hi nb, centers (even_edges lo hi nb))).
Proof.
  intros N1 N2. assert (B : forall v, Forall blankable (map Fin v)) by (intros v; apply Forall_forall; intros z Hz; apply in_map_iff in Hz; destruct Hz as [r [<- _]]; exact I).
  destruct (limits_spec (map Fin v1) (map Fin v2)) as [lo [hi [E1 [E2 [I1 I2]]]]]; auto; rewrite ?fins_map_Fin in *; auto. exists lo, hi. split; [exact I1|]. split; [exact I2|]. intros nb H.
  unfold common_histogram_bins. cbn [Nat.ltb Nat.leb orb]. cbv zeta. rewrite E1, E2. replace (linspace lo hi (nb + 1)) with (even_edges lo hi nb); [reflexivity|].
  unfold even_edges. replace (nb + 1)%nat with (S (S (nb - 1))) by lia. unfold linspace. replace (S (nb - 1)) with nb by lia. reflexivity.
Qed.
Lemma even_linspace lo hi nb : (1 <= nb)%nat -> even_edges lo hi nb = linspace lo hi (nb + 1).
Proof. intros H. unfold even_edges. replace (nb + 1)%nat with (S (S (nb - 1))) by lia. unfold linspace. replace (S (nb - 1)) with nb by lia. reflexivity. Qed.

Lemma nansum_padded v k : nansum (padded v k) = Fin (lsum v).
Proof.
  unfold nansum, padded, nonnan. rewrite filter_app.
  replace (filter (fun x => negb (is_nan x)) (map Fin v)) with (map Fin v) by (induction v as [|x v IH]; [reflexivity|]; cbn; now rewrite <- IH).
  replace (filter (fun x => negb (is_nan x)) (repeat NaN k)) with (@nil fl) by (induction k as [|k IH]; [reflexivity|]; cbn; exact IH). rewrite app_nil_r. apply fsum_Fin.
Qed.

(** One histogram. *)
Section Row.
Variables (z : list R) (lo hi : R) (nb maxb : nat).
Hypothesis NB : (1 <= nb <= maxb)%nat.
Hypothesis LH : lo < hi.
Hypothesis NE : z <> [].
Hypothesis IN : forall x, In x z -> lo <= x <= hi.
Lemma edges_len : length (even_edges lo hi nb) = (nb + 1)%nat.
Proof. apply tab1_length. Qed.
Lemma edges_incr : increasing (even_edges lo hi nb).
Proof. rewrite even_linspace by lia. now apply linspace_increasing. Qed.
Lemma edges_range x : In x z -> in_range (even_edges lo hi nb) x.
Proof.
  intros H. unfold in_range. rewrite edges_len. rewrite even_linspace by lia. rewrite linspace_first, linspace_last by lia. now apply IN.
Qed.
Lemma edges_step i : (i < nb)%nat -> nth (S i) (even_edges lo hi nb) 0 - nth i (even_edges lo hi nb) 0 = (hi - lo) / INR nb.
Proof. intros H. rewrite even_linspace by lia. rewrite linspace_step by lia. now replace (nb + 1 - 1)%nat with nb by lia. Qed.
Lemma total_all : lsum (counts z (even_edges lo hi nb)) = INR (length z).
Proof.
  rewrite counts_sum by (rewrite edges_len; lia). rewrite count_le_all, count_lt_none; [cbn [INR]; ring| |]; intros x Hx; apply (edges_range x Hx).
Qed.
Lemma shares_len : length (shares z (even_edges lo hi nb)) = nb.
Proof. unfold shares. rewrite tab1_length, edges_len. lia. Qed.
Lemma zlen : 0 < INR (length z).
Proof. apply lt_0_INR. destruct z; [contradiction|cbn; lia]. Qed.
Lemma shares_counts : shares z (even_edges lo hi nb) = map (fun c => c / INR (length z)) (counts z (even_edges lo hi nb)).
Proof.
  apply (nth_ext _ _ 0 (0 / INR (length z))); [now rewrite shares_len, map_length, counts_length, edges_len; lia|]. intros i Hi. rewrite shares_len in Hi.
  rewrite (map_nth (fun c => c / INR (length z))). rewrite counts_are by (auto using edges_incr; rewrite edges_len; lia). unfold shares. now rewrite tab1_nth by (rewrite edges_len; lia).
Qed.
Lemma shares_sum : lsum (shares z (even_edges lo hi nb)) = 1.
Proof. rewrite shares_counts. unfold Rdiv. rewrite lsum_map_scal_r, map_id, total_all. apply Rinv_r. pose proof zlen. lra. Qed.
Lemma shares_nonneg x : In x (shares z (even_edges lo hi nb)) -> 0 <= x.
Proof.
  intros H. apply (In_nth _ _ 0) in H. destruct H as [i [Hi <-]]. rewrite shares_len in Hi. unfold shares. rewrite tab1_nth by (rewrite edges_len; lia).
  apply Rmult_le_pos; [apply pos_INR|]. left. apply Rinv_0_lt_compat. apply zlen.
Qed.
Lemma row_val : hist_row (map Fin z) (even_edges lo hi nb) maxb = Ok (padded (shares z (even_edges lo hi nb)) (maxb - nb)).
Proof.
  pose proof zlen as ZL. set (e := even_edges lo hi nb). assert (EX : exists x, In x z) by (destruct z as [|x r]; [contradiction|exists x; now left]). destruct EX as [x Hx].
  assert (EL : length e = (nb + 1)%nat) by apply edges_len.
  destruct (histogram_edges z e x) as [HE _]; [apply edges_incr|lia|exact Hx|now apply edges_range|].
  destruct (density_pdf z e x) as [_ DN]; [apply edges_incr|lia|exact Hx|now apply edges_range|].
  set (w := (hi - lo) / INR nb). assert (W : 0 < w) by (apply Rdiv_lt_0_compat; [lra|apply lt_0_INR; lia]).
  assert (D : density z e = map Fin (map (fun s => s * / w) (shares z e))).
  { apply (nth_ext _ _ NaN (Fin (0 * / w))); [unfold density; rewrite tab1_length, !map_length; unfold shares; rewrite tab1_length; reflexivity|]. intros i Hi. unfold density in Hi at 1. rewrite tab1_length, EL in Hi.
    rewrite DN by lia. rewrite (map_nth Fin). rewrite (map_nth (fun s => s * / w)). unfold shares. rewrite tab1_nth by lia. f_equal. unfold e. rewrite edges_step, total_all by lia. fold w. field. split; lra. }
  unfold hist_row. cbn [histogram_fl]. rewrite fins_map_Fin, HE. cbn [bind fst]. rewrite D, EL. replace (maxb + 1 - (nb + 1))%nat with (maxb - nb)%nat by lia. f_equal.
  change (map Fin ?a ++ repeat NaN ?b) with (padded a b). rewrite nansum_padded. rewrite lsum_map_scal_r, map_id. assert (SS : lsum (shares z e) = 1) by apply shares_sum. rewrite SS. unfold padded. rewrite map_app, !map_map. f_equal.
  - apply map_ext. intros s. rewrite fdiv_fin; [f_equal; field; lra|]. rewrite Rmult_1_l. apply Rgt_not_eq. now apply Rinv_0_lt_compat.
  - induction (maxb - nb)%nat as [|k IH]; [reflexivity|]. cbn [repeat map]. now rewrite IH.
Qed.
End Row.

Lemma padded_hist v k : (forall x, In x v -> 0 <= x) -> Forall hist_value (padded v k).
Proof.
  intros H. apply Forall_forall. intros x Hx. unfold padded in Hx. apply in_app_or in Hx. destruct Hx as [Hx|Hx]; [apply in_map_iff in Hx; destruct Hx as [r [<- Hr]]; now apply H|apply repeat_spec in Hx; subst; exact I].
Qed.
Lemma padded_fins v k : fins (padded v k) = v.
Proof. unfold padded, fins. rewrite flat_map_app. change (flat_map _ (map Fin v)) with (fins (map Fin v)). rewrite fins_map_Fin. induction k as [|k IH]; [apply app_nil_r|]. exact IH. Qed.
Lemma padded_length v k : length (padded v k) = (length v + k)%nat.
Proof. unfold padded. now rewrite app_length, map_length, repeat_length. Qed.
