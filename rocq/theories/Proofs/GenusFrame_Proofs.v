(** Proofs for C321: orientation and blank surroundings do not matter to Genus without smoothing. *)
From Coq Require Import Reals List Bool ZArith Arith Lra Lia Permutation Relation_Operators.
From Verif Require Import Lib.PyBase Lib.RSum Lib.Fl Spec.Blank Spec.Regions Spec.MomentsFrame Spec.Turned Spec.GenusRun Spec.GenusFrame Model.Units Model.Distances Model.Genus Model.GenusRun.
From Verif Require Import Proofs.Fl_Proofs Proofs.Genus_Proofs Proofs.MomentsFrame_Proofs Proofs.ScfFrame_Proofs.
From Verif Require Proofs.TsallisFrame_Proofs Proofs.TurnedTsallis_Proofs Proofs.TurnedMoments_Proofs Proofs.Orders_Proofs Proofs.GenusRun3_Proofs Proofs.MomentsRun4_Proofs.
Import ListNotations.
Local Open Scope R_scope.

(** ** One threshold *)
Lemma label_none c n0 n1 mask : (forall p, mask p = false) -> snd (nd_label c n0 n1 mask) = 0%nat.
Proof.
  intros H. unfold nd_label. cbn [snd]. replace (filter mask (pixels n0 n1)) with (@nil pixel); [reflexivity|].
  induction (pixels n0 n1) as [|a l IH]; [reflexivity|]. cbn [filter]. now rewrite H.
Qed.
Lemma genus_nan n0 n1 img rm m c : genus_at n0 n1 img NaN rm m c = 0%Z.
Proof.
  assert (K : forall mask : pixel -> bool, (forall p, mask p = false) -> forall p, remove_small_objects n0 n1 mask m c p = false).
  { intros mask H p. destruct (remove_small_objects n0 n1 mask m c p) eqn:E; [|reflexivity]. apply remove_subset in E. now rewrite H in E. }
  assert (L : forall x, fltb NaN x = false) by (intros x; now destruct x). assert (G : forall x, fltb x NaN = false) by (intros x; now destruct x).
  unfold genus_at. cbv zeta. destruct rm; rewrite !label_none; try reflexivity; intros p; auto.
Qed.
Lemma shows_genus im im' t rm m c : shows im im' -> number_or_nan t ->
  genus_at (i_n0 im') (i_n1 im') (i_pix im') t rm m c = genus_at (i_n0 im) (i_n1 im) (i_pix im) t rm m c.
Proof.
  intros S [->|[r ->]]; [now rewrite !genus_nan|]. destruct S as [N0 N1 o0 o1 im H0 H1|v im].
  - apply (genus_border (i_n0 im) (i_n1 im) N0 N1 o0 o1 (i_pix im)); [exact H0|exact H1| |].
    + intros [y x] [Hy Hx]. cbn [fst snd] in *. cbn [in_field i_pix fst snd]. rewrite placed_box.
      replace (inbox (i_n0 im) o0 (y + o0) && inbox (i_n1 im) o1 (x + o1)) with true by (symmetry; rewrite andb_true_iff, !inbox_spec; lia). unfold rows_of. do 2 f_equal; lia.
    + intros [y x] H. cbn [fst snd] in *. cbn [in_field i_pix fst snd]. rewrite placed_box.
      replace (inbox (i_n0 im) o0 y && inbox (i_n1 im) o1 x) with false; [reflexivity|]. symmetry. apply not_true_iff_false. now rewrite andb_true_iff, !inbox_spec.
  - destruct v; cbn [turned i_n0 i_n1 i_pix rows_seen columns_seen seen]; unfold left_right, up_down, axes_swapped, quarter_turn, rows_of.
    + apply (genus_flip_cols (i_n0 im) (i_n1 im) (i_pix im)).
    + apply (genus_flip_rows (i_n0 im) (i_n1 im) (i_pix im)).
    + apply (genus_transpose (i_n0 im) (i_n1 im) (i_pix im)).
    + rewrite (genus_transpose (i_n0 im) (i_n1 im) (fun p => i_pix im ((i_n0 im - 1 - fst p)%nat, snd p))). apply (genus_flip_rows (i_n0 im) (i_n1 im) (i_pix im)).
Qed.

(** ** The values *)
Lemma shows_values im im' : shows im im' -> Permutation (nonnan (values im')) (nonnan (values im)).
Proof.
  intros [N0 N1 o0 o1 im0 H0 H1|v im0]; unfold values, pixels.
  - cbn [in_field i_n0 i_n1 i_pix].
    rewrite (nonnan_some (fun p => placed (i_n0 im0) (i_n1 im0) o0 o1 (rows_of im0) (fst p) (snd p)) (fun q => inbox (i_n0 im0) o0 (fst q) && inbox (i_n1 im0) o1 (snd q))).
    2: { intros q _ B. rewrite placed_box. now rewrite B. }
    apply TurnedMoments_Proofs.perm_filter. rewrite (box_perm _ _ N0 N1 o0 o1 H0 H1), map_map. apply Permutation_refl', map_ext_in.
    intros [y x] H. apply in_prod_iff in H. rewrite !in_seq in H. cbn [fst snd]. rewrite placed_box.
    replace (inbox (i_n0 im0) o0 (o0 + y) && inbox (i_n1 im0) o1 (o1 + x)) with true by (symmetry; rewrite andb_true_iff, !inbox_spec; lia). unfold rows_of. do 2 f_equal; lia.
  - cbn [turned i_n0 i_n1 i_pix]. apply TurnedMoments_Proofs.perm_filter.
    rewrite (TurnedMoments_Proofs.pixels_seen v (i_n0 im0) (i_n1 im0) (rows_of im0) (seen v (i_n0 im0) (i_n1 im0) (rows_of im0)) (fun _ _ _ _ => eq_refl)).
    apply Permutation_refl', map_ext. now intros [y x].
Qed.
Lemma mean_same l l' : Permutation (nonnan l) (nonnan l') -> nanmean l = nanmean l'.
Proof. intros P. rewrite (TsallisFrame_Proofs.nanmean_seen l), (TsallisFrame_Proofs.nanmean_seen l'). now apply Orders_Proofs.nanmean_perm. Qed.
Lemma std_same l l' : Permutation (nonnan l) (nonnan l') -> nanstd l = nanstd l'.
Proof. intros P. rewrite (TsallisFrame_Proofs.nanstd_seen l), (TsallisFrame_Proofs.nanstd_seen l'). now apply TurnedTsallis_Proofs.nanstd_perm. Qed.
Lemma shows_readable im im' : readable im -> shows im im' -> readable im'.
Proof.
  intros H S p. destruct S as [N0 N1 o0 o1 im0 H0 H1|v im0].
  - cbn [in_field i_pix]. rewrite placed_box. match goal with |- context [if ?b then _ else _] => destruct b end; [apply H|now left].
  - cbn [turned i_pix]. destruct v; apply H.
Qed.
Lemma fins_in l l' r : Forall blankable l -> Forall blankable l' -> Permutation (nonnan l) (nonnan l') -> In r (fins l) -> In r (fins l').
Proof.
  intros B B' P H. rewrite (MomentsRun4_Proofs.nonnan_fins _ B), (MomentsRun4_Proofs.nonnan_fins _ B') in P.
  pose proof (Permutation_in (Fin r) P (in_map Fin _ _ H)) as K. apply in_map_iff in K. destruct K as [x [[= ->] K]]. exact K.
Qed.
Lemma min_perm l l' : Forall blankable l -> Forall blankable l' -> Permutation (nonnan l) (nonnan l') -> nanmin l = nanmin l' /\ nanmax l = nanmax l'.
Proof.
  intros B B' P. pose proof (fun r => fins_in l l' r B B' P) as I1. pose proof (fun r => fins_in l' l r B' B (Permutation_sym P)) as I2.
  destruct (fins l) as [|a r] eqn:E.
  - assert (E' : fins l' = []) by (destruct (fins l') as [|b q]; [reflexivity|destruct (I2 b (or_introl eq_refl))]).
    rewrite (MomentsRun4_Proofs.nanmin_fins _ B), (MomentsRun4_Proofs.nanmin_fins _ B'), (MomentsRun4_Proofs.nanmax_fins _ B), (MomentsRun4_Proofs.nanmax_fins _ B'), E, E'. now split.
  - assert (N' : fins l' <> []) by (intros E'; specialize (I1 a (or_introl eq_refl)); now rewrite E' in I1).
    assert (N : fins l <> []) by (rewrite E; discriminate). rewrite <- E in I1, I2.
    destruct (nanmin_spec l B N) as [m [-> M]], (nanmin_spec l' B' N') as [m' [-> M']], (nanmax_spec l B N) as [x [-> X]], (nanmax_spec l' B' N') as [x' [-> X']].
    unfold is_min, is_max in *. split; f_equal.
    + destruct M as [M1 M2], M' as [M1' M2']. apply Rle_antisym; [apply M2, I2, M1'|apply M2', I1, M1].
    + destruct X as [M1 M2], X' as [M1' M2']. apply Rle_antisym; [apply M2', I1, M1|apply M2, I2, M1'].
Qed.
Lemma thresholds_same pc im im' a : placeless pc -> readable im -> shows im im' -> thresholds_fl pc im' a = thresholds_fl pc im a.
Proof.
  intros HP HR S. pose proof (shows_values _ _ S) as P.
  destruct (min_perm _ _ (GenusRun3_Proofs.readable_blankable _ (shows_readable _ _ HR S)) (GenusRun3_Proofs.readable_blankable _ HR) P) as [Mn Mx].
  unfold thresholds_fl. rewrite Mn, Mx, (HP _ _ (a_low a) P), (HP _ _ (a_high a) P). reflexivity.
Qed.
Lemma thresholds_kind pc im a : Forall number_or_nan (thresholds_fl pc im a).
Proof.
  assert (K : forall l, Forall number_or_nan (map Fin l)) by (intros l; apply Forall_forall; intros x H; apply in_map_iff in H; destruct H as [r [<- _]]; right; now exists r).
  assert (Q : forall n, Forall number_or_nan (repeat NaN n)) by (intros n; apply Forall_forall; intros x H; apply repeat_spec in H; now left).
  unfold thresholds_fl. destruct (a_thresholds a); [apply K|]. unfold flinspace.
  repeat match goal with |- context [match ?b with _ => _ end] => destruct b end; auto.
Qed.

(** ** The objects *)
Definition alike (o o' : gobj) : Prop :=
  shows (g_image o) (g_image o') /\ g_stat o' = g_stat o /\ g_beam o' = g_beam o /\ g_smoothing o = false /\ g_smoothing o' = false /\
  g_thresholds o' = g_thresholds o /\ Forall number_or_nan (g_thresholds o) /\ g_radii o = NoSmoothing /\ g_radii o' = NoSmoothing /\
  results o' = results o.
Lemma alike_call sm mem o o' c : alike o o' -> alike (fst (do_call sm mem o c)) (fst (do_call sm mem o' c)) /\ snd (do_call sm mem o' c) = snd (do_call sm mem o c).
Proof.
  intros (S & E1 & E2 & B & B' & T & K & G & G' & Q). destruct c as [k|a].
  - cbn [do_call]. unfold make_curve. rewrite E1, E2, G, G'. destruct (min_size_of (g_stat o) (g_beam o) (k_beam k) (k_size k)) as [m|e].
    + cbn [widths until_raised]. unfold at_radius, smoothed. cbn [bind]. cbn [fst snd].
      assert (C : map (fun t => Fin (IZR (genus_at (i_n0 (g_image o')) (i_n1 (g_image o')) (i_pix (g_image o')) t (k_removal k) m (k_connectivity k)))) (g_thresholds o') =
                  map (fun t => Fin (IZR (genus_at (i_n0 (g_image o)) (i_n1 (g_image o)) (i_pix (g_image o)) t (k_removal k) m (k_connectivity k)))) (g_thresholds o)).
      { rewrite T. apply map_ext_in. intros t H. rewrite Forall_forall in K. do 2 f_equal. apply shows_genus; auto. }
      split; [|reflexivity]. unfold alike, results.
      destruct (k_keep k); cbn [with_images with_curves g_image g_stat g_beam g_smoothing g_thresholds g_radii g_stats g_means g_stds g_images fst snd map];
        rewrite C, (mean_same _ _ (shows_values _ _ S)), (std_same _ _ (shows_values _ _ S)), ?T; repeat split; auto.
    + split; [|reflexivity]. unfold alike, results in *. destruct (k_keep k); cbn [fst with_images g_image g_stat g_beam g_smoothing g_thresholds g_radii g_stats g_means g_stds]; repeat split; auto.
  - cbn [do_call]. unfold set_radii, radii_of. rewrite B, B'. cbn [fst snd]. split; [|reflexivity].
    unfold alike, results in *. cbn [with_radii g_image g_stat g_beam g_smoothing g_thresholds g_radii g_stats g_means g_stds]. repeat split; auto.
Qed.
Lemma alike_history sm mem h : forall o o', alike o o' -> alike (history sm mem o h) (history sm mem o' h).
Proof. unfold history. induction h as [|c h IH]; intros o o' A; [exact A|]. cbn [fold_left]. apply IH. now apply alike_call. Qed.
Lemma init_alike pc im im' st beam a o : placeless pc -> readable im -> shows im im' -> a_smoothing a = false -> genus_init pc im st beam a = Ok o ->
  exists o', genus_init pc im' st beam a = Ok o' /\ alike o o'.
Proof.
  intros HP HR S A. unfold genus_init. rewrite A. cbn [radii_of bind]. intros [= <-]. eexists. split; [reflexivity|].
  unfold alike, results. cbn [g_image g_stat g_beam g_smoothing g_thresholds g_radii g_stats g_means g_stds]. rewrite (thresholds_same pc im im' a HP HR S). repeat split; auto. apply thresholds_kind.
Qed.
Theorem object_same : forall pc sm mem im im' st beam a o h c, placeless pc -> readable im -> same_picture im im' -> a_smoothing a = false -> genus_init pc im st beam a = Ok o ->
  exists o', genus_init pc im' st beam a = Ok o' /\ g_thresholds (history sm mem o' h) = g_thresholds (history sm mem o h) /\
    results (history sm mem o' h) = results (history sm mem o h) /\ snd (do_call sm mem (history sm mem o' h) c) = snd (do_call sm mem (history sm mem o h) c).
Proof.
  intros pc sm mem im im' st beam a o h c HP HR S A. revert o. induction S as [im|im im1 im2 S1 S2 IH]; intros o E; [exists o; auto|].
  destruct (init_alike pc im im1 st beam a o HP HR S1 A E) as [o1 [E1 K]].
  pose proof (alike_history sm mem h o o1 K) as L. destruct (alike_call sm mem _ _ c L) as [_ X]. destruct L as (_ & _ & _ & _ & _ & T & _ & _ & _ & Q).
  destruct (IH (shows_readable _ _ HR S1) o1 E1) as [o2 (E2 & T2 & Q2 & X2)]. exists o2. split; [exact E2|]. rewrite T2, Q2, X2. auto.
Qed.

(** ** A case *)
Definition four : image := mk_im 2 2 (fun p => match p with (0, 0) => Fin 1 | (1, 1) => Fin 3 | (0, 1) => Fin 2 | _ => NaN end%nat).
Lemma four_readable : readable four.
Proof. intros [[|[|y]] [|[|x]]]; cbn; eauto. Qed.
Lemma four_picture : same_picture four (in_field 7 9 3 2 (turned QuarterTurn (in_field 3 4 1 0 four))).
Proof.
  eapply rt1n_trans; [apply (shows_field 3 4 1 0); cbn; lia|]. eapply rt1n_trans; [apply (shows_turned QuarterTurn)|].
  eapply rt1n_trans; [apply (shows_field 7 9 3 2); cbn; lia|]. constructor.
Qed.
