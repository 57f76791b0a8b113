(** Modified velocity centroids of maps seen from another side (C305). *)
From Coq Require Import Reals List ZArith Arith Bool Lia Lra Permutation.
From Coquelicot Require Import Complex.
From Verif Require Import Lib.PyBase Lib.PySlice Lib.Arr Lib.RSum Lib.Fl Lib.DFT Spec.Blank Spec.Freq Spec.ScfSpectrum Spec.PspecFit Spec.Turned Spec.Velocity
  Model.RfftToFft Model.Psds Model.EllipPlaw Model.FitState Model.ScfSpectrum Model.PspecFit Model.Beam Model.Mvc
  Proofs.RfftToFft_Proofs Proofs.Psds_Proofs Proofs.Beam_Proofs Proofs.Mvc_Proofs Proofs.Mvc2_Proofs Proofs.PspecFit_Proofs Proofs.PspecFit4_Proofs Proofs.Turned_Proofs.
Import ListNotations.
Local Open Scope R_scope.

Definition mvc_mode (ny nx : nat) (c m l : nat -> nat -> R) (k : nat * nat) : R :=
  (sqrt (mode_power ny nx (fun y x => c y x * m y x) k) - disp ny nx None c l * sqrt (mode_power ny nx m k)) ^ 2.
Lemma ft_power ny nx a k : ft_abs ny nx a (fst k) (snd k) = sqrt (mode_power ny nx a k).
Proof. unfold ft_abs, mode_power, Cmod, Cnorm2. f_equal. unfold Rsqr. ring. Qed.

Lemma mvc_per_mode ny nx c m l : (1 <= ny)%nat -> (1 <= nx)%nat ->
  mvc_ps2D (full ny nx c) (full ny nx m) (full ny nx l) None false None = Ok (per_mode ny nx (mvc_mode ny nx c m l)).
Proof.
  intros Y X. unfold mvc_ps2D. change (full ny nx c) with (map_of ny nx (fun y x => Fin (c y x))).
  change (full ny nx m) with (map_of ny nx (fun y x => Fin (m y x))).
  change (full ny nx l) with (map_of ny nx (fun y x => Fin (l y x))).
  rewrite init_ok. cbn [bind is_nan andb].
  rewrite (compute_fin ny nx _ None c m) by auto. cbn [bind centroid linewidth]. rewrite q_full by assumption.
  rewrite flip2_tab. apply (f_equal Ok). unfold per_mode. apply tab2_ext. intros i j I J.
  unfold mvc_mode. rewrite <- !ft_power. unfold mode_at. cbn [fst snd].
  change (tapered None (fun y x => c y x * m y x)) with (fun y x => c y x * m y x). change (tapered None m) with m.
  set (p := ft_abs ny nx _ _ _). set (q := ft_abs ny nx m _ _). set (d := disp ny nx None c l). clearbody p q d.
  cbn [fmul fsub fneg fadd fabs]. unfold fsqr, fmul. apply (f_equal Fin). rewrite <- (pow2_abs (p - d * q)). unfold Rminus. ring.
Qed.

Lemma mean2_left_right ny nx a : mean2 ny nx (left_right nx a) = mean2 ny nx a.
Proof. unfold mean2, left_right. f_equal. apply rsum_ext. intros y _. apply (rsum_rev nx (fun x => a y x)). Qed.
Lemma mean2_swapped ny nx a : mean2 nx ny (axes_swapped a) = mean2 ny nx a.
Proof. unfold mean2, axes_swapped. rewrite rsum_exchange. f_equal. ring. Qed.
Lemma mean2_up_down ny nx a : mean2 ny nx (up_down ny a) = mean2 ny nx a.
Proof. change (up_down ny a) with (axes_swapped (left_right ny (axes_swapped a))). rewrite (mean2_swapped nx ny), (mean2_left_right nx ny). apply mean2_swapped. Qed.

Lemma mvc_left_right ny nx c m l k : (snd k < nx)%nat ->
  mvc_mode ny nx (left_right nx c) (left_right nx m) (left_right nx l) k = mvc_mode ny nx c m l (fst k, neg nx (snd k)).
Proof.
  intros H. unfold mvc_mode. rewrite (power_left_right ny nx m k H). 
  change (fun y x => left_right nx c y x * left_right nx m y x) with (left_right nx (fun y x => c y x * m y x)). rewrite (power_left_right _ _ _ _ H).
  replace (disp ny nx None (left_right nx c) (left_right nx l)) with (disp ny nx None c l); [reflexivity|].
  symmetry. exact (mean2_left_right ny nx (fun y x => l y x ^ 2 + c y x ^ 2)).
Qed.
Lemma mvc_up_down ny nx c m l k : (fst k < ny)%nat ->
  mvc_mode ny nx (up_down ny c) (up_down ny m) (up_down ny l) k = mvc_mode ny nx c m l (neg ny (fst k), snd k).
Proof.
  intros H. unfold mvc_mode. rewrite (power_up_down ny nx m k H). 
  change (fun y x => up_down ny c y x * up_down ny m y x) with (up_down ny (fun y x => c y x * m y x)). rewrite (power_up_down _ _ _ _ H).
  replace (disp ny nx None (up_down ny c) (up_down ny l)) with (disp ny nx None c l); [reflexivity|].
  symmetry. exact (mean2_up_down ny nx (fun y x => l y x ^ 2 + c y x ^ 2)).
Qed.
Lemma mvc_swapped ny nx c m l k : mvc_mode nx ny (axes_swapped c) (axes_swapped m) (axes_swapped l) k = mvc_mode ny nx c m l (snd k, fst k).
Proof.
  unfold mvc_mode. rewrite (power_swapped ny nx m k).
  change (fun y x => axes_swapped c y x * axes_swapped m y x) with (axes_swapped (fun y x => c y x * m y x)). rewrite power_swapped.
  replace (disp nx ny None (axes_swapped c) (axes_swapped l)) with (disp ny nx None c l); [reflexivity|].
  symmetry. exact (mean2_swapped ny nx (fun y x => l y x ^ 2 + c y x ^ 2)).
Qed.

Theorem turned_mvc : forall tppf line err seg solve perms o ny nx centroid moment0 linewidth a, (1 <= ny)%nat -> (1 <= nx)%nat ->
  k_theta_0 (r_radial a) = None -> f_unbinned (r_fit a) = false -> r_fit_2D a = false ->
  let run ny nx (turn : (nat -> nat -> R) -> nat -> nat -> R) := do_prun tppf line err seg solve perms o
    (mvc_ps2D (full ny nx (turn centroid)) (full ny nx (turn moment0)) (full ny nx (turn linewidth)) None false None) a in
  same_run same_results (run ny nx (left_right nx)) (run ny nx (fun map => map)) /\
  same_run same_results (run ny nx (up_down ny)) (run ny nx (fun map => map)) /\
  same_run same_results (run nx ny axes_swapped) (run ny nx (fun map => map)) /\
  same_run same_results (run nx ny (quarter_turn ny)) (run ny nx (fun map => map)).
Proof.
  intros tppf line err seg solve perms o ny nx c m l a Hy Hx T U F. cbv beta zeta. rewrite !mvc_per_mode by assumption.
  assert (LR : forall ny nx c m l, alike ny nx (mvc_mode ny nx (left_right nx c) (left_right nx m) (left_right nx l)) ny nx (mvc_mode ny nx c m l)).
  { intros. eapply alike_trans; [|apply alike_left_right]. apply alike_ext. intros k _ H. now apply mvc_left_right. }
  assert (SW : alike nx ny (mvc_mode nx ny (axes_swapped c) (axes_swapped m) (axes_swapped l)) ny nx (mvc_mode ny nx c m l)).
  { eapply alike_trans; [|apply alike_swapped]. apply alike_ext. intros k _ _. apply mvc_swapped. }
  split; [|split; [|split]]; apply run_alike; auto.
  - eapply alike_trans; [|apply alike_up_down]. apply alike_ext. intros k H _. now apply mvc_up_down.
  - change (alike nx ny (mvc_mode nx ny (left_right ny (axes_swapped c)) (left_right ny (axes_swapped m)) (left_right ny (axes_swapped l))) ny nx (mvc_mode ny nx c m l)).
    eapply alike_trans; [apply LR|exact SW].
Qed.
