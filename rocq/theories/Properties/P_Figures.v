(** C296-C298: figures and the files they are saved to. *)
From Coq Require Import List Arith Bool Ascii String Lia.
From Verif Require Import Lib.PyBase Model.Figures Spec.Figures Proofs.Figures_Proofs Proofs.Figures2_Proofs.
Import ListNotations.

(** *** C296: a saved figure shows its own plot, and the caller's figures stay *)
(** Any program of saved plots of any statistics, with no figure open at the start: each file has
    the plots of its call and no others, and no figure is left open. *)
Theorem C296_saved_partial : forall closing known more l, Forall (saved known) l -> (closing = false \/ forall c, In c l -> overlaid c = false) ->
  exists s, exec_all closing known more l nothing_open = (s, None) /\ opened s = [] /\ contents s = flat_map shall_write l.
Proof. intros closing known more l S K. exact (all_saved known more closing l S K []). Qed.
Print Assumptions C296_saved_partial.
(** The plots that make figures of their own, with any figures open: these stay as they are. *)
Theorem C296_own_figure_partial : forall closing known more c s, own_figure c = true -> saved known c ->
  exists s', exec closing known more c s = (s', None) /\ opened s' = opened s /\ contents s' = contents s ++ shall_write c.
Proof. intros closing known more c s. exact (own_alone known more closing c s). Qed.
Print Assumptions C296_own_figure_partial.
(** PowerSpectrum, VCA and MVC close a second figure, which is the caller's. *)
Theorem C296_second_close_refuted : forall closing known more st k m p u rest fs, In st [PowerSpectrum; VCA; MVC] -> formatted known p ->
  exists s, exec closing known more (Run st k m (Some p)) (mk_plt (mk_fig 0 [] :: u :: rest) fs) = (s, None) /\ opened s = rest.
Proof. exact two_closed. Qed.
Print Assumptions C296_second_close_refuted.
(** The caller's current figure is drawn over and closed, and is in the file. *)
Theorem C296_drawn_over_refuted : forall closing known more st k m p f rest fs, In st [PCA; Bispectrum; Genus; PDF; StatMoments; Dendrogram_Stats] -> formatted known p ->
  exists s, exec closing known more (Run st k m (Some p)) (mk_plt (f :: rest) fs) = (s, None) /\ opened s = rest /\
    contents s = contents (mk_plt (f :: rest) fs) ++ [(p, f_marks f ++ [m])].
Proof. exact drawn_over. Qed.
Print Assumptions C296_drawn_over_refuted.
(** A plot that was shown is in the file of the next one, where plt.show() keeps figures open. *)
Theorem C296_shown_refuted : forall known more st st' k k' m1 m2 p, In st [PCA; Bispectrum; Genus; PDF; StatMoments; Dendrogram_Stats] -> In st' [PCA; Bispectrum; Genus; PDF; StatMoments; Dendrogram_Stats] -> formatted known p ->
  exists s, exec_all false known more [Run st k m1 None; Run st' k' m2 (Some p)] nothing_open = (s, None) /\ contents s = [(p, [m1; m2])].
Proof. exact shown_then_saved. Qed.
Print Assumptions C296_shown_refuted.
(** With a figure of one plot open, seven statistics cannot be plotted. *)
Theorem C296_one_axis_refuted : forall closing known more st k m save marks rest fs, In st [PowerSpectrum; VCA; MVC; VCS; Wavelet; DeltaVariance; SCF] ->
  exists s, exec closing known more (Run st k m save) (mk_plt (mk_fig 1 marks :: rest) fs) = (s, Some UnboundLocalError) /\ files s = fs.
Proof. exact one_axis. Qed.
Print Assumptions C296_one_axis_refuted.

Definition png (p : name) : bool := if list_eq_dec Ascii.ascii_dec p (text "png") then true else false.
Lemma formatted_png d stem : (d = [] \/ exists d', d = d' ++ [slash]) -> ~ In slash stem -> (exists x, In x stem /\ x <> dot) -> formatted png (d ++ stem ++ text ".png").
Proof.
  intros D S X. exists (text "png"). split; [|split; [discriminate|reflexivity]].
  exists d, stem. split; [reflexivity|]. split; [exact D|]. split; [exact S|]. split; [|split; [|exact X]]; cbn; intros I; decompose [or] I; try discriminate; assumption.
Qed.
Lemma formatted_fig : formatted png (text "out.d/fig.png").
Proof.
  apply (formatted_png (text "out.d/") (text "fig")).
  - right. exists (text "out.d"). reflexivity.
  - cbn. intros I. decompose [or] I; try discriminate; assumption.
  - exists "f"%char. split; [now left|discriminate].
Qed.
Example C296_used : Forall (saved png) [Run PowerSpectrum 4 1 (Some (text "out.d/fig.png")); Run PCA 4 2 (Some (text "out.d/fig.png")); Compare Cramer_Distance 2 3 4 (Some (text "out.d/fig.png"))] /\
  own_figure (Compare SCF_Distance 5 1 2 (Some (text "out.d/fig.png"))) = true.
Proof. split; [repeat constructor; (exists (text "out.d/fig.png"); split; [reflexivity|exact formatted_fig])|reflexivity]. Qed.

(** *** C297: comparison plots show both data sets *)
(** Both data sets are in the file where plt.show() keeps figures open; the comparisons that draw
    by themselves do not depend on it. *)
Theorem C297_both_partial : forall closing known more c k m1 m2 p, c <> Dendrogram_Distance -> formatted known p -> (closing = false \/ overlays c = false) ->
  exists s, exec closing known more (Compare c k m1 m2 (Some p)) nothing_open = (s, None) /\ opened s = [] /\ contents s = [(p, [m1; m2])].
Proof.
  intros closing known more c k m1 m2 p N F K.
  destruct (exec_saved known more closing (Compare c k m1 m2 (Some p)) [] ltac:(exists p; auto) K) as (s & E & O & C).
  exists s. split; [exact E|]. split; [exact O|]. rewrite C. now destruct c.
Qed.
Print Assumptions C297_both_partial.
(** The comparison of SCF makes a figure of its own, whatever figures are open. *)
Theorem C297_own_partial : forall closing known more k m1 m2 p s, formatted known p ->
  exists s', exec closing known more (Compare SCF_Distance k m1 m2 (Some p)) s = (s', None) /\ opened s' = opened s /\ contents s' = contents s ++ [(p, [m1; m2])].
Proof. intros closing known more k m1 m2 p s F. exact (own_alone known more closing (Compare SCF_Distance k m1 m2 (Some p)) s eq_refl ltac:(exists p; auto)). Qed.
Print Assumptions C297_own_partial.
(** Where it does not (windows, notebooks): the plots of the two data sets are shown one after
    the other, then the call raises IndexError and saves nothing. *)
Theorem C297_closing_refuted : forall known more c k m1 m2 save fs, In c [PSpec_Distance; VCA_Distance; MVC_Distance; Wavelet_Distance; DeltaVariance_Distance] ->
  exec true known more (Compare c k m1 m2 save) (mk_plt [] fs) = (mk_plt [mk_fig 0 []] fs, Some IndexError).
Proof. exact closed_between. Qed.
Print Assumptions C297_closing_refuted.
(** ... and VCS_Distance saves an empty figure. *)
Theorem C297_empty_refuted : forall known more k m1 m2 p fs, formatted known p ->
  exists s, exec true known more (Compare VCS_Distance k m1 m2 (Some p)) (mk_plt [] fs) = (s, None) /\ contents s = contents (mk_plt [] fs) ++ [(p, [])].
Proof. exact vcs_empty. Qed.
Print Assumptions C297_empty_refuted.
Example C297_used : PSpec_Distance <> Dendrogram_Distance /\ formatted png (text "out.d/fig.png") /\ overlays PSpec_Distance = true.
Proof. split; [discriminate|]. split; [exact formatted_fig|reflexivity]. Qed.

(** *** C298: the two files of Dendrogram_Distance *)
(** No two calls with different names, nor the two plots of any calls, write to one file. *)
Theorem C298_names : forall p q, hist_name p <> num_name q /\ (hist_name p = hist_name q -> p = q) /\ (num_name p = num_name q -> p = q).
Proof. exact names_apart. Qed.
Print Assumptions C298_names.
(** Both files are in the directory and in the format that were asked for. *)
Theorem C298_format_partial : forall p e, extension p e ->
  exists base, p = base ++ dot :: e /\ hist_name p = base ++ text ".hist_distance" ++ dot :: e /\ num_name p = base ++ text ".num_distance" ++ dot :: e /\
    extension (hist_name p) e /\ extension (num_name p) e.
Proof.
  intros p e X. destruct (tagged_keeps _ p e word_hist X) as (b & E & H & HX). destruct (tagged_keeps _ p e word_num X) as (b' & E' & H' & HX').
  assert (b = b') as <-. { rewrite E in E' at 1. now apply app_inv_tail in E'. }
  exists b. rewrite hist_tagged, num_tagged. auto 6.
Qed.
Print Assumptions C298_format_partial.
(** Both are written, each with the two data sets and nothing else, whatever figures are open; these stay. *)
Theorem C298_written_partial : forall closing known more k m1 m2 p s, formatted known p ->
  exists s', exec closing known more (Compare Dendrogram_Distance k m1 m2 (Some p)) s = (s', None) /\ opened s' = opened s /\
    contents s' = contents s ++ [(hist_name p, [m1; m2]); (num_name p, [m1; m2])].
Proof. intros closing known more k m1 m2 p s F. exact (own_alone known more closing (Compare Dendrogram_Distance k m1 m2 (Some p)) s eq_refl ltac:(exists p; auto)). Qed.
Print Assumptions C298_written_partial.
(** A name without extension, which all other plots save as PNG: ValueError, nothing is saved. *)
Theorem C298_bare_refuted : forall closing known more k m1 m2 p s, p <> [] -> ~ In dot p -> ~ In slash p -> known (text "hist_distance") = false ->
  (exists s', exec closing known more (Compare Dendrogram_Distance k m1 m2 (Some p)) s = (s', Some ValueError) /\ files s' = files s) /\
  (exists s', exec closing known more (Compare SCF_Distance k m1 m2 (Some p)) s = (s', None) /\ contents s' = contents s ++ [(p ++ text ".png", [m1; m2])]).
Proof. exact no_format. Qed.
Print Assumptions C298_bare_refuted.
Example C298_used : extension (text "out.d/fig.png") (text "png") /\ hist_name (text "out.d/fig.png") = text "out.d/fig.hist_distance.png" /\
  hist_name (text ".fig") = text ".fig.hist_distance" /\ png (text "hist_distance") = false /\ ~ In dot (text "fig").
Proof.
  split. { destruct formatted_fig as (e & X & _ & K). unfold png in K. destruct (list_eq_dec Ascii.ascii_dec e (text "png")) as [->|]; [exact X|discriminate]. }
  split; [reflexivity|]. split; [reflexivity|]. split; [reflexivity|]. cbn. intros I. decompose [or] I; try discriminate; assumption.
Qed.
