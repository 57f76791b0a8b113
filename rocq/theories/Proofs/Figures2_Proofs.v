(** Proofs about figures that are open already. *)
From Coq Require Import List Arith Bool Ascii String Lia.
From Verif Require Import Lib.PyBase Model.Figures Spec.Figures Proofs.Figures_Proofs.
Import ListNotations.

Section With.
Variables (closing : bool) (known : name -> bool) (more : nat -> nat -> nat).
Ltac look := cbn [pspec_fit vcs_fit curve_fit scf_fit into_subplots use f_axes f_marks b_image b_line b_res b_axes subplots one andb negb app Nat.add opened files tl current hd fst snd].
Lemma two_closed st k m p u rest fs : In st [PowerSpectrum; VCA; MVC] -> formatted known p ->
  exists s, exec closing known more (Run st k m (Some p)) (mk_plt (mk_fig 0 [] :: u :: rest) fs) = (s, None) /\ opened s = rest.
Proof.
  intros I F. exists (mk_plt rest (fs ++ [(p, mk_fig 4 [m])])). split; [|reflexivity].
  cbn in I. decompose [or] I; try contradiction; subst st; unfold exec, run, draw, andthen, gcf; look; rewrite finish_saved by assumption; reflexivity.
Qed.
Lemma drawn_over st k m p f rest fs : In st [PCA; Bispectrum; Genus; PDF; StatMoments; Dendrogram_Stats] -> formatted known p ->
  exists s, exec closing known more (Run st k m (Some p)) (mk_plt (f :: rest) fs) = (s, None) /\ opened s = rest /\
    contents s = contents (mk_plt (f :: rest) fs) ++ [(p, f_marks f ++ [m])].
Proof.
  intros I F. exists (mk_plt rest (fs ++ [(p, mk_fig (subplots more (f_axes f) k) (f_marks f ++ [m]))])).
  split; [|split; [reflexivity|exact (contents_app (mk_plt rest fs) _)]].
  cbn in I. decompose [or] I; try contradiction; subst st; unfold exec, run, draw, andthen, gcf; look; rewrite finish_saved by assumption; reflexivity.
Qed.
Lemma one_axis st k m save marks rest fs : In st [PowerSpectrum; VCA; MVC; VCS; Wavelet; DeltaVariance; SCF] ->
  exists s, exec closing known more (Run st k m save) (mk_plt (mk_fig 1 marks :: rest) fs) = (s, Some UnboundLocalError) /\ files s = fs.
Proof.
  intros I. cbn in I. decompose [or] I; try contradiction; subst st; unfold exec, run, draw, andthen, gcf; look; eexists; split; reflexivity.
Qed.
Lemma bare p : p <> [] -> ~ In dot p -> ~ In slash p -> splitext p = (p, []) /\ rstrip_dots p = p /\ extension (hist_name p) (text "hist_distance").
Proof.
  intros N D S. assert (E : splitext p = (p, [])) by (unfold splitext; cbv zeta; rewrite (rsplit_none slash p S); cbn [fst snd]; now rewrite (rsplit_none dot p D)).
  split; [exact E|]. split.
  - clear N S E. induction p as [|x p IH]; [reflexivity|]. cbn. rewrite IH by (intros I; apply D; now right).
    destruct p; [|reflexivity]. destruct (Ascii.eqb_spec x dot) as [->|]; [exfalso; apply D; now left|reflexivity].
  - unfold hist_name. rewrite E. cbn [fst snd]. exists [], p. split; [reflexivity|]. split; [now left|]. split; [exact S|].
    split; [apply word_hist|]. split; [apply word_hist|]. destruct p as [|x p]; [contradiction|]. exists x. split; [now left|]. intros ->. apply D. now left.
Qed.
Lemma no_format k m1 m2 p s : p <> [] -> ~ In dot p -> ~ In slash p -> known (text "hist_distance") = false ->
  (exists s', exec closing known more (Compare Dendrogram_Distance k m1 m2 (Some p)) s = (s', Some ValueError) /\ files s' = files s) /\
  (exists s', exec closing known more (Compare SCF_Distance k m1 m2 (Some p)) s = (s', None) /\ contents s' = contents s ++ [(p ++ text ".png", [m1; m2])]).
Proof.
  intros N D S K. destruct (bare p N D S) as (B1 & B2 & B3). split.
  - unfold exec, compare, draw, gcf, new_figure. cbn [option_map opened files tl current hd fst snd andthen]. unfold pair. cbn [f_axes f_marks subplots app fst snd andthen].
    unfold finish, savefig. rewrite (ext_splitext (hist_name p) _ B3). cbn [tl]. change (list_ascii_of_string "hist_distance") with (text "hist_distance") in *.
    unfold text at 1. cbn [list_ascii_of_string]. change (known ("h" :: _)%char) with (known (text "hist_distance")). rewrite K.
    cbn [andthen]. eexists. split; reflexivity.
  - unfold exec, compare, draw, gcf, new_figure. cbn [opened files tl current hd fst snd andthen]. unfold pair. cbn [f_axes f_marks subplots app fst snd andthen].
    unfold finish, savefig. rewrite B1, B2. cbn [snd tl]. eexists. split; [reflexivity|]. unfold close, contents. cbn. now rewrite map_app.
Qed.
End With.

Lemma closed_between known more c k m1 m2 save fs : In c [PSpec_Distance; VCA_Distance; MVC_Distance; Wavelet_Distance; DeltaVariance_Distance] ->
  exec true known more (Compare c k m1 m2 save) (mk_plt [] fs) = (mk_plt [mk_fig 0 []] fs, Some IndexError).
Proof. intros I. cbn in I. decompose [or] I; try contradiction; subst c; reflexivity. Qed.
Lemma vcs_empty known more k m1 m2 p fs : formatted known p ->
  exists s, exec true known more (Compare VCS_Distance k m1 m2 (Some p)) (mk_plt [] fs) = (s, None) /\ contents s = contents (mk_plt [] fs) ++ [(p, [])].
Proof.
  intros (e & X & N & K). unfold exec, compare, both, draw, andthen, gcf, show. cbn [opened files tl current hd fst snd vcs_fit use f_axes f_marks b_image b_line b_res b_axes subplots one andb negb].
  unfold finish, savefig. rewrite (ext_splitext p e X). cbn [tl]. destruct e as [|x e]; [contradiction|]. rewrite K. cbn [gcf opened files close].
  eexists. split; [reflexivity|]. unfold contents. cbn. now rewrite map_app.
Qed.
Lemma shown_then_saved known more st st' k k' m1 m2 p : In st [PCA; Bispectrum; Genus; PDF; StatMoments; Dendrogram_Stats] -> In st' [PCA; Bispectrum; Genus; PDF; StatMoments; Dendrogram_Stats] -> formatted known p ->
  exists s, exec_all false known more [Run st k m1 None; Run st' k' m2 (Some p)] nothing_open = (s, None) /\ contents s = [(p, [m1; m2])].
Proof.
  intros I I' F. cbn [exec_all].
  assert (E : exec false known more (Run st k m1 None) nothing_open = (mk_plt [mk_fig k [m1]] [], None)).
  { cbn in I. decompose [or] I; try contradiction; subst st; reflexivity. }
  rewrite E. cbn [andthen]. destruct (drawn_over false known more st' k' m2 p (mk_fig k [m1]) [] [] I' F) as (s & E' & _ & C).
  rewrite E'. cbn [andthen]. exists s. split; [reflexivity|]. rewrite C. reflexivity.
Qed.
