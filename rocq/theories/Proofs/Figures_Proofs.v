(** Proofs about figures and files. *)
From Coq Require Import List Arith Bool Ascii String Lia.
From Verif Require Import Lib.PyBase Model.Figures Spec.Figures.
Import ListNotations.

(** ** Names *)
Lemma rsplit_none c p : ~ In c p -> rsplit c p = None.
Proof.
  induction p as [|x p IH]; intros N; [reflexivity|]. cbn. rewrite IH by (intros I; apply N; now right).
  destruct (Ascii.eqb_spec x c) as [->|]; [exfalso; apply N; now left|reflexivity].
Qed.
Lemma rsplit_last c a b : ~ In c b -> rsplit c (a ++ c :: b) = Some (a, b).
Proof.
  intros N. induction a as [|x a IH]; cbn; [now rewrite rsplit_none, Ascii.eqb_refl|now rewrite IH].
Qed.
Lemma rsplit_inv c p a b : rsplit c p = Some (a, b) -> p = a ++ c :: b /\ ~ In c b.
Proof.
  revert a b; induction p as [|x p IH]; intros a b; cbn; [discriminate|].
  destruct (rsplit c p) as [[a' b']|] eqn:R.
  - intros [= <- <-]. destruct (IH _ _ eq_refl) as [-> N]. now split.
  - destruct (Ascii.eqb_spec x c) as [->|]; [|discriminate]. intros [= <- <-]. split; [reflexivity|].
    clear IH. intros I. apply in_split in I. destruct I as (u & v & ->).
    assert (exists r, rsplit c (u ++ c :: v) = Some r) as (r & E); [|congruence].
    clear R. induction u as [|y u IHu]; cbn.
    + destruct (rsplit c v) as [[a b]|]; [eauto|]. rewrite Ascii.eqb_refl. eauto.
    + destruct IHu as ([a b] & ->). eauto.
Qed.
Lemma rsplit_none_inv c p : rsplit c p = None -> ~ In c p.
Proof.
  intros R I. induction p as [|x p IH]; [contradiction|]. cbn in R. destruct (rsplit c p) as [[a b]|] eqn:E; [discriminate|].
  destruct (Ascii.eqb_spec x c) as [->|D]; [discriminate|]. destruct I as [->|I]; [contradiction|auto].
Qed.
Lemma last_unique (c : ascii) a b a' b' : a ++ c :: b = a' ++ c :: b' -> ~ In c b -> ~ In c b' -> a = a' /\ b = b'.
Proof. intros E N N'. pose proof (rsplit_last c a b N) as H. rewrite E, rsplit_last in H by assumption. now injection H as -> ->. Qed.

Lemma not_dot stem : existsb (fun x => negb (Ascii.eqb x dot)) stem = true <-> exists x, In x stem /\ x <> dot.
Proof.
  rewrite existsb_exists. split; intros (x & I & D); exists x; (split; [exact I|]).
  - intros ->. now rewrite Ascii.eqb_refl in D.
  - destruct (Ascii.eqb_spec x dot); [contradiction|reflexivity].
Qed.
Lemma slash_dot : slash <> dot. Proof. discriminate. Qed.
Lemma splitext_ext p dir stem e : p = dir ++ stem ++ dot :: e -> (dir = [] \/ exists d, dir = d ++ [slash]) ->
  ~ In slash stem -> ~ In slash e -> ~ In dot e -> (exists x, In x stem /\ x <> dot) -> splitext p = (dir ++ stem, dot :: e).
Proof.
  intros -> D S1 S2 S3 X. unfold splitext; cbv zeta.
  assert (N : ~ In slash (stem ++ dot :: e)).
  { rewrite in_app_iff. cbn. intros [I|[I|I]]; [now apply S1|now apply slash_dot|now apply S2]. }
  apply not_dot in X. destruct D as [->|(d & ->)].
  - cbn [app]. rewrite (rsplit_none slash _ N). cbn [fst snd]. rewrite (rsplit_last dot stem e S3). now rewrite X.
  - replace ((d ++ [slash]) ++ stem ++ dot :: e) with (d ++ slash :: (stem ++ dot :: e)) by (rewrite <- app_assoc; reflexivity).
    rewrite (rsplit_last slash d _ N). cbn [fst snd]. rewrite (rsplit_last dot stem e S3). now rewrite X.
Qed.
Lemma splitext_cases p : (exists e, extension p e /\ snd (splitext p) = dot :: e /\ p = fst (splitext p) ++ dot :: e) \/ (splitext p = (p, []) /\ forall e, ~ extension p e).
Proof.
  set (dir := match rsplit slash p with Some (a, b) => (a ++ [slash], b) | None => ([], p) end).
  assert (D : p = fst dir ++ snd dir /\ (fst dir = [] \/ exists d, fst dir = d ++ [slash]) /\ ~ In slash (snd dir)).
  { unfold dir. destruct (rsplit slash p) as [[a b]|] eqn:R; cbn [fst snd].
    - apply rsplit_inv in R. destruct R as [-> N]. rewrite <- app_assoc. cbn. eauto.
    - apply rsplit_none_inv in R. cbn. auto. }
  destruct D as (Ep & Dd & Ns). fold dir.
  assert (Z : snd (splitext p) = [] -> forall e, ~ extension p e).
  { intros Z e (dir' & stem & Q1 & Q2 & Q3 & Q4 & Q5 & Q6). rewrite (splitext_ext p dir' stem e) in Z by assumption. discriminate. }
  destruct (rsplit dot (snd dir)) as [[stem e]|] eqn:R.
  - destruct (existsb (fun x => negb (Ascii.eqb x dot)) stem) eqn:X.
    + left. apply rsplit_inv in R. destruct R as [Es Ne]. exists e. rewrite Es in Ns, Ep.
      assert (B : extension p e).
      { exists (fst dir), stem. split; [exact Ep|]. split; [exact Dd|]. rewrite in_app_iff in Ns. cbn in Ns. apply not_dot in X. intuition. }
      destruct B as (dir' & stem' & B1 & B2 & B3 & B4 & B5 & B6).
      rewrite (splitext_ext p dir' stem' e) by assumption. cbn [fst snd]. split; [exists dir', stem'; auto 8|]. split; [reflexivity|].
      now rewrite <- app_assoc.
    + right. assert (S : splitext p = (p, [])) by (unfold splitext; fold dir; now rewrite R, X). split; [exact S|]. apply Z. now rewrite S.
  - right. assert (S : splitext p = (p, [])) by (unfold splitext; fold dir; now rewrite R). split; [exact S|]. apply Z. now rewrite S.
Qed.

(** A word put before the extension *)
Definition tagged (w p : name) : name := fst (splitext p) ++ (dot :: w) ++ snd (splitext p).
Lemma hist_tagged p : hist_name p = tagged (text "hist_distance") p. Proof. reflexivity. Qed.
Lemma num_tagged p : num_name p = tagged (text "num_distance") p. Proof. reflexivity. Qed.
Definition word (w : name) : Prop := ~ In dot w /\ ~ In slash w.
(** putting a word behind a name with an extension's base makes an extension *)
Lemma base_ext p e w : extension p e -> p = fst (splitext p) ++ dot :: e -> word w -> extension (fst (splitext p) ++ dot :: w) w.
Proof.
  intros (dir & stem & B1 & B2 & B3 & B4 & B5 & B6) _ (W1 & W2). rewrite (splitext_ext p dir stem e) by assumption. cbn [fst].
  exists dir, stem. rewrite <- app_assoc. auto 8.
Qed.
Lemma tagged_apart w w' p q : word w -> word w' -> tagged w p = tagged w' q -> w = w' /\ p = q.
Proof.
  intros W W' E. unfold tagged in E.
  destruct (splitext_cases p) as [(e & X & S & B)|[S N]]; destruct (splitext_cases q) as [(e' & X' & S' & B')|[S' N']].
  - rewrite S, S' in E. rewrite !app_assoc in E.
    assert (~ In dot e) by (destruct X as (? & ? & ? & ? & ? & ? & ? & ?); assumption).
    assert (~ In dot e') by (destruct X' as (? & ? & ? & ? & ? & ? & ? & ?); assumption).
    apply last_unique in E; [|assumption|assumption]. destruct E as [E ->].
    apply last_unique in E; [|apply W|apply W']. destruct E as [E ->]. split; [reflexivity|]. congruence.
  - rewrite S, S' in E. cbn [fst snd] in E. rewrite app_nil_r, app_assoc in E.
    assert (~ In dot e) by (destruct X as (? & ? & ? & ? & ? & ? & ? & ?); assumption).
    apply last_unique in E; [|assumption|apply W']. destruct E as [E ->]. exfalso. apply (N' w). rewrite <- E. now apply (base_ext p w').
  - rewrite S, S' in E. cbn [fst snd] in E. rewrite app_nil_r, app_assoc in E.
    assert (~ In dot e') by (destruct X' as (? & ? & ? & ? & ? & ? & ? & ?); assumption).
    apply last_unique in E; [|apply W|assumption]. destruct E as [E ->]. exfalso. apply (N w'). rewrite E. now apply (base_ext q e').
  - rewrite S, S' in E. cbn [fst snd] in E. rewrite !app_nil_r in E. apply last_unique in E; [|apply W|apply W']. destruct E as [-> ->]. now split.
Qed.
Lemma word_hist : word (text "hist_distance").
Proof. split; cbn; intros I; decompose [or] I; try discriminate; assumption. Qed.
Lemma word_num : word (text "num_distance").
Proof. split; cbn; intros I; decompose [or] I; try discriminate; assumption. Qed.
Lemma names_apart p q : hist_name p <> num_name q /\ (hist_name p = hist_name q -> p = q) /\ (num_name p = num_name q -> p = q).
Proof.
  rewrite !hist_tagged, !num_tagged. repeat split.
  - intros E. apply tagged_apart in E; [|apply word_hist|apply word_num]. now destruct E.
  - intros E. apply tagged_apart in E; [|apply word_hist|apply word_hist]. now destruct E.
  - intros E. apply tagged_apart in E; [|apply word_num|apply word_num]. now destruct E.
Qed.
(** The format and the directory stay *)
Lemma tagged_keeps w p e : word w -> extension p e -> exists base, p = base ++ dot :: e /\ tagged w p = base ++ (dot :: w) ++ dot :: e /\ extension (tagged w p) e.
Proof.
  intros (W1 & W2) (dir & stem & B1 & B2 & B3 & B4 & B5 & (x & B6 & B7)). unfold tagged. rewrite (splitext_ext p dir stem e) by eauto. cbn [fst snd].
  exists (dir ++ stem). split; [now rewrite <- app_assoc|]. split; [reflexivity|].
  exists dir, (stem ++ dot :: w). split; [now rewrite <- !app_assoc|]. split; [exact B2|].
  split; [rewrite in_app_iff; cbn; intros [I|[I|I]]; [auto|now apply slash_dot|auto]|]. repeat split; auto.
  exists x. split; [|exact B7]. apply in_app_iff. now left.
Qed.

(** ** Saving *)
Section With.
Variables (closing : bool) (known : name -> bool) (more : nat -> nat -> nat).
Lemma ext_splitext p e : extension p e -> snd (splitext p) = dot :: e.
Proof. intros (dir & stem & B1 & B2 & B3 & B4 & B5 & B6). now rewrite (splitext_ext p dir stem e). Qed.
Lemma finish_saved p f rest fs : formatted known p -> finish closing known (Some p) (mk_plt (f :: rest) fs) = (mk_plt rest (fs ++ [(p, f)]), None).
Proof.
  intros (e & X & N & K). unfold finish, savefig. rewrite (ext_splitext p e X). cbn [tl].
  destruct e as [|x e]; [contradiction|]. rewrite K. reflexivity.
Qed.
Lemma tagged_formatted w p : word w -> formatted known p -> formatted known (tagged w p).
Proof. intros W (e & X & N & K). exists e. destruct (tagged_keeps w p e W X) as (_ & _ & _ & Y). auto. Qed.

Lemma contents_app s fs : contents (mk_plt (opened s) (files s ++ fs)) = contents s ++ map (fun f => (fst f, f_marks (snd f))) fs.
Proof. unfold contents. cbn. now rewrite map_app. Qed.

End With.
Section With2.
Variables (known : name -> bool) (more : nat -> nat -> nat).
(** A saved call with nothing open writes its files and leaves nothing open *)
Lemma exec_saved closing c fs : saved known c -> (closing = false \/ overlaid c = false) ->
  exists s, exec closing known more c (mk_plt [] fs) = (s, None) /\ opened s = [] /\
    contents s = contents (mk_plt [] fs) ++ shall_write c.
Proof.
  intros S K. destruct c as [st k m sv|c k m1 m2 sv]; destruct S as (p & -> & F).
  - exists (mk_plt [] (fs ++ [(p, mk_fig match st with PowerSpectrum | VCA | MVC => 4 | VCS | Wavelet | DeltaVariance => 2 | SCF => 4 | _ => k end [m])])).
    split; [|split; [reflexivity|exact (contents_app (mk_plt [] fs) _)]].
    destruct st; unfold exec, run, draw, andthen, gcf, new_figure; cbn [opened files tl current hd fst snd];
      cbn [pspec_fit vcs_fit curve_fit scf_fit into_subplots use f_axes f_marks b_image b_line b_res b_axes subplots one andb negb app Nat.add];
      rewrite finish_saved by assumption; reflexivity.
  - destruct (overlays c) eqn:O.
    + destruct K as [->|K]; [|cbn in K; congruence].
      assert (W : shall_write (Compare c k m1 m2 (Some p)) = [(p, [m1; m2])]) by now destruct c.
      exists (mk_plt [] (fs ++ [(p, mk_fig 2 [m1; m2])])). rewrite W.
      split; [|split; [reflexivity|exact (contents_app (mk_plt [] fs) _)]].
      destruct c; try discriminate O;
        unfold exec, compare, both, draw, andthen, gcf, show; cbn [opened files tl current hd fst snd];
        cbn [pspec_fit vcs_fit curve_fit use f_axes f_marks b_image b_line b_res b_axes subplots one andb negb app Nat.add opened files tl current hd fst snd];
        unfold legend, gcf; cbn [pspec_fit vcs_fit curve_fit use f_axes f_marks b_image b_line b_res b_axes subplots one andb negb app Nat.add opened files tl current hd fst snd];
        apply (finish_saved _ known p _ [] fs F).
    + destruct c; try discriminate O; cbn [shall_write];
        [exists (mk_plt [] (fs ++ [(p, mk_fig k [m1; m2])])) | exists (mk_plt [] (fs ++ [(p, mk_fig k [m1; m2])])) |
         exists (mk_plt [] (fs ++ [(p, mk_fig k [m1; m2])])) | exists (mk_plt [] (fs ++ [(p, mk_fig k [m1; m2])])) |
         exists (mk_plt [] (fs ++ [(p, mk_fig k [m1; m2])])) | exists (mk_plt [] (fs ++ [(p, mk_fig k [m1; m2])])) |
         exists (mk_plt [] ((fs ++ [(hist_name p, mk_fig 4 [m1; m2])]) ++ [(num_name p, mk_fig 1 [m1; m2])])) |
         exists (mk_plt [] (fs ++ [(p, mk_fig k [m1; m2])]))];
        (split; [|split; [reflexivity|try exact (contents_app (mk_plt [] fs) _)]]).
      all: try (unfold exec, compare, draw, andthen, gcf, new_figure; cbn [opened files tl current hd fst snd];
        unfold pair; cbn [f_axes f_marks subplots app fst snd]; apply (finish_saved _ known p _ [] fs F)).
      * unfold exec, compare. cbn [option_map]. unfold draw at 1, gcf, new_figure. cbn [opened files tl current hd fst snd].
        unfold pair at 1. cbn [f_axes f_marks subplots app fst snd andthen].
        rewrite finish_saved by (rewrite hist_tagged; apply tagged_formatted; [apply word_hist|exact F]).
        cbn [andthen]. unfold draw, gcf, new_figure. cbn [opened files tl current hd fst snd]. unfold pair. cbn [f_axes f_marks subplots app fst snd andthen].
        rewrite finish_saved by (rewrite num_tagged; apply tagged_formatted; [apply word_num|exact F]). reflexivity.
      * unfold contents. cbn [files]. rewrite !map_app. cbn [map fst snd f_marks]. now rewrite <- app_assoc.
Qed.
Lemma all_saved closing l : Forall (saved known) l -> (closing = false \/ forall c, In c l -> overlaid c = false) ->
  forall fs, exists s, exec_all closing known more l (mk_plt [] fs) = (s, None) /\ opened s = [] /\ contents s = contents (mk_plt [] fs) ++ flat_map shall_write l.
Proof.
  induction 1 as [|c l S _ IH]; intros K fs.
  - exists (mk_plt [] fs). cbn [exec_all flat_map]. rewrite app_nil_r. auto.
  - destruct (exec_saved closing c fs S) as (s & E & O & C); [destruct K as [K|K]; [now left|right; apply K; now left]|].
    cbn [exec_all]. rewrite E. cbn [andthen]. destruct s as [op fs']. cbn [opened] in O. subst op.
    destruct (IH ltac:(destruct K as [K|K]; [now left|right; intros; apply K; now right]) fs') as (s' & E' & O' & C').
    exists s'. split; [exact E'|]. split; [exact O'|]. rewrite C', C. cbn [flat_map]. now rewrite app_assoc.
Qed.

(** Calls with a figure of their own leave the others alone, whether they are saved or not *)
Lemma own_alone closing c s : own_figure c = true -> saved known c ->
  exists s', exec closing known more c s = (s', None) /\ opened s' = opened s /\ contents s' = contents s ++ shall_write c.
Proof.
  intros O S. destruct s as [op fs]. destruct c as [st k m sv|c k m1 m2 sv]; destruct S as (p & -> & F).
  - destruct st; try discriminate O. exists (mk_plt op (fs ++ [(p, mk_fig k [m])])).
    split; [|split; [reflexivity|exact (contents_app (mk_plt op fs) _)]].
    unfold exec, run, draw, andthen, gcf, new_figure; cbn [opened files tl current hd fst snd]. cbn [into_subplots f_axes f_marks subplots app fst snd].
    apply (finish_saved _ known p _ op fs F).
  - destruct c; try discriminate O; cbn [shall_write].
    + exists (mk_plt op (fs ++ [(p, mk_fig k [m1; m2])])). split; [|split; [reflexivity|exact (contents_app (mk_plt op fs) _)]].
      unfold exec, compare, draw, andthen, gcf, new_figure; cbn [opened files tl current hd fst snd]. unfold pair. cbn [f_axes f_marks subplots app fst snd].
      apply (finish_saved _ known p _ op fs F).
    + exists (mk_plt op ((fs ++ [(hist_name p, mk_fig 4 [m1; m2])]) ++ [(num_name p, mk_fig 1 [m1; m2])])).
      split; [|split; [reflexivity|]].
      * unfold exec, compare. cbn [option_map]. unfold draw at 1, gcf, new_figure. cbn [opened files tl current hd fst snd].
        unfold pair at 1. cbn [f_axes f_marks subplots app fst snd andthen].
        rewrite finish_saved by (rewrite hist_tagged; apply tagged_formatted; [apply word_hist|exact F]).
        cbn [andthen]. unfold draw, gcf, new_figure. cbn [opened files tl current hd fst snd]. unfold pair. cbn [f_axes f_marks subplots app fst snd andthen].
        rewrite finish_saved by (rewrite num_tagged; apply tagged_formatted; [apply word_num|exact F]). reflexivity.
      * unfold contents. cbn [files]. rewrite !map_app. cbn [map fst snd f_marks]. now rewrite <- app_assoc.
Qed.
End With2.
