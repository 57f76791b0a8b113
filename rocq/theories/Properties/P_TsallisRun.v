(** Property C281: Tsallis objects through a history of calls. *)
From Coq Require Import Reals List ZArith Arith Bool Lia Lra.
From Verif Require Import Lib.PyBase Lib.Fl Model.Units Model.Tsallis Model.TsallisRun Spec.TsallisRun Proofs.Tsallis5_Proofs Proofs.TsallisRun_Proofs Proofs.TsallisRun2_Proofs.
Import ListNotations.
Local Open Scope R_scope.

(** A run that returns leaves a table with, at every lag of the object in the unit it was given in,
    the fit that belongs to this lag, whatever was called before. *)
Theorem C281_run : forall s cols side img curve_fit old_dist old_row o h periodic num_bins sigma_clip o',
  run s cols img curve_fit old_dist old_row (history s cols side img curve_fit old_dist old_row o h) periodic num_bins sigma_clip = (o', None) ->
  o_lags o' = o_lags (history s cols side img curve_fit old_dist old_row o h) /\
  exists t, table o' = Ok t /\ table_of s cols img curve_fit periodic num_bins sigma_clip (o_lags o') t.
Proof.
  intros s cols side img cf od orow o h p n c o' H. split; [|exact (run_table s cols img cf od orow _ p n c o' H)].
  pose proof (run_lags s cols img cf od orow (history s cols side img cf od orow o h) p n c) as K. rewrite H in K. exact K.
Qed.
Print Assumptions C281_run.
Example C281_run_case : exists o', run plate 2 point2 const_fit (fun _ => ([], ([], []))) (fun _ => (0, 0, 0, NaN))
    (history plate 2 2 point2 const_fit (fun _ => ([], ([], []))) (fun _ => (0, 0, 0, NaN)) (mk_t (mk_q [1] pix) None None) [Fit None; Run true None (Some 1); Lags (Some (mk_q [1; 3 / 2] pix))]) true None (Some 1) = (o', None)
  /\ o_lags o' = mk_q [1; 3 / 2] pix.
Proof.
  destruct plate_run as (arr & dist & v & _ & R). eexists. split.
  - apply R with (l := [1; 3 / 2]); [repeat constructor; lra|]. unfold history. cbn [fold_left do_call]. unfold do_fit at 1. cbn [o_dists fst].
    rewrite (R _ _ [1]) by (try reflexivity; repeat constructor; lra). cbn [fst]. unfold assign. rewrite lags_ok by (repeat constructor; lra). reflexivity.
  - reflexivity.
Qed.
(** A run does not depend on what was done with the object before: two objects with the same lags
    raise the same, or end with the same arrays, distributions and parameters. *)
Theorem C281_history : forall s cols img curve_fit old_dist old_row o1 o2 periodic num_bins sigma_clip, o_lags o1 = o_lags o2 ->
  snd (run s cols img curve_fit old_dist old_row o1 periodic num_bins sigma_clip) = snd (run s cols img curve_fit old_dist old_row o2 periodic num_bins sigma_clip) /\
  (snd (run s cols img curve_fit old_dist old_row o2 periodic num_bins sigma_clip) = None ->
   run s cols img curve_fit old_dist old_row o1 periodic num_bins sigma_clip = run s cols img curve_fit old_dist old_row o2 periodic num_bins sigma_clip).
Proof. exact run_forgets. Qed.
Print Assumptions C281_history.
(** The lags of an object are accepted ones after any calls. *)
Theorem C281_lags : forall s cols side img curve_fit old_dist old_row given o h, new s side given = Ok o ->
  set_lags s side (Some (o_lags (history s cols side img curve_fit old_dist old_row o h))) = Ok (o_lags (history s cols side img curve_fit old_dist old_row o h)).
Proof.
  intros s cols side img cf od orow given o h H. apply history_lags. unfold new in H. destruct (init_lags s side given) as [q|e] eqn:E; [|discriminate]. cbn [bind] in H. injection H as <-. cbn [o_lags].
  unfold init_lags in E. destruct given as [v|]; pose proof (set_lags_self _ _ _ _ E) as K; [subst v|injection K as K; rewrite <- K in *]; exact E.
Qed.
Print Assumptions C281_lags.
Example C281_lags_case : new plate 2 (Some (Some (mk_q [1; 3 / 2] pix))) = Ok (mk_t (mk_q [1; 3 / 2] pix) None None).
Proof. unfold new, init_lags. rewrite lags_ok by (repeat constructor; lra). reflexivity. Qed.
(** Without new lags and without exceptions every table belongs to the lags. *)
Theorem C281_tables_partial : forall s cols side img curve_fit old_dist old_row given o h t, new s side given = Ok o ->
  quiet s cols side img curve_fit old_dist old_row o h -> table (history s cols side img curve_fit old_dist old_row o h) = Ok t ->
  o_lags (history s cols side img curve_fit old_dist old_row o h) = o_lags o /\ exists periodic num_bins sigma_clip, table_of s cols img curve_fit periodic num_bins sigma_clip (o_lags o) t.
Proof. exact quiet_table. Qed.
Print Assumptions C281_tables_partial.
Example C281_tables_case : forall old_dist old_row, exists t, quiet plate 2 2 point2 const_fit old_dist old_row (mk_t (mk_q [1; 3 / 2] pix) None None) [Run true None (Some 1); Run true None (Some 1)] /\
  table (history plate 2 2 point2 const_fit old_dist old_row (mk_t (mk_q [1; 3 / 2] pix) None None) [Run true None (Some 1); Run true None (Some 1)]) = Ok t /\ length t = 2%nat.
Proof.
  intros od orow. destruct plate_run as (arr & dist & v & _ & R). assert (F : Forall (fun r => 1 <= r < 2) [1; 3 / 2]) by (repeat constructor; lra). unfold history. cbn [quiet fold_left do_call].
  rewrite (R od orow [1; 3 / 2] (mk_t (mk_q [1; 3 / 2] pix) None None) F eq_refl). cbn [fst snd]. rewrite (R od orow [1; 3 / 2]) by (try reflexivity; exact F). cbn [fst snd]. eexists. split; [repeat split; discriminate|]. split; reflexivity.
Qed.
(** New lags leave the old parameters: with the same number of lags the table shows them beside the
    new lags. *)
Theorem C281_stale_refuted : forall s cols side img curve_fit old_dist old_row o periodic num_bins sigma_clip o' q,
  run s cols img curve_fit old_dist old_row o periodic num_bins sigma_clip = (o', None) -> set_lags s side (Some q) = Ok q -> length (q_vals q) = length (q_vals (o_lags o)) ->
  exists o2 t t2, assign s side o' (Some q) = (o2, None) /\ table o' = Ok t /\ table o2 = Ok t2 /\ o_lags o2 = q /\ map snd t2 = map snd t /\ map fst t2 = q_vals q.
Proof. exact stale. Qed.
Print Assumptions C281_stale_refuted.
(** With more lags than distributions a fit returns, and the rows that are left hold what was in
    memory; with fewer it raises IndexError. *)
Theorem C281_memory_refuted : forall s cols side img curve_fit old_dist old_row o periodic num_bins sigma_clip o' q,
  run s cols img curve_fit old_dist old_row o periodic num_bins sigma_clip = (o', None) -> set_lags s side (Some q) = Ok q -> (length (q_vals (o_lags o)) < length (q_vals q))%nat ->
  exists o3 t, do_fit curve_fit old_row (fst (assign s side o' (Some q))) sigma_clip = (o3, None) /\ table o3 = Ok t /\ length t = length (q_vals q) /\
    forall i d, (length (q_vals (o_lags o)) <= i < length (q_vals q))%nat -> nth i (map snd t) d = old_row i.
Proof. exact memory. Qed.
Print Assumptions C281_memory_refuted.
Theorem C281_fewer : forall s cols side img curve_fit old_dist old_row o periodic num_bins sigma_clip o' q,
  run s cols img curve_fit old_dist old_row o periodic num_bins sigma_clip = (o', None) -> set_lags s side (Some q) = Ok q -> (length (q_vals q) < length (q_vals (o_lags o)))%nat ->
  snd (do_fit curve_fit old_row (fst (assign s side o' (Some q))) sigma_clip) = Some IndexError.
Proof. exact fewer. Qed.
Print Assumptions C281_fewer.
Example C281_lags_change_case : forall old_dist old_row, exists o', run plate 2 point2 const_fit old_dist old_row (mk_t (mk_q [1; 1] pix) None None) true None (Some 1) = (o', None) /\
  set_lags plate 2 (Some (mk_q [3 / 2; 5 / 4] pix)) = Ok (mk_q [3 / 2; 5 / 4] pix) /\ set_lags plate 2 (Some (mk_q [1; 3 / 2; 5 / 4] pix)) = Ok (mk_q [1; 3 / 2; 5 / 4] pix) /\
  set_lags plate 2 (Some (mk_q [1] pix)) = Ok (mk_q [1] pix).
Proof.
  intros od orow. destruct plate_run as (arr & dist & v & _ & R). eexists. split; [apply (R od orow [1; 1] (mk_t (mk_q [1; 1] pix) None None)); [repeat constructor; lra|reflexivity]|]. rewrite !lags_ok by (repeat constructor; lra). auto.
Qed.
(** A fit that raises at the first lag has already replaced the parameters: the table then is what
    was in memory, and the earlier parameters are gone. *)
Theorem C281_failed_refuted : forall curve_fit old_row o sigma_clip d ds e, o_dists o = Some (d :: ds) -> fit_one curve_fit sigma_clip (snd d) = Err e ->
  exists o', do_fit curve_fit old_row o sigma_clip = (o', Some e) /\ table o' = Ok (combine (q_vals (o_lags o)) (map old_row (seq 0 (length (q_vals (o_lags o)))))).
Proof. exact failed_fit. Qed.
Print Assumptions C281_failed_refuted.
Example C281_failed_case : forall old_dist old_row, exists o' d t, run plate 2 point2 const_fit old_dist old_row (mk_t (mk_q [1; 1] pix) None None) true None (Some 1) = (o', None) /\
  o_dists o' = Some [d; d] /\ table o' = Ok t /\ fit_one const_fit (Some 0) (snd d) = Err ValueError.
Proof.
  intros od orow. destruct plate_run as (arr & dist & v & Z & R). eexists. exists (arr, dist). eexists. split; [apply (R od orow [1; 1] (mk_t (mk_q [1; 1] pix) None None)); [repeat constructor; lra|reflexivity]|]. split; [reflexivity|]. split; [reflexivity|exact Z].
Qed.
