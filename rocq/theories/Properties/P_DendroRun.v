(** C265-C266: a Dendrogram_Stats object through a history of calls, and the slope of its tail. *)
From Coq Require Import Reals List ZArith Arith Bool Lia Lra.
From Verif Require Import Lib.PyBase Lib.Fl Lib.Arr Lib.Hist Model.EllipPlaw Model.Dendro Model.DendroRun Spec.DendroRun Proofs.DendroRun_Proofs Proofs.DendroRun3_Proofs.
Import ListNotations.
Local Open Scope R_scope.

(** A data set whose dendrogram has 10 structures, of which every pruning removes two. *)
Definition ten : dendro_env nat := mk_denv (fun _ _ => 10%nat) (fun _ d => (d - 2)%nat) (fun d => d) (fun d => repeat 1 d) true None ols_1D.
Definition plain (obj : option nat) (hists : bool) : run_args := mk_dargs false obj 1 hists 0 None.

(** ** C164: min_deltas=None *)
(** Without thresholds the min_delta of dendro_params is the only one, and the dendrogram is computed
    once, with it; without a min_delta ValueError is raised and the thresholds stay. *)
Theorem C164_default_partial : forall D (e : dendro_env D) o,
  (n_param e = None -> set_deltas e o DNone = (o, Some ValueError)) /\
  (forall d, n_param e = Some d -> exists o', set_deltas e o DNone = (o', None) /\ d_deltas o' = [d] /\
    (n_keys e = true -> forall periodic, exists o2, do_compute e o' periodic None = (o2, None) /\
      d_num o2 = Some [Some (n_num e (n_build e periodic d))] /\ d_values o2 = Some [n_vmax e (n_build e periodic d)])).
Proof. exact @default_deltas. Qed.
Print Assumptions C164_default_partial.
Example C164_default_case : n_param (mk_denv (fun _ _ => 10%nat) (fun _ d => (d - 2)%nat) (fun d => d) (fun d => repeat 1 d) true (Some 3) ols_1D) = Some 3.
Proof. reflexivity. Qed.

(** ** C265: what an object holds after a call is about that call *)

(** Two objects with the same thresholds, whatever was called on them before: a run with the same
    arguments raises on both or on none; if it does not raise, all results are the same. *)
Theorem C265_run_again : forall D (e : dendro_env D) o1 o2 a, d_deltas o1 = d_deltas o2 ->
  snd (do_run e o1 a) = snd (do_run e o2 a) /\
  (snd (do_run e o1 a) = None -> same_results (fst (do_run e o1 a)) (fst (do_run e o2 a)) /\
     (g_hists a = true -> d_hists (fst (do_run e o1 a)) = d_hists (fst (do_run e o2 a)))).
Proof. exact @run_same. Qed.
Print Assumptions C265_run_again.

(** After a run that returns, the numbers and the peak values are those of the dendrogram after each
    pruning. *)
Theorem C265_counts : forall D (e : dendro_env D) o a o' d0 r, do_run e o a = (o', None) -> d_deltas o = d0 :: r ->
  let start := match g_obj a with None => n_build e (g_periodic a) d0 | Some d => d end in
  let after k := fold_left (fun d x => n_prune e x d) (firstn k r) start in
  exists nums values, d_num o' = Some (map Some nums) /\ d_values o' = Some values /\ length nums = length (d_deltas o) /\ length values = length (d_deltas o) /\
    forall k, (k <= length r)%nat -> nth_error nums k = Some (n_num e (after k)) /\ nth_error values k = Some (n_vmax e (after k)).
Proof. exact @run_counts. Qed.
Print Assumptions C265_counts.
Example C265_counts_case : exists o1, do_run ten (new_dendro [1; 2; 4]) (plain None false) = (o1, None) /\ d_values o1 = Some [repeat 1 10; repeat 1 8; repeat 1 6].
Proof. eexists. split; reflexivity. Qed.

(** A run that raises leaves the slope and the fitted points of the run before, beside the numbers
    of features that it has itself computed: those that a new object would have. *)
Theorem C265_failed_refuted : forall D (e : dendro_env D) o a o' x, (forall l, is_ok (n_ols e l) = true) -> g_hists a = false ->
  do_run e o a = (o', Some x) ->
  d_slope o' = d_slope o /\ d_fitted o' = d_fitted o /\ d_num o' = d_num (fst (do_run e (new_dendro (d_deltas o)) a)) /\
  (forall o2, num_distance o' o2 = num_distance o o2).
Proof.
  intros D e o a o' x A H F. destruct (run_fails e o a o' x A H F) as [F1 [F2 F3]]. split; [exact F1|]. split; [exact F2|]. split.
  - rewrite F3, run_num. now apply compute_same.
  - intros o2. unfold num_distance. now rewrite F1.
Qed.
Print Assumptions C265_failed_refuted.

(** Thresholds set after the numbers of features were computed: the fit pairs the new thresholds
    with the old numbers as long as there are as many of them, and raises IndexError if not. *)
Theorem C265_thresholds_refuted : forall D (e : dendro_env D) o v o1 size nums, d_num o = Some (map Some nums) -> set_deltas e o v = (o1, None) ->
  set_min_deltas (n_param e) v = Ok (A1 (d_deltas o1)) /\
  (forall o2, do_fit e o1 size = (o2, None) -> exists b,
     d_fitted o2 = Some (skipn b (filter (fun p => Nat.ltb 1 (snd p)) (combine (d_deltas o1) nums)))) /\
  (length nums <> 1%nat -> length nums <> length (d_deltas o1) -> do_fit e o1 size = (o1, Some IndexError)).
Proof.
  intros D e o v o1 size nums EN S. destruct (set_deltas_keeps e o v o1 S) as [S1 S2]. split; [exact S1|]. split.
  - intros o2 F. destruct (fit_pairs e o1 size o2 F) as [nums' [b [E [L Q]]]]. exists b. rewrite S2, EN in E. injection E as E.
    assert (nums = nums') as <-; [|exact Q]. clear -E. revert nums' E. induction nums as [|n l IH]; intros [|m l'] E; try discriminate; [reflexivity|]. injection E as -> E. f_equal. now apply IH.
  - intros N1 N. apply (fit_lengths e o1 size (map Some nums)); rewrite ?map_length; congruence.
Qed.
Print Assumptions C265_thresholds_refuted.

(** A run with make_hists=False keeps the histograms of an earlier one. *)
Theorem C265_hists_refuted : forall D (e : dendro_env D) o a, g_hists a = false -> d_hists (fst (do_run e o a)) = d_hists o.
Proof. exact @run_hists_kept. Qed.
Print Assumptions C265_hists_refuted.

(** A run of the data, then a run with a dendrogram that has one structure: the second raises, and
    the numbers 1, 0, 0 stand beside the slope through 10, 8, 6. *)
Example C265_ok : exists o1 o2 sl,
  do_run ten (new_dendro [1; 2; 4]) (plain None false) = (o1, None) /\ do_run ten o1 (plain (Some 1%nat) false) = (o2, Some ValueError) /\
  d_fitted o1 = Some [(1, 10%nat); (2, 8%nat); (4, 6%nat)] /\ d_slope o1 = Some sl /\ d_slope o2 = Some sl /\
  d_num o2 = Some [Some 1%nat; Some 0%nat; Some 0%nat] /\ d_slope (fst (do_run ten (new_dendro [1; 2; 4]) (plain (Some 1%nat) false))) = None /\
  (forall l, is_ok (n_ols ten l) = true).
Proof. eexists _, _, _. split; [reflexivity|]. split; [reflexivity|]. repeat (split; [reflexivity|]). reflexivity. Qed.
(** Thresholds 2, 3, 4 set after the numbers at 1, 2, 4 were computed. *)
Example C265_thresholds_ok : exists o1 o2 o3, let o := mk_dobj [1; 2; 4] (Some (map Some [10; 8; 6]%nat)) None None None None None in
  do_compute ten (new_dendro [1; 2; 4]) false None = (o1, None) /\ d_num o1 = d_num o /\
  set_deltas ten o (DArray [2; 3; 4]) = (o2, None) /\ do_fit ten o2 1 = (o3, None) /\ d_fitted o3 = Some [(2, 10%nat); (3, 8%nat); (4, 6%nat)].
Proof.
  eexists. exists (mk_dobj [2; 3; 4] (Some (map Some [10; 8; 6]%nat)) None None None None None). eexists. cbv zeta. split; [reflexivity|]. split; [reflexivity|]. split.
  { unfold set_deltas, set_min_deltas, diffs_pos. destruct (Rltb_spec 2 3); [|lra]. destruct (Rltb_spec 3 4); [|lra]. reflexivity. }
  split; reflexivity.
Qed.

(** ** C266: the slope of the tail is a property of the data, not of its units *)

(** Thresholds in another unit of brightness with the same numbers of features: the fit also
    succeeds, with the same slope. *)
Theorem C266_units : forall D (e : dendro_env D), ols_slope (n_ols e) -> ols_answers (n_ols e) ->
  forall o o' size q c, 0 < c -> (forall d, In d (d_deltas o) -> 0 < d) -> NoDup (d_deltas o) ->
  d_deltas o' = map (Rmult c) (d_deltas o) -> d_num o' = d_num o -> do_fit e o size = (q, None) ->
  exists q' s er er', do_fit e o' size = (q', None) /\ d_slope q = Some (Fin s, er) /\ d_slope q' = Some (Fin s, er').
Proof. exact @slope_units. Qed.
Print Assumptions C266_units.

(** Numbers of features that fall as a power of the threshold: the slope is the power. *)
Theorem C266_power_law : forall D (e : dendro_env D), ols_slope (n_ols e) -> ols_answers (n_ols e) ->
  forall o size q A s, 0 < A -> (forall d, In d (d_deltas o) -> 0 < d) -> NoDup (d_deltas o) -> do_fit e o size = (q, None) ->
  (forall pts d n, d_fitted q = Some pts -> In (d, n) pts -> INR n = A * Rpower d s) ->
  exists er, d_slope q = Some (Fin s, er).
Proof. exact @slope_exact. Qed.
Print Assumptions C266_power_law.

(** 8, 4 and 2 structures at 1, 2 and 4: slope -1. *)
Example C266_ok : ols_slope (n_ols ten) /\ ols_answers (n_ols ten) /\
  exists o q, d_deltas o = [1; 2; 4] /\ do_fit ten o 1 = (q, None) /\ (forall d, In d (d_deltas o) -> 0 < d) /\ NoDup (d_deltas o) /\
  (forall pts d n, d_fitted q = Some pts -> In (d, n) pts -> INR n = 8 * Rpower d (-1)).
Proof.
  destruct ols_1D_ok as [A B]. split; [exact A|]. split; [exact B|].
  exists (mk_dobj [1; 2; 4] (Some [Some 8%nat; Some 4%nat; Some 2%nat]) None None None None None). eexists. split; [reflexivity|]. split; [reflexivity|]. cbn [d_deltas d_fitted].
  split; [intros d [<-|[<-|[<-|[]]]]; lra|]. split; [repeat constructor; cbn; intros C; repeat (destruct C as [C|C]; [lra|]); exact C|].
  intros pts d n [= <-] Hin. cbn in Hin. assert (P : forall x, 0 < x -> Rpower x (-1) = / x) by (intros x Hx; replace (-1) with (- (1)) by lra; rewrite Rpower_Ropp, Rpower_1 by exact Hx; reflexivity).
  destruct Hin as [E|[E|[E|[]]]]; injection E as <- <-; rewrite P by lra; cbn [INR]; field.
Qed.
