(** Proofs about the plots of fitted laws. *)
From Coq Require Import Reals List Lra Lia.
From Verif Require Import Lib.PyBase Lib.Fl Model.PlotFit Spec.PlotFit.
From Verif Require Model.LmSeg.
Import ListNotations.
Local Open Scope R_scope.

Lemma ln10 : 0 < ln 10. Proof. rewrite <- ln_1. apply ln_increasing; lra. Qed.
Lemma log10_mult a b : 0 < a -> 0 < b -> log10 (a * b) = log10 a + log10 b.
Proof. intros. unfold log10. rewrite ln_mult by assumption. pose proof ln10. field. lra. Qed.
Lemma ten_inj a b : ten a = ten b -> a = b.
Proof.
  unfold ten, Rpower. intros E. apply exp_inv in E. pose proof ln10 as P. apply (Rmult_eq_reg_r (ln 10)); lra.
Qed.
Lemma law_at b m c x : 0 < c -> law b m c (c * x) = ten (b + m * log10 x).
Proof. intros C. unfold law, ten, log10. do 4 f_equal. f_equal. field. lra. Qed.

Lemma combine_map {A B C D} (f : A -> B) (g : A -> C) (h : B * C -> D) l : map h (combine (map f l) (map g l)) = map (fun a => h (f a, g a)) l.
Proof. induction l as [|a l IH]; cbn; [reflexivity|now rewrite IH]. Qed.
Lemma combine_maps {A B C} (f : A -> B) (g : A -> C) l : combine (map f l) (map g l) = map (fun a => (f a, g a)) l.
Proof. induction l as [|a l IH]; cbn; [reflexivity|now rewrite IH]. Qed.
Lemma less_map data g : less data (map g (xs data)) = map (fun p => snd p - g (fst p)) data.
Proof. unfold less, xs. rewrite map_map. induction data as [|p l IH]; cbn; [reflexivity|now rewrite IH]. Qed.
Lemma res_map c data g : combine (map (Rmult c) (xs data)) (less data (map g (xs data))) = map (fun p => (c * fst p, snd p - g (fst p))) data.
Proof. rewrite less_map. unfold xs. rewrite map_map. apply combine_maps. Qed.
Lemma straight_line b m c l X Y : 0 < c -> In (X, Y) (combine (map (Rmult c) l) (map ten (map (fun x => b + m * x) (map log10 l)))) -> Y = law b m c X.
Proof.
  intros C. rewrite !map_map, combine_maps, in_map_iff. intros (x & [= <- <-] & _). now rewrite law_at.
Qed.
Lemma res_straight b m c data : 0 < c ->
  combine (map (Rmult c) (xs data)) (less data (map ten (map (fun x => b + m * x) (map log10 (xs data))))) =
  map (fun p => (fst p, snd p - law b m c (fst p))) (map (fun p => (c * fst p, snd p)) data).
Proof.
  intros C. rewrite !map_map. rewrite (res_map c data (fun x => ten (b + m * log10 x))). apply map_ext. intros [x y]. cbn. now rewrite law_at.
Qed.

Lemma wavelet_agrees b m c data : 0 < c ->
  exists d, wavelet_plot (Straight b m) c data = Ok d /\ points_of c data d /\ line_on (law b m c) d /\ residuals_of (law b m c) d.
Proof.
  intros C. eexists. split; [reflexivity|]. split; [reflexivity|]. split.
  - intros X Y. cbn [d_line]. now apply straight_line.
  - unfold residuals_of. cbn [d_res d_points]. now apply res_straight.
Qed.
Lemma vcs_agrees b m c good data : 0 < c ->
  exists d, vcs_plot (Straight b m) c good data = Ok d /\ points_of c data d /\ line_on (law b m c) d /\ residuals_of (law b m c) d.
Proof.
  intros C. eexists. split; [reflexivity|]. split; [reflexivity|]. split.
  - intros X Y. cbn [d_line]. now apply straight_line.
  - unfold residuals_of. cbn [d_res d_points]. now apply res_straight.
Qed.
Lemma scf_agrees b m c knots data : 0 < c ->
  let d := scf_plot b m c knots data in points_of c data d /\ line_on (law b m c) d /\ residuals_of (law b m c) d.
Proof.
  intros C d. split; [reflexivity|]. split.
  - intros X Y. cbn [d d_line scf_plot]. unfold scf_model. intros I. rewrite <- (map_id knots) in I at 1. rewrite combine_maps, in_map_iff in I.
    destruct I as (x & [= <- <-] & _). reflexivity.
  - unfold residuals_of. cbn [d scf_plot d_res d_points]. unfold scf_model.
    replace (map (fun x => ten (b + m * log10 (x / 1))) (xs data)) with (map (fun x => ten (b + m * log10 x)) (xs data)) by (apply map_ext; intros x; now replace (x / 1) with x by field).
    rewrite (res_map c data (fun x => ten (b + m * log10 x))), map_map. apply map_ext. intros [x y]. cbn. now rewrite law_at.
Qed.
Lemma delvar_line b m c knots data : 0 < c ->
  exists d, delvar_plot (Straight b m) c knots data = Ok d /\ points_of c data d /\ line_on (law b m c) d /\
    (c = 1 -> residuals_of (law b m c) d).
Proof.
  intros C. eexists. split; [reflexivity|]. split; [reflexivity|]. split.
  - intros X Y. cbn [d_line]. now apply straight_line.
  - intros ->. unfold residuals_of. cbn [d_res d_points].
    replace (map log10 (map (Rmult 1) (xs data))) with (map log10 (xs data)).
    + apply res_straight. lra.
    + rewrite map_map. apply map_ext. intros x. now rewrite Rmult_1_l.
Qed.
Lemma log10_0 c : 0 < c -> log10 c = 0 -> c = 1.
Proof.
  unfold log10. intros C E. pose proof ln10. apply (Rmult_eq_compat_r (ln 10)) in E. unfold Rdiv in E. rewrite Rmult_assoc, Rinv_l, Rmult_1_r, Rmult_0_l in E by lra.
  apply ln_inv; [exact C|lra|]. now rewrite ln_1.
Qed.
(** Every residual of the delta-variance is wrong *)
Lemma delvar_residuals b m c knots data d : 0 < c -> c <> 1 -> m <> 0 -> positive data -> delvar_plot (Straight b m) c knots data = Ok d ->
  Forall2 (fun r p => fst r = fst p /\ snd r <> snd p - law b m c (fst p)) (d_res d) (d_points d).
Proof.
  intros C N M P E. unfold delvar_plot in E. cbn [fitted_model bind] in E. injection E as <-. cbn [d_res d_points].
  rewrite !map_map. unfold less.
  assert (G : forall l, (forall x y, In (x, y) l -> 0 < x) ->
    Forall2 (fun r p => fst r = fst p /\ snd r <> snd p - law b m c (fst p))
     (combine (map (Rmult c) (xs l)) (map (fun p => snd (fst p) - snd p) (combine l (map (fun x => ten (b + m * log10 (c * x))) (xs l))))) (map (fun p => (c * fst p, snd p)) l)).
  { induction l as [|[x y] l IH]; intros Q; cbn; constructor.
    - cbn [fst snd]. split; [reflexivity|]. rewrite law_at by assumption. intros Z.
      assert (T : ten (b + m * log10 (c * x)) = ten (b + m * log10 x)) by lra. apply ten_inj in T.
      rewrite log10_mult in T by (try assumption; apply (Q x y); now left). apply N, log10_0; [exact C|].
      apply (Rmult_eq_reg_l m); [|exact M]. lra.
    - apply IH. intros u v I. apply (Q u v). now right. }
  apply G. intros x y I. now apply (P x y).
Qed.

Lemma pspec_residuals b m c good data : 0 < c -> positive data ->
  exists d, pspec_plot (Straight b m) c good data = Ok d /\ d_points d = map (fun p => (log10 (c * fst p), log10 (snd p))) data /\
    residuals_of (log_law b m c) d /\ (c = 1 -> line_on (log_law b m c) d).
Proof.
  intros C P. eexists. split; [reflexivity|]. split; [reflexivity|]. split.
  - unfold residuals_of. cbn [d_res d_points]. unfold xs. rewrite !map_map.
    assert (G : forall l, (forall x y, In (x, y) l -> 0 < x) ->
      map (fun p => (fst (fst p), snd (fst p) - snd p)) (combine (map (fun p : R * R => (log10 (c * fst p), log10 (snd p))) l) (map (fun x : R * R => b + m * log10 (fst x)) l)) =
      map (fun p => (log10 (c * fst p), log10 (snd p) - log_law b m c (log10 (c * fst p)))) l).
    { induction l as [|[x y] l IH]; intros Q; cbn; [reflexivity|]. rewrite IH by (intros u v I; apply (Q u v); now right). f_equal.
      f_equal. unfold log_law. rewrite log10_mult by (try assumption; apply (Q x y); now left). unfold log10. ring. }
    apply G. intros x y I. now apply (P x y).
  - intros -> X Y. cbn [d_line]. rewrite <- (map_id (map (fun x => log10 (1 * x)) (filter good (xs data)))) at 1. rewrite combine_maps, in_map_iff.
    intros (z & [= <- <-] & _). unfold log_law. rewrite ln_1. unfold Rdiv. ring.
Qed.
(** The line of the power spectrum is displaced *)
Lemma pspec_line b m c good data d : 0 < c -> pspec_plot (Straight b m) c good data = Ok d ->
  forall X Y, In (X, Y) (d_line d) -> Y = log_law b m c X + m * log10 c.
Proof.
  intros C E X Y. unfold pspec_plot in E. cbn [fitted_model predict bind] in E. injection E as <-. cbn [d_line].
  set (l := map (fun x => log10 (c * x)) _). rewrite <- (map_id l) at 1. rewrite combine_maps, in_map_iff.
  intros (z & [= <- <-] & _). unfold log_law, log10. ring.
Qed.
Lemma shifted m c : 0 < c -> c <> 1 -> m <> 0 -> m * log10 c <> 0.
Proof. intros C N M Z. apply N, log10_0; [exact C|]. apply Rmult_integral in Z. tauto. Qed.
Lemma pspec_break p0 p1 p2 brk c good data : data <> [] -> pspec_plot (Seg p0 p1 p2 brk) c good data = Err ValueError.
Proof.
  intros N. unfold pspec_plot, fitted_model, LmSeg.model. destruct data as [|p data]; [contradiction|]. reflexivity.
Qed.
(** Whatever the fit, the residuals of the wavelet plot are the points less the line *)
Lemma wavelet_any f c data d : wavelet_plot f c data = Ok d -> length (d_line d) = length data ->
  map fst (d_line d) = map fst (d_points d) /\
  d_res d = map (fun q => (fst (fst q), snd (fst q) - snd (snd q))) (combine (d_points d) (d_line d)).
Proof.
  unfold wavelet_plot. destruct (fitted_model f (map log10 (xs data))) as [l|e]; [|discriminate]. cbn [bind]. intros [= <-]. cbn [d_line d_points d_res].
  rewrite combine_length, !map_length. unfold xs, less. rewrite map_length. intros L. assert (K : (length data <= length l)%nat) by lia. clear L. revert l K.
  induction data as [|[x y] data IH]; intros [|v l] K; cbn in *; try lia; [split; reflexivity|split; reflexivity|].
  destruct (IH l ltac:(lia)) as [A B]. rewrite !map_map in *. split; [now rewrite A|now rewrite B].
Qed.
Lemma seg_length p0 p1 p2 brk x l : LmSeg.model p0 p1 p2 brk x = Ok l -> length l = length x.
Proof. unfold LmSeg.model. destruct x; [discriminate|]. intros [= <-]. cbn [length map]. now rewrite map_length. Qed.
Lemma model_length f x l : fitted_model f x = Ok l -> length l = length x.
Proof. destruct f; cbn [fitted_model]; [intros [= <-]; apply map_length|apply seg_length]. Qed.
Lemma wavelet_line f c data d : wavelet_plot f c data = Ok d -> length (d_line d) = length data.
Proof.
  unfold wavelet_plot. destruct (fitted_model f (map log10 (xs data))) as [l|e] eqn:E; [|discriminate]. cbn [bind]. intros [= <-]. cbn [d_line].
  apply model_length in E. rewrite map_length in E. unfold xs in *. rewrite combine_length, !map_length in *. lia.
Qed.
Lemma wavelet_always f c data : data <> [] -> exists d, wavelet_plot f c data = Ok d.
Proof.
  intros N. unfold wavelet_plot. destruct f; cbn [fitted_model bind]; [eexists; reflexivity|].
  unfold LmSeg.model. destruct data; [contradiction|]. cbn [xs map]. eexists. reflexivity.
Qed.
