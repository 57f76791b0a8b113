(** The plots of fitted power laws. *)
From Coq Require Import Reals List Lra Lia.
From Verif Require Import Lib.PyBase Lib.Fl Model.PlotFit Spec.PlotFit Proofs.PlotFit_Proofs.
Import ListNotations.
Local Open Scope R_scope.

(** C299.  In whatever unit, the plots of the wavelet transform, of the SCF spectrum and of the
    VCS show the data, a line on the fitted law, and the residuals of the points from that law. *)
Theorem C299_agree_partial : forall b m c data, 0 < c ->
  (exists d, wavelet_plot (Straight b m) c data = Ok d /\ points_of c data d /\ line_on (law b m c) d /\ residuals_of (law b m c) d) /\
  (forall good, exists d, vcs_plot (Straight b m) c good data = Ok d /\ points_of c data d /\ line_on (law b m c) d /\ residuals_of (law b m c) d) /\
  (forall knots, let d := scf_plot b m c knots data in points_of c data d /\ line_on (law b m c) d /\ residuals_of (law b m c) d).
Proof.
  intros b m c data C. split; [now apply wavelet_agrees|]. split; [intros good; now apply vcs_agrees|intros knots; now apply scf_agrees].
Qed.
Print Assumptions C299_agree_partial.

(** Of the wavelet transform the plot is drawn for a law with a break as well, and the residuals
    are the points less the line. *)
Theorem C299_wavelet_partial : forall f c data, data <> [] -> exists d, wavelet_plot f c data = Ok d /\ length (d_line d) = length data /\
  map fst (d_line d) = map fst (d_points d) /\
  d_res d = map (fun q => (fst (fst q), snd (fst q) - snd (snd q))) (combine (d_points d) (d_line d)).
Proof.
  intros f c data N. destruct (wavelet_always f c data N) as [d E]. exists d. pose proof (wavelet_line _ _ _ _ E) as L.
  split; [exact E|]. split; [exact L|]. exact (wavelet_any _ _ _ _ E L).
Qed.
Print Assumptions C299_wavelet_partial.

(** The plot of the delta-variance has a right line in every unit and right residuals in pixels. *)
Theorem C299_delvar_partial : forall b m c knots data, 0 < c ->
  exists d, delvar_plot (Straight b m) c knots data = Ok d /\ points_of c data d /\ line_on (law b m c) d /\ (c = 1 -> residuals_of (law b m c) d).
Proof. exact delvar_line. Qed.
Print Assumptions C299_delvar_partial.

(** In any other unit every one of the residuals is wrong, unless the law is flat. *)
Theorem C299_delvar_refuted : forall b m c knots data d, 0 < c -> c <> 1 -> m <> 0 -> positive data -> delvar_plot (Straight b m) c knots data = Ok d ->
  Forall2 (fun r p => fst r = fst p /\ snd r <> snd p - law b m c (fst p)) (d_res d) (d_points d).
Proof. exact delvar_residuals. Qed.
Print Assumptions C299_delvar_refuted.

(** The plot of a power spectrum has right residuals in every unit and a right line in pixels. *)
Theorem C299_pspec_partial : forall b m c good data, 0 < c -> positive data ->
  exists d, pspec_plot (Straight b m) c good data = Ok d /\
    d_points d = map (fun p => (ln (c * fst p) / ln 10, ln (snd p) / ln 10)) data /\
    residuals_of (log_law b m c) d /\ (c = 1 -> line_on (log_law b m c) d).
Proof. exact pspec_residuals. Qed.
Print Assumptions C299_pspec_partial.

(** In any other unit, and with use_wavenumber, the line is beside the data: it is displaced by
    the slope times the logarithm of the factor. *)
Theorem C299_line_refuted : forall b m c good data d, 0 < c -> pspec_plot (Straight b m) c good data = Ok d ->
  (forall X Y, In (X, Y) (d_line d) -> Y = log_law b m c X + m * (ln c / ln 10)) /\
  (c <> 1 -> m <> 0 -> forall X Y, In (X, Y) (d_line d) -> Y <> log_law b m c X).
Proof.
  intros b m c good data d C E. pose proof (pspec_line b m c good data d C E) as H. split; [exact H|].
  intros N M X Y I Z. apply (shifted m c C N M). specialize (H X Y I). lra.
Qed.
Print Assumptions C299_line_refuted.

(** A power spectrum that was fitted with a break cannot be plotted. *)
Theorem C299_break_refuted : forall p0 p1 p2 brk c good data, data <> [] -> pspec_plot (Seg p0 p1 p2 brk) c good data = Err ValueError.
Proof. exact pspec_break. Qed.
Print Assumptions C299_break_refuted.

(** Three points, a slope of -2, and a pixel of two arcseconds. *)
Definition points : list (R * R) := [(1, 9); (2, 3); (4, 1)].
Example points_positive : positive points.
Proof. intros x y [[= <- <-]|[[= <- <-]|[[= <- <-]|[]]]]; lra. Qed.
Example C299_meets :
  (exists d, wavelet_plot (Straight 1 (-2)) 2 points = Ok d /\ residuals_of (law 1 (-2) 2) d /\ length (d_line d) = 3%nat) /\
  (exists d, delvar_plot (Straight 1 (-2)) 2 [1; 3] points = Ok d /\ ~ residuals_of (law 1 (-2) 2) d) /\
  (exists d, pspec_plot (Straight 1 (-2)) 2 (fun x => Rltb x 3) points = Ok d /\ ~ line_on (log_law 1 (-2) 2) d) /\
  pspec_plot (Seg 1 (-2) (-1) 0) 1 (fun _ => true) points = Err ValueError.
Proof.
  split. { destruct (C299_agree_partial 1 (-2) 2 points ltac:(lra)) as [(d & E & _ & _ & R) _]. exists d. repeat split; try assumption. exact (wavelet_line _ _ _ _ E). }
  split. { destruct (C299_delvar_partial 1 (-2) 2 [1; 3] points ltac:(lra)) as (d & E & P & _). exists d. split; [exact E|].
    pose proof (C299_delvar_refuted 1 (-2) 2 [1; 3] points d ltac:(lra) ltac:(lra) ltac:(lra) points_positive E) as F.
    intros R. rewrite R, P in F. cbn in F. inversion F as [|? ? ? ? [_ Z]]; subst. apply Z. reflexivity. }
  split. { destruct (C299_pspec_partial 1 (-2) 2 (fun x => Rltb x 3) points ltac:(lra) points_positive) as (d & E & _). exists d. split; [exact E|].
    pose proof (C299_line_refuted _ _ _ _ _ _ (Rlt_0_2) E) as [_ N]. intros L.
    assert (I : exists X Y, In (X, Y) (d_line d)).
    { unfold pspec_plot in E. cbn [fitted_model predict bind] in E. injection E as <-. cbn [d_line xs map points fst filter].
      destruct (Rltb_spec 1 3); [|lra]. cbn [map combine]. do 2 eexists. left. reflexivity. }
    destruct I as (X & Y & I). apply (N ltac:(lra) ltac:(lra) X Y I). exact (L X Y I). }
  now apply pspec_break.
Qed.
