(** Properties C278-C280: VCS objects, power laws in the VCS, and the kind of errors. *)
From Coq Require Import Reals List Arith Bool Lia Lra.
From Verif Require Import Lib.PyBase Lib.Fl Model.Psds Model.Units Model.DeltaVar Model.LmSeg Model.BreakFit Model.VcsFit Model.VcsRun Spec.Segmented Spec.BreakFit Spec.VcsRun
  Proofs.Ols_Proofs Proofs.VcsRun_Proofs Proofs.VcsRun2_Proofs Proofs.VcsRun3_Proofs Proofs.VcsRun4_Proofs.
Import ListNotations.
Local Open Scope R_scope.

(** ** C278.  After any calls, a fit or run that returns shows one fit of the points of the cube
    between the limits of that call, from the start of that call. *)
Theorem C278_fit : forall nz ny nx cube to_freq knots ols boot, (1 <= nz)%nat /\ (1 <= ny)%nat /\ (1 <= nx)%nat -> forall h a o',
  do_fit nz to_freq knots ols boot (history nz ny nx cube to_freq knots ols boot fresh h) a = (o', None) \/
  run nz ny nx cube to_freq knots ols boot (history nz ny nx cube to_freq knots ols boot fresh h) a = (o', None) ->
  exists low high pts b g slopes errs, low_limit to_freq nz (a_low a) low /\ high_limit to_freq nz (a_high a) high /\ points_of nz (vcs_ps1D nz ny nx cube) low high pts /\
    match a_breaks a with
    | Some v => b = as_start (a_log a) v
    | None => exists ks bs v, knots (vcs_x pts) (map (fun p => flog10 (snd p)) pts) = Ok ks /\ vcs_start (vcs_x pts) ks = Ok bs /\ In v bs /\ b = as_start (a_log a) v
    end /\
    lm_seg_fit ols (map Fin (vcs_x pts)) (map (fun p => flog10 (snd p)) pts) b None = Ok g /\ get_slopes g = Ok (slopes, errs) /\
    shown o' = (Ok slopes, Ok (if a_boot a then removelast (tl (boot g)) else errs), Ok (g_brk g), Ok (g_brk_err g)) /\ v_low o' = Some low /\ v_high o' = Some high.
Proof. exact history_fit. Qed.
Print Assumptions C278_fit.
Example C278_fit_case : forall to_freq knots boot, exists o' C, run 11 1 1 cube11 to_freq knots ols0 boot fresh ask11 = (o', None) /\ slope o' = Ok [Fin (-1); Fin (-3)] /\ brk o' = Ok (ln C / ln 10) /\ C <> 5 / 22.
Proof. exact run11. Qed.

(** The calls before a run do not matter: it raises the same, and leaves the same object when it
    raises nothing. *)
Theorem C278_history : forall nz ny nx cube to_freq knots ols boot h a,
  snd (run nz ny nx cube to_freq knots ols boot (history nz ny nx cube to_freq knots ols boot fresh h) a) = snd (run nz ny nx cube to_freq knots ols boot fresh a) /\
  (snd (run nz ny nx cube to_freq knots ols boot fresh a) = None ->
   run nz ny nx cube to_freq knots ols boot (history nz ny nx cube to_freq knots ols boot fresh h) a = run nz ny nx cube to_freq knots ols boot fresh a).
Proof. exact history_run. Qed.
Print Assumptions C278_history.
Example C278_history_case : forall to_freq knots boot, snd (run 11 1 1 cube11 to_freq knots ols0 boot fresh ask11) = None.
Proof. intros to_freq knots boot. destruct (run11 to_freq knots boot) as (o' & C & E & _). now rewrite E. Qed.

(** A fit that raises leaves the slopes and the spectrum as they were ... *)
Theorem C278_failed_partial : forall nz to_freq knots ols boot o a o' e, do_fit nz to_freq knots ols boot o a = (o', Some e) ->
  slope o' = slope o /\ slope_err o' = slope_err o /\ v_ps1D o' = v_ps1D o.
Proof. exact fit_failed. Qed.
Print Assumptions C278_failed_partial.
(** ... but not the break and the limits: they are of another fit than the slopes. *)
Theorem C278_failed_refuted : forall (to_freq : quantity -> result R) boot q, to_freq q = Ok (5 / 14) -> exists o1 o2,
  run 14 1 1 cube14 to_freq knots14 ols0 boot fresh given14 = (o1, None) /\ do_fit 14 to_freq knots14 ols0 boot o1 (search14 q) = (o2, Some ValueError) /\
  slope o1 = Ok [Fin 0] /\ slope o2 = Ok [Fin 0] /\ brk o1 = Ok (ln (6 / 14) / ln 10) /\ brk o2 = Ok (ln (5 / 14) / ln 10) /\ v_high o2 = Some (5 / 14).
Proof. exact failed14. Qed.
Print Assumptions C278_failed_refuted.

(** log_break=False without breaks never fits: the breaks of the spline are logarithms already. *)
Theorem C278_unlogged_refuted : forall nz ny nx cube to_freq knots ols boot, (1 <= nz)%nat /\ (1 <= ny)%nat /\ (1 <= nx)%nat -> forall h a,
  knots_inside knots -> a_breaks a = None -> a_log a = false ->
  snd (do_fit nz to_freq knots ols boot (history nz ny nx cube to_freq knots ols boot fresh h) a) <> None /\
  snd (run nz ny nx cube to_freq knots ols boot (history nz ny nx cube to_freq knots ols boot fresh h) a) <> None.
Proof. exact unlogged. Qed.
Print Assumptions C278_unlogged_refuted.
(** [knots_inside] holds of knots at the ends of the points *)
Example C278_unlogged_case : knots_inside (fun x _ => match x with [] => Err ValueError | a :: r => Ok [a; last x 0] end).
Proof.
  intros x y ks k E I. destruct x as [|a r]; [discriminate|]. injection E as <-. destruct I as [<-|[<-|[]]].
  - exists a. split; [now left|lra].
  - exists (last (a :: r) 0). split; [|right; reflexivity]. clear. revert a. induction r as [|b r IH]; intros a; [now left|]. right. apply IH.
Qed.

(** ** C279.  On an exact broken power law, the slopes are those of the law, from any start in the
    gap between points that holds the break: given, or first found by the spline.  Missing: the
    break itself; other starts. *)
Theorem C279_broken_partial : forall nz ny nx cube to_freq knots ols boot, (1 <= nz)%nat /\ (1 <= ny)%nat /\ (1 <= nx)%nat -> forall h a low high A s1 s2 B B0,
  low_limit to_freq nz (a_low a) low -> high_limit to_freq nz (a_high a) high -> regression ols ->
  0 < A -> 0 < B -> 0 < B0 -> s1 <> s2 -> follows nz (vcs_ps1D nz ny nx cube) low high (broken_plaw A s1 s2 B) ->
  two_sided B (fitted_freqs nz low high) -> same_gap B B0 (fitted_freqs nz low high) -> same_gap B (B * B / B0) (fitted_freqs nz low high) ->
  (start_at B0 (a_breaks a) (a_log a) \/
   a_breaks a = None /\ a_log a = true /\ exists ks rest, knots (map EllipPlaw.log10 (fitted_freqs nz low high)) (map (fun f => Fin (EllipPlaw.log10 (broken_plaw A s1 s2 B f))) (fitted_freqs nz low high)) = Ok ks /\
     vcs_start (map EllipPlaw.log10 (fitted_freqs nz low high)) ks = Ok (EllipPlaw.log10 B0 :: rest)) ->
  exists o' C, run nz ny nx cube to_freq knots ols boot (history nz ny nx cube to_freq knots ols boot fresh h) a = (o', None) /\
    slope o' = Ok [Fin s1; Fin s2] /\ brk o' = Ok (ln C / ln 10) /\ (C = B0 \/ C = B * B / B0).
Proof. exact run_broken. Qed.
Print Assumptions C279_broken_partial.
(** The break is not found *)
Theorem C279_break_refuted : forall to_freq knots boot, exists o' C, run 11 1 1 cube11 to_freq knots ols0 boot fresh ask11 = (o', None) /\ slope o' = Ok [Fin (-1); Fin (-3)] /\ brk o' = Ok (ln C / ln 10) /\ C <> 5 / 22.
Proof. exact run11. Qed.
Print Assumptions C279_break_refuted.
Example C279_broken_case : forall k, (1 <= k < 5)%nat -> nth k (vcs_ps1D 11 1 1 cube11) NaN = Fin (broken_plaw 1 (-1) (-3) (5 / 22) (INR k / INR 11)).
Proof. exact power11_at. Qed.

(** On a plain power law a given break is dropped: the one slope is that of the law, and the break
    shown is the highest frequency. *)
Theorem C279_plain_partial : forall nz ny nx cube to_freq knots ols boot, (1 <= nz)%nat /\ (1 <= ny)%nat /\ (1 <= nx)%nat -> forall h a low high A s B0,
  low_limit to_freq nz (a_low a) low -> high_limit to_freq nz (a_high a) high -> regression ols ->
  0 < A -> 0 < B0 -> follows nz (vcs_ps1D nz ny nx cube) low high (fun f => A * Rpower f s) -> two_sided B0 (fitted_freqs nz low high) -> start_at B0 (a_breaks a) (a_log a) ->
  exists o' m, run nz ny nx cube to_freq knots ols boot (history nz ny nx cube to_freq knots ols boot fresh h) a = (o', None) /\
    slope o' = Ok [Fin s] /\ brk o' = Ok (ln m / ln 10) /\ In m (fitted_freqs nz low high) /\ forall f, In f (fitted_freqs nz low high) -> f <= m.
Proof. exact run_plain. Qed.
Print Assumptions C279_plain_partial.
(** When the spline has two breaks or more, a plain power law is refused. *)
Theorem C279_search_refuted : forall nz ny nx cube to_freq knots ols boot, (1 <= nz)%nat /\ (1 <= ny)%nat /\ (1 <= nx)%nat -> forall h a low high A s ks bs,
  low_limit to_freq nz (a_low a) low -> high_limit to_freq nz (a_high a) high -> regression ols ->
  0 < A -> follows nz (vcs_ps1D nz ny nx cube) low high (fun f => A * Rpower f s) -> a_breaks a = None ->
  knots (map EllipPlaw.log10 (fitted_freqs nz low high)) (map (fun f => Fin (EllipPlaw.log10 (A * Rpower f s))) (fitted_freqs nz low high)) = Ok ks -> vcs_start (map EllipPlaw.log10 (fitted_freqs nz low high)) ks = Ok bs ->
  (forall b, In b bs -> two_sided b (map EllipPlaw.log10 (fitted_freqs nz low high))) -> (2 <= length bs)%nat ->
  snd (run nz ny nx cube to_freq knots ols boot (history nz ny nx cube to_freq knots ols boot fresh h) a) = Some ValueError.
Proof. exact run_search. Qed.
Print Assumptions C279_search_refuted.
Example C279_plain_case : forall (to_freq : quantity -> result R) boot q, to_freq q = Ok (5 / 14) -> exists o1 o2,
  run 14 1 1 cube14 to_freq knots14 ols0 boot fresh given14 = (o1, None) /\ do_fit 14 to_freq knots14 ols0 boot o1 (search14 q) = (o2, Some ValueError) /\ slope o1 = Ok [Fin 0].
Proof. intros to_freq boot q E. destruct (failed14 to_freq boot q E) as (o1 & o2 & A & B & C & _). eauto. Qed.

(** ** C280.  The kind of errors asked for is not used: they are always the nonrobust ones. *)
Theorem C280_robust_refuted : forall ols x y b w,
  (forall y w cols, f_params (ols HC3 y w cols) = f_params (ols Nonrobust y w cols) /\ f_resid (ols HC3 y w cols) = f_resid (ols Nonrobust y w cols)) ->
  forall asked, lm_seg_fit_cov ols asked x y b w = lm_seg_fit (ols Nonrobust) x y b w.
Proof. exact cov_ignored. Qed.
Print Assumptions C280_robust_refuted.
Example C280_robust_case : let x := [1; 2; 3; 4] in exists g h,
  lm_seg_fit_cov ols_cov HC3 (map Fin x) (map Fin x) (Fin (5 / 2)) None = Ok g /\ get_slopes g = Ok ([Fin 1], [Fin 1]) /\
  lm_seg_fit (ols_cov HC3) (map Fin x) (map Fin x) (Fin (5 / 2)) None = Ok h /\ get_slopes h = Ok ([Fin 1], [Fin 2]).
Proof. exact cov_example. Qed.
