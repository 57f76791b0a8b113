(** Properties C282, C283: PDF objects through a history of calls; the model that a fit leaves. *)
From Coq Require Import Reals List ZArith Arith Bool Lia Lra.
From Verif Require Import Lib.PyBase Lib.RSum Lib.Fl Lib.Hist Spec.Distrib Model.EllipPlaw Model.Pdf Model.PdfRun Spec.PdfRun Proofs.PdfRun_Proofs Proofs.PdfRun2_Proofs.
Import ListNotations.
Local Open Scope R_scope.

(** ** C282 *)
(** Whatever was called before, a percentile that is returned is the share of the data not above
    the value. *)
Theorem C282_percentile : forall l nm bse emcee o h v r, l <> [] -> snd (do_percentile (map Fin l) (history (map Fin l) nm bse emcee o h) v) = Ok r -> r = Fin (100 * share_le l v).
Proof. intros l nm bse emcee o h v r H. exact (percentile_value l H _ v r). Qed.
Print Assumptions C282_percentile.
(** After a run that returns PDF, bins and ECDF belong together. *)
Theorem C282_run : forall l nm bse emcee o h bins fit o', l <> [] -> do_run (map Fin l) nm bse emcee (history (map Fin l) nm bse emcee o h) bins fit = (o', None) -> aligned l o'.
Proof. intros l nm bse emcee o h b f o' H. exact (run_aligned l H nm bse emcee _ b f o'). Qed.
Print Assumptions C282_run.
(** With given bins a run does not depend on the past. *)
Theorem C282_history : forall l nm bse emcee o1 o2 bins fit, l <> [] ->
  snd (do_run (map Fin l) nm bse emcee o1 (Some bins) fit) = snd (do_run (map Fin l) nm bse emcee o2 (Some bins) fit) /\
  (snd (do_run (map Fin l) nm bse emcee o1 (Some bins) fit) = None ->
   same_pdf (fst (do_run (map Fin l) nm bse emcee o1 (Some bins) fit)) (fst (do_run (map Fin l) nm bse emcee o2 (Some bins) fit)) /\
   (fit <> None -> same_fit (fst (do_run (map Fin l) nm bse emcee o1 (Some bins) fit)) (fst (do_run (map Fin l) nm bse emcee o2 (Some bins) fit)))).
Proof. intros l nm bse emcee o1 o2 b f H. exact (run_forgets l H nm bse emcee o1 o2 b f). Qed.
Print Assumptions C282_history.
Example C282_run_case : exists o', do_run (map Fin [1; 2; 4]) nm0 bse0 emcee0 (history (map Fin [1; 2; 4]) nm0 bse0 emcee0 (new None) [FitPdf bell Mcmc free; MakePdf (Some (Edges [3; 1]))]) (Some (Edges [0; 2; 5])) (Some (bell, Mle, fix_loc 0)) = (o', None)
  /\ snd (do_percentile (map Fin [1; 2; 4]) o' 2) = Ok (find_percentile (fins (map Fin [1; 2; 4])) 2).
Proof.
  destruct (bell_run (history (map Fin [1; 2; 4]) nm0 bse0 emcee0 (new None) [FitPdf bell Mcmc free; MakePdf (Some (Edges [3; 1]))])) as (o' & R & _). exists o'. split; [exact R|].
  assert (NE : [1; 2; 4] <> []) by discriminate. destruct (run_aligned [1; 2; 4] NE nm0 bse0 emcee0 _ _ _ _ R) as (c & p & _ & _ & _ & E). unfold do_percentile. rewrite E. reflexivity.
Qed.
(** make_pdf with new bins leaves the ECDF at the old ones. *)
Theorem C282_ecdf_refuted : forall l nm bse emcee o bins fit o' e, l <> [] -> do_run (map Fin l) nm bse emcee o bins fit = (o', None) -> nondecreasing e = true ->
  exists o2, do_make_pdf (map Fin l) o' (Some (Edges e)) = (o2, None) /\ o_bins o2 = Some (Edges (mid e)) /\ o_ecdf o2 = o_ecdf o' /\
    (forall c, o_bins o' = Some (Edges c) -> length (mid e) <> length c -> ~ aligned l o2).
Proof. intros l nm bse emcee o b f o' e H. exact (new_bins l H nm bse emcee o b f o' e). Qed.
Print Assumptions C282_ecdf_refuted.
Example C282_ecdf_case : exists o', do_run (map Fin [1; 2; 4]) nm0 bse0 emcee0 (new None) (Some (Edges [0; 2; 5])) (Some (bell, Mle, fix_loc 0)) = (o', None) /\ o_bins o' = Some (Edges (mid [0; 2; 5])) /\ nondecreasing [0; 5] = true /\ length (mid [0; 5]) <> length (mid [0; 2; 5]).
Proof. destruct (bell_run (new None)) as (o' & R & B). exists o'. split; [exact R|]. split; [exact B|]. split; [cbn; destruct (Rleb_spec 0 5); [reflexivity|lra]|]. cbn. discriminate. Qed.
(** Bins that are refused stay in the object, beside the earlier PDF, and later calls without bins
    raise too. *)
Theorem C282_refused_refuted : forall l o e, nondecreasing e = false -> exists o2, do_make_pdf (map Fin l) o (Some (Edges e)) = (o2, Some ValueError) /\
  o_bins o2 = Some (Edges e) /\ o_pdf o2 = o_pdf o /\ snd (do_make_pdf (map Fin l) o2 None) = Some ValueError.
Proof. exact refused_bins. Qed.
Print Assumptions C282_refused_refuted.
Example C282_refused_case : nondecreasing [3; 1] = false.
Proof. cbn. destruct (Rleb_spec 3 1); [lra|reflexivity]. Qed.

(** ** C283 *)
(** A fit that returns leaves the parameters, errors and fixed values of this very fit. *)
Theorem C283_fit : forall nm bse emcee o m t x o', do_fit_pdf nm bse emcee o m t x = (o', None) -> o_fixes o' = Some x /\ o_model o' = Some m /\ exists f p, o_params o' = Some p /\
  m_fit m (if x_floc x && negb (x_fscale x) then Some (x_loc x) else None) (if x_fscale x && negb (x_floc x) then Some (x_scale x) else None) = Ok f /\
  let start := init_params f (x_floc x) (x_fscale x) in
  let like := loglike (m_logpdf m) (x_floc x) (x_loc x) (x_fscale x) (x_scale x) in
  (t = Mle /\ x_floc x && x_fscale x = false /\ nm like start = Ok p /\
     (exists s, (bse like p = Ok s /\ o_errs o' = Some (Bse (map Fin s))) \/ (bse like p = Err ValueError /\ o_errs o' = Some (Bse (map (fun _ => NaN) p)))) /\ o_chain o' = o_chain o \/
   t = Mcmc /\ exists c, emcee like start = Ok c /\ p = map mean c /\ o_chain o' = Some c /\ o_errs o' = Some (Range (map (fun s => percentile (sort_r s) 15) c) (map (fun s => percentile (sort_r s) 85) c))).
Proof. exact fit_leaves. Qed.
Print Assumptions C283_fit.
(** The curve drawn over the PDF has the fixed values and the shapes whose likelihood was fitted. *)
Theorem C283_curve : forall nm bse emcee o m t x o', do_fit_pdf nm bse emcee o m t x = (o', None) -> (t = Mle \/ x_floc x && x_fscale x = false) ->
  exists p shapes loc scale, o_params o' = Some p /\ shown o' = Ok (Some (m, shapes, loc, scale)) /\
  (x_floc x = true -> loc = x_loc x) /\ (x_fscale x = true -> scale = x_scale x) /\ loglike (m_logpdf m) (x_floc x) (x_loc x) (x_fscale x) (x_scale x) p = Ok (log_likelihood m shapes loc scale).
Proof. exact fit_shown. Qed.
Print Assumptions C283_curve.
Example C283_fit_case : exists o', do_fit_pdf nm0 bse0 emcee0 (new None) bell Mle (fix_loc 7) = (o', None) /\ shown o' = Ok (Some (bell, [5], 7, 2)).
Proof. eexists. split; reflexivity. Qed.
(** With loc and scale fixed the fit always raises; a plot then asks for parameters there are not. *)
Theorem C283_both_refuted : forall nm bse emcee o m x f, x_floc x = true -> x_fscale x = true -> m_fit m None None = Ok f ->
  snd (do_fit_pdf nm bse emcee o m Mle x) = Some UnboundLocalError /\ (o_params o = None -> shown (fst (do_fit_pdf nm bse emcee o m Mle x)) = Err OtherError).
Proof. exact both_fixed. Qed.
Print Assumptions C283_both_refuted.
Example C283_both_case : exists f, m_fit bell None None = Ok f.
Proof. eexists. reflexivity. Qed.
(** A fit that raises has already replaced what is fixed: the curve of the earlier fit is then read
    with its last shape as location. *)
Theorem C283_failed_refuted : forall nm bse emcee o m x e m0 p s lc, m_fit m None None = Err e -> x_floc x = false -> x_fscale x = false ->
  o_fixes o = Some (mk_fixes true lc false 0) -> o_model o = Some m0 -> o_params o = Some (p ++ [s]) ->
  exists o', do_fit_pdf nm bse emcee o m Mle x = (o', Some e) /\ shown o = Ok (Some (m0, p, lc, s)) /\ o_params o' = o_params o /\
    (forall q a, p = q ++ [a] -> shown o' = Ok (Some (m0, q, a, s))).
Proof. exact failed_fit. Qed.
Print Assumptions C283_failed_refuted.
Example C283_failed_case : exists o, do_fit_pdf nm0 bse0 emcee0 (new None) bell Mle (fix_loc 0) = (o, None) /\ o_fixes o = Some (mk_fixes true 0 false 0) /\ o_model o = Some bell /\ o_params o = Some ([5] ++ [2]) /\ m_fit broken None None = Err OtherError.
Proof. eexists. repeat split; reflexivity. Qed.
(** Over the ECDF of data that were not normalised the curve is drawn at location 0. *)
Theorem C283_ecdf_refuted : forall nm bse emcee o m x o', do_fit_pdf nm bse emcee o m Mle x = (o', None) -> x_floc x = true ->
  exists shapes scale, shown o' = Ok (Some (m, shapes, x_loc x, scale)) /\ shown_ecdf false o' = Ok (Some (m, shapes, 0, scale)) /\ shown_ecdf true o' = shown o'.
Proof. exact ecdf_loc. Qed.
Print Assumptions C283_ecdf_refuted.
(** A chain stays after a later maximum likelihood fit, and is what the corner and trace plots draw. *)
Theorem C283_chain_refuted : forall nm bse emcee o m x o1 m2 x2 o2, do_fit_pdf nm bse emcee o m Mcmc x = (o1, None) -> do_fit_pdf nm bse emcee o1 m2 Mle x2 = (o2, None) ->
  drawn_chain o2 = drawn_chain o1 /\ is_ok (drawn_chain o2) = true.
Proof. exact old_chain. Qed.
Print Assumptions C283_chain_refuted.
Example C283_chain_case : exists o1 o2, do_fit_pdf nm0 bse0 emcee0 (new None) bell Mcmc (fix_loc 0) = (o1, None) /\ do_fit_pdf nm0 bse0 emcee0 o1 bell Mle (fix_loc 7) = (o2, None).
Proof. destruct (bell_chain (new None)) as (o1 & H). exists o1. eexists. split; [exact H|apply bell_fit]. Qed.
