(** Specification vocabulary for PDF objects. *)
From Coq Require Import Reals List Bool.
From Verif Require Import Lib.PyBase Lib.Fl Lib.Hist Spec.Distrib Model.StatsUtils Model.Pdf Model.PdfRun.
Import ListNotations.
Local Open Scope R_scope.

(** The logarithm of the likelihood of shapes, location and scale: minus infinity unless the
    density is positive at all data. *)
Definition log_likelihood (m : family) (shapes : list R) (loc scale : R) : fl :=
  let l := m_logpdf m shapes loc scale in if forallb is_fin l then fsum l else NInf.
(** Histogram, bins and distribution function belong together: the ECDF is that of the data at the
    bins that the PDF has its values in. *)
Definition aligned (data : list R) (o : pobj) : Prop := exists c p, o_bins o = Some (Edges c) /\ o_pdf o = Some p /\ length p = length c /\
  o_ecdf o = Some (map (fun x => Fin (share_le data x)) c).
(** What a fit leaves. *)
Definition same_fit (o1 o2 : pobj) : Prop := o_fixes o1 = o_fixes o2 /\ o_model o1 = o_model o2 /\ o_params o1 = o_params o2 /\ o_errs o1 = o_errs o2.
Definition same_pdf (o1 o2 : pobj) : Prop := o_bins o1 = o_bins o2 /\ o_pdf o1 = o_pdf o2 /\ o_ecdf o1 = o_ecdf o2.
