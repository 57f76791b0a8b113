(** Specification vocabulary: the same fit with and without a break asked for. *)
From Coq Require Import Reals List.
From Verif Require Import Lib.Fl Model.FitState Model.PspecFit Model.DeltaVarRun Model.WaveletRun.
Import ListNotations.

Definition without_break (a : PspecFit.fit_args) : PspecFit.fit_args :=
  mk_f (f_unbinned a) None (f_log_break a) (f_low a) (f_high a) (f_min_pts a) (f_weighted a) (f_bootstrap a).
Definition dv_without_break (a : fargs) : fargs := mk_fargs (f_xlow a) (f_xhigh a) None (f_boot a).
Definition w_without_break (a : wargs) : wargs := mk_wa (a_xlow a) (a_xhigh a) None (a_min_pts a) (a_weighted a) (a_boot a).

(** Two spectra hold the same things but for the error of the break. *)
Definition same_but_error (o1 o2 : pobj) : Prop :=
  o_ps2D o1 = o_ps2D o2 /\ o_freqs o1 = o_freqs o2 /\ o_ps1D o1 = o_ps1D o2 /\ o_stddev o1 = o_stddev o2 /\ o_azim o1 = o_azim o2 /\
  o_low o1 = o_low o2 /\ o_high o1 = o_high o2 /\ o_amp o1 = o_amp o2 /\ o_fit2D o1 = o_fit2D o2 /\
  t_brk (o_state o1) = t_brk (o_state o2) /\ t_slope (o_state o1) = t_slope (o_state o2) /\ t_slope_err (o_state o1) = t_slope_err (o_state o2).
