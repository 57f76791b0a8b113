(** Vocabulary for a DeltaVariance object through a history of calls. *)
From Coq Require Import String Reals List ZArith Arith Bool.
From Verif Require Import Lib.PyBase Lib.Fl Model.Units Model.DeltaVar Model.FitState Model.DeltaVarRun.
Import ListNotations.
Local Open Scope R_scope.

(** The curve of the object is the delta variance at each of its lags, computed with the options [c]. *)
Definition curve_of (e : dv_env) (o : dvo) (c : copts) : Prop := d_curve o = Some (map (v_value e c) (d_lags o)).

(** The same results of a run: curve, range of the fit, slope and its error, break and (if there is
    a break) its error. *)
Definition same_results (o o' : dvo) : Prop :=
  d_curve o' = d_curve o /\ d_range o' = d_range o /\ t_slope (d_fit o') = t_slope (d_fit o) /\ t_slope_err (d_fit o') = t_slope_err (d_fit o) /\
  t_brk (d_fit o') = t_brk (d_fit o) /\ ((exists b, t_brk (d_fit o) = Some (Some b)) -> t_brk_err (d_fit o') = t_brk_err (d_fit o)).

(** Calls that do not set lags, and with a known boundary. *)
Definition keeps_lags (c : call) : Prop := match c with CSetLags _ => False | _ => True end.
Definition good_boundary (c : call) : Prop := match c with CCompute c | CRun c _ => c_boundary c = "wrap"%string \/ c_boundary c = "fill"%string | _ => True end.

(** Pixel size of the map (degrees); lags in pixels as angles. *)
Definition pixel_size (e : dv_env) (s : R) : Prop := s_header (v_stat e) = Some s /\ 0 < s.
Definition angles (s : R) (lags : list R) : list R := map (fun l => l * s) lags.

(** Lags given as numbers of pixels. *)
Definition pixels_given (l : lags_arg) (v : list R) : Prop := l = LNumbers v \/ l = LQuantity (mk_q v pix).

(** Lags between two limits, both included. *)
Definition lags_between (lo hi : R) (l : list R) : list R := filter (fun v => if Rle_dec lo v then if Rle_dec v hi then true else false else false) l.
(** The points of a fit: logarithms of lag and value, and the inverse square of the error. *)
Definition fit_points (value : R -> fl * fl) (l : list R) : list point :=
  map (fun v => (ln v / ln 10, flog10 (fst (value v)), fdiv (Fin 1) (fsqr (snd (value v))))) l.
