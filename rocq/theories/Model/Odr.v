(** Model of leastsq_linear of turbustat/statistics/fitting_utils.py and of its call in
    PCA.fit_plaw of turbustat/statistics/pca/pca.py.  The plots are not modelled. *)
From Coq Require Import Reals List.
From Verif Require Import Lib.PyBase Lib.Fl Model.EllipPlaw Model.PcaFit.
Import ListNotations.
Local Open Scope R_scope.

(** np.power(e, -2): infinite at 0 *)
Definition pow_m2 (e : fl) : fl :=
  match e with Fin v => if Reqb v 0 then PInf else Fin (/ (v * v)) | PInf | NInf => Fin 0 | NaN => NaN end.
(** fitting_utils.py:44-45 [fit_func] for parameters that are numbers *)
Definition fit_func (B : R * R) (x : fl) : fl := fadd (fmul (Fin (fst B)) x) (Fin (snd B)).
(** A point with its errors in x and y, and what odr.Data holds of it *)
Record point := mk_pt { p_x : fl; p_y : fl; p_ex : fl; p_ey : fl }.
Record datum := mk_dat { d_x : fl; d_y : fl; d_wd : fl; d_we : fl }.
(** fitting_utils.py:49 *)
Definition odr_datum (p : point) : datum := mk_dat (p_x p) (p_y p) (pow_m2 (p_ex p)) (pow_m2 (p_ey p)).

Section Fit.
(** scipy.stats.linregress: slope and intercept; scipy.odr.ODR(...).run() with [fit_func]: beta
    and sd_beta *)
Variable linregress : list (fl * fl) -> fl * fl.
Variable odr_run : list datum -> fl * fl -> (R * R) * (R * R).
(** fitting_utils.py:13-60, 107 [leastsq_linear] *)
Definition leastsq_linear (pts : list point) : (R * R) * (R * R) :=
  let mydata := map odr_datum pts in
  let beta0 := linregress (map (fun p => (p_x p, p_y p)) pts) in
  odr_run mydata beta0.
(** pca.py:564-570: the logarithms of the widths of a component and their errors *)
Definition log_point (r : width_row) : point :=
  mk_pt (flog10 (w_spat r)) (flog10 (w_spec r))
        (fdiv (fmul (Fin (434 / 1000)) (w_spat_err r)) (w_spat r))
        (fdiv (fmul (Fin (434 / 1000)) (w_spec_err r)) (w_spec r)).
(** pca.py:572-577, 585-594: the odr argument of PcaFit.fit_plaw *)
Definition fit_odr (rows : list width_row) : fitted :=
  let '(params, errors) := leastsq_linear (map log_point rows) in
  odr_fitted (fst params) (snd params) (fst errors) (snd errors).
End Fit.
