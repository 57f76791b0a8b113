(** What the plots of fitted power laws draw: the data, the fitted line and the residuals.

    Units are factors: a length of x pixels is c x in the unit of the axis, and a frequency of f
    per pixel is c f (base_statistic.py:272-317; with use_wavenumber c has the length of the image
    as well, base_pspec2.py:55-56, 666-671).  Error bars, symbols and limits are left out. *)
From Coq Require Import Reals List.
From Verif Require Import Lib.PyBase Lib.Fl.
From Verif Require Model.LmSeg.
Import ListNotations.
Local Open Scope R_scope.

Definition log10 (x : R) : R := ln x / ln 10.
Definition ten (y : R) : R := Rpower 10 y.
(** A fit of the logarithms: a line, or a line with a break *)
Inductive fitted := Straight (b m : R) | Seg (p0 p1 p2 brk : R).
(** wavelet_transform.py:413-432, delta_variance.py:473-492 [fitted_model], lm_seg.py:209-220 *)
Definition fitted_model (f : fitted) (xs : list R) : result (list R) :=
  match f with Straight b m => Ok (map (fun x => b + m * x) xs) | Seg p0 p1 p2 brk => LmSeg.model p0 p1 p2 brk xs end.

Record drawn := mk_drawn { d_points : list (R * R); d_line : list (R * R); d_res : list (R * R) }.
Definition xs (data : list (R * R)) : list R := map fst data.
Definition less (data : list (R * R)) (l : list R) : list R := map (fun p => snd (fst p) - snd p) (combine data l).

(** wavelet_transform.py:479-525 [plot_transform] *)
Definition wavelet_plot (f : fitted) (c : R) (data : list (R * R)) : result drawn :=
  l <- fitted_model f (map log10 (xs data)) ;;
  Ok (mk_drawn (map (fun p => (c * fst p, snd p)) data) (combine (map (Rmult c) (xs data)) (map ten l))
               (combine (map (Rmult c) (xs data)) (less data (map ten l)))).
(** delta_variance.py:546-585 [plot_fit]; knots: np.linspace over the fit range, in pixels *)
Definition delvar_plot (f : fitted) (c : R) (knots : list R) (data : list (R * R)) : result drawn :=
  let lags := map (Rmult c) (xs data) in
  l <- fitted_model f (map log10 knots) ;; r <- fitted_model f (map log10 lags) ;;
  Ok (mk_drawn (map (fun p => (c * fst p, snd p)) data) (combine (map (Rmult c) knots) (map ten l))
               (combine lags (less data (map ten r)))).
(** scf.py:403-428 [fitted_model]: values in the unit are turned into pixels *)
Definition scf_model (b m c : R) (xvals : list R) : list R := map (fun x => ten (b + m * log10 (x / c))) xvals.
(** scf.py:686-739 [plot_fit]; knots: np.linspace over the lags, in the unit *)
Definition scf_plot (b m c : R) (knots : list R) (data : list (R * R)) : drawn :=
  mk_drawn (map (fun p => (c * fst p, snd p)) data) (combine knots (scf_model b m c knots))
           (combine (map (Rmult c) (xs data)) (less data (scf_model b m 1 (xs data)))).
(** vcs.py:296-331 [plot_fit]; good: the frequencies in the limits of the fit *)
Definition vcs_plot (f : fitted) (c : R) (good : R -> bool) (data : list (R * R)) : result drawn :=
  let inside := filter good (xs data) in
  l <- fitted_model f (map log10 inside) ;; r <- fitted_model f (map log10 (xs data)) ;;
  Ok (mk_drawn (map (fun p => (c * fst p, snd p)) data) (combine (map (Rmult c) inside) (map ten l))
               (combine (map (Rmult c) (xs data)) (less data (map ten r)))).
(** base_pspec2.py:651-722 [plot_fit], on logarithmic values.  self.fit.predict takes a matrix of
    two columns; the fit with a break has four, and numpy refuses their product *)
Definition predict (f : fitted) (x : list R) : result (list R) :=
  match f with Straight b m => Ok (map (fun x => b + m * x) x) | Seg _ _ _ _ => Err ValueError end.
Definition pspec_plot (f : fitted) (c : R) (good : R -> bool) (data : list (R * R)) : result drawn :=
  r <- fitted_model f (map log10 (xs data)) ;;
  let xvals_plot := map (fun x => log10 (c * x)) (filter good (xs data)) in
  y_fit <- predict f xvals_plot ;;
  let points := map (fun p => (log10 (c * fst p), log10 (snd p))) data in
  Ok (mk_drawn points (combine xvals_plot y_fit)
               (map (fun p => (fst (fst p), snd (fst p) - snd p)) (combine points r))).
