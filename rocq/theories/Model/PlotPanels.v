(** What the plots of PCA, Genus, Tsallis and the dendrograms show, and where. *)
From Coq Require Import Reals List Arith.
From Verif Require Import Lib.PyBase Lib.Arr Lib.Fl Lib.Hist Model.PlotFit.
From Verif Require Model.StatsUtils.
Import ListNotations.
Local Open Scope R_scope.

(** plt.bar(x, height): the arrays are broadcast against each other *)
Definition bar {A} (x : list A) (height : list R) : result (list (A * R)) :=
  if Nat.eqb (length x) (length height) then Ok (combine x height)
  else match x, height with
       | _, [h] => Ok (map (fun p => (p, h)) x)
       | [p], _ => Ok (map (fun h => (p, h)) height)
       | _, _ => Err ValueError
       end.
(** pca.py:802-806 [plot_fit]: stored: self.n_eigs; n_eigs: the argument *)
Definition pca_bars (stored : nat) (eigvals : list R) (n_eigs : option nat) : result (list (nat * R)) :=
  let n_eigs := match n_eigs with None => stored | Some n => n end in bar (seq 1 stored) (firstn n_eigs eigvals).

(** pca.py:826-909 [plot_fit]: spatial widths fst and spectral widths snd, in pixels; c and s the
    factors of their units; size counts blank widths as well, which are left out otherwise;
    np.nanmin of nothing but blanks is blank, and so is the line *)
Definition pca_plot (index intercept c s : R) (size : nat) (widths : list (R * R)) : drawn :=
  let xvals l := match l with [] => [] | x :: r => StatsUtils.linspace (log10 (lmin x r)) (log10 (lmax x r)) (size * 10) end in
  let fit x := log10 (ten (index * x + log10 intercept) * s) in
  mk_drawn (map (fun w => (log10 (c * fst w), log10 (s * snd w))) widths)
           (combine (xvals (map (fun w => c * fst w) widths)) (map fit (xvals (map fst widths))))
           (map (fun w => (log10 (c * fst w), log10 (s * snd w) - fit (log10 (fst w)))) widths).

(** A panel of a grid: rows, columns, place in the grid (from 1), label, curve, x label *)
Record panel := mk_panel { p_rows : nat; p_cols : nat; p_place : nat; p_label : option R; p_curve : list (R * R); p_xlabel : bool }.
Section Genus.
(** The radii in the order of the smoothed images (None: not smoothed), their curves, means and
    standard deviations *)
Variables (radii : list (option R)) (stats : list (list R)) (means stds thresholds : list R) (standardize : bool).
(** genus.py:395-442 [plot_fit] *)
Definition genus_panel (i : nat) : panel :=
  let num := length radii in
  let num_cols := if Nat.eqb (num mod 2) 0 then (num / 2)%nat else (num / 2 + 1)%nat in
  let thr := if standardize then map (fun t => (t - nth (i - 1) means 0) / nth (i - 1) stds 0) thresholds else thresholds in
  mk_panel (if Nat.eqb num 1 then 1 else num_cols) (if Nat.eqb num 1 then 1 else 2) i (nth (i - 1) radii None)
           (combine thr (nth (i - 1) stats [])) (Nat.leb (num - i + 1) 2).
Definition genus_plot : list panel := map genus_panel (seq 1 (length radii)).
End Genus.

(** tsallis.py:277-319 [plot_fit]: the distributions (values, logarithms of the probability)
    and the parameters of the lags; plt.subplots gives an array of axes for two or more, one
    axes, which cannot be iterated, for one, and refuses none.  The curve is drawn in front of
    the points; fit is tsallis_function *)
Definition tsallis_plot {P} (fit : R -> P -> R) (lags : list R) (distribs : list (list (R * R))) (params : list P) :
  result (list (R * list (R * R) * list (R * R))) :=
  match lags with
  | [] => Err ValueError
  | [_] => Err TypeError
  | _ => Ok (map (fun v => (fst (fst v), snd (fst v), map (fun p => (fst p, fit (fst p) (snd v))) (snd (fst v))))
                 (combine (combine lags distribs) params))
  end.

(** dendro_stats.py:381-393 [plot_fit]: bars as (left, right, height) *)
Definition hist_bars (h : list R * list R) : result (list (R * R * R)) :=
  match fst h with
  | [] => Ok []
  | [_] => Err IndexError
  | b0 :: b1 :: _ =>
      let w := Rabs (b1 - b0) in
      l <- bar (fst h) (snd h) ;; Ok (map (fun p => (fst p - w / 2, fst p + w / 2, snd p)) l)
  end.
Fixpoint each_bars (hs : list (list R * list R)) : result (list (list (R * R * R))) :=
  match hs with [] => Ok [] | h :: r => b <- hist_bars h ;; l <- each_bars r ;; Ok (b :: l) end.
(** hists: None before make_hists *)
Definition dendro_bars (show_hists : bool) (hists : option (list (list R * list R))) : result (list (list (R * R * R))) :=
  if show_hists then match hists with None => Err ValueError | Some hs => each_bars hs end else Ok [].
