(** A plot of data and of a fitted law that agree. *)
From Coq Require Import Reals List.
From Verif Require Import Model.PlotFit.
Import ListNotations.
Local Open Scope R_scope.

(** The law 10^b x^m, x in pixels, at the value X of an axis on which x is at c x *)
Definition law (b m c X : R) : R := Rpower 10 (b + m * (ln (X / c) / ln 10)).
(** The same on an axis of logarithms, of the logarithm *)
Definition log_law (b m c X : R) : R := b + m * (X - ln c / ln 10).
Definition line_on (L : R -> R) (d : drawn) : Prop := forall X Y, In (X, Y) (d_line d) -> Y = L X.
(** Each residual is at the place of its point, and is the point less the law there *)
Definition residuals_of (L : R -> R) (d : drawn) : Prop := d_res d = map (fun p => (fst p, snd p - L (fst p))) (d_points d).
(** The points are those of the data *)
Definition points_of (c : R) (data : list (R * R)) (d : drawn) : Prop := d_points d = map (fun p => (c * fst p, snd p)) data.
Definition positive (data : list (R * R)) : Prop := forall x y, In (x, y) data -> 0 < x /\ 0 < y.
