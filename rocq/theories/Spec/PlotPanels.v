(** What the plots should show. *)
From Coq Require Import Reals List Arith.
From Verif Require Import Lib.Hist Model.PlotFit Model.PlotPanels.
Import ListNotations.
Local Open Scope R_scope.

(** The first n eigenvalues, each at its number *)
Definition right_bars (eigvals : list R) (n : nat) : list (nat * R) := combine (seq 1 n) (firstn n eigvals).
(** The size - line width relation v = I w^a of pixels, on logarithmic axes on which w is at c w
    and v at s v *)
Definition size_line_width (a I c s X : R) : R := a * (X - ln c / ln 10) + ln I / ln 10 + ln s / ln 10.
(** Row and column of a place in a grid, from 0 *)
Definition row (p : panel) : nat := (p_place p - 1) / p_cols p.
Definition column (p : panel) : nat := (p_place p - 1) mod p_cols p.
Definition in_grid (p : panel) : Prop := (1 <= p_place p <= p_rows p * p_cols p)%nat.
Definition below (p q : panel) : Prop := column q = column p /\ (row p < row q)%nat.
(** The bars are the bins: side by side between the edges, as high as the counts *)
Definition bars_are_bins (edges counts : list R) (bars : list (R * R * R)) : Prop :=
  length bars = (length edges - 1)%nat /\
  forall i, (S i < length edges)%nat -> nth i bars (0, 0, 0) = (nth i edges 0, nth (S i) edges 0, nth i counts 0).
