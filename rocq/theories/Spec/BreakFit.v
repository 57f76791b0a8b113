(** Specification vocabulary: broken lines and the regressions that fit them. *)
From Coq Require Import Reals List Arith.
From Verif Require Import Lib.RSum Lib.Fl Model.LmSeg Spec.Segmented.
Import ListNotations.
Local Open Scope R_scope.

(** A linear combination of columns, at row i. *)
Definition predicted (cols : list (list R)) (p : list R) (i : nat) : R :=
  lsum (map (fun cq => snd cq * nth i (fst cq) 0) (combine cols p)).
(** The weight of row i, and the weighted sum of squares of the residuals. *)
Definition weight (w : option (list R)) (i : nat) : R := match w with None => 1 | Some l => nth i l 0 end.
Definition squares (y : list R) (w : option (list R)) (cols : list (list R)) (p : list R) : R :=
  rsum (length y) (fun i => weight w i * (nth i y 0 - predicted cols p i) ^ 2).

(** A (weighted) linear regression of y on columns: its parameters give the least sum of
    squares, its residuals are what they leave of y. *)
Definition least_squares_of (y : list R) (w : option (list R)) (cols : list (list R)) (f : fit_result) : Prop :=
  exists p, length p = length cols /\ f_params f = map Fin p /\
    f_resid f = map (fun i => Fin (nth i y 0 - predicted cols p i)) (seq 0 (length y)) /\
    forall q, length q = length cols -> squares y w cols p <= squares y w cols q.
Definition good_weights (y : list R) (w : option (list R)) : Prop :=
  match w with None => True | Some l => length l = length y /\ forall v, In v l -> 0 < v end.
Definition regression (ols : list R -> option (list R) -> list (list R) -> fit_result) : Prop := forall y w, good_weights y w ->
  well_formed (ols y w) /\ forall cols, (forall c, In c cols -> length c = length y) -> least_squares_of y w cols (ols y w cols).

(** Two different points on either side of the break. *)
Definition two_sided (b : R) (x : list R) : Prop :=
  (exists u v, In u x /\ In v x /\ u <> v /\ u < b /\ v < b) /\ (exists u v, In u x /\ In v x /\ u <> v /\ b < u /\ b < v).
(** b and c split the points in the same way: no point lies between them, and none on one of
    them unless they are the same. *)
Definition same_gap (b c : R) (x : list R) : Prop := forall v, In v x -> (v < c <-> v < b) /\ (v <= c <-> v <= b).

(** A broken power law of amplitude A and slopes s1, s2, with the break at B. *)
Definition broken_plaw (A s1 s2 B f : R) : R := if Rlt_dec f B then A * Rpower f s1 else A * Rpower B s1 * Rpower (f / B) s2.
(** A break given as a start: the number itself, or its log10. *)
Definition start_at (B0 : R) (given : option R) (log_break : bool) : Prop :=
  if log_break then given = Some (ln B0 / ln 10) else given = Some B0.
(** How many points lie below. *)
Definition count_below (b : R) (x : list R) : nat := length (filter (fun v => if Rlt_dec v b then true else false) x).
