(** Vocabulary for Dendrogram_Stats objects and the distance of two of them. *)
From Coq Require Import Reals List Arith Bool.
From Verif Require Import Lib.PyBase Lib.Fl Model.Dendro Model.DendroRun.
Import ListNotations.
Local Open Scope R_scope.

(** The results that run computes from the dendrogram. *)
Definition same_results (o1 o2 : dendro_obj) : Prop :=
  d_num o1 = d_num o2 /\ d_values o1 = d_values o2 /\ d_break o1 = d_break o2 /\ d_fitted o1 = d_fitted o2 /\ d_slope o1 = d_slope o2.

(** The line through points that minimises the sum of squared residuals. *)
Definition sse (pts : list (R * R)) (a b : R) : R := fold_right Rplus 0 (map (fun p => (snd p - a - b * fst p) ^ 2) pts).
Definition least (pts : list (R * R)) (a b : R) : Prop := forall a' b', sse pts a b <= sse pts a' b'.
(** An ordinary least-squares fit of numbers: its slope, and an error that depends on the residuals
    and the distances of the abscissae from their mean only. *)
Definition fin_pts (pts : list (R * R)) : list (fl * fl) := map (fun p => (Fin (fst p), Fin (snd p))) pts.
Definition ols_slope (ols : list (fl * fl) -> result (fl * fl)) : Prop :=
  forall pts s er, ols (fin_pts pts) = Ok (Fin s, er) -> exists a, least pts a s.
Definition ols_answers (ols : list (fl * fl) -> result (fl * fl)) : Prop :=
  forall pts, (2 <= length pts)%nat -> exists s er, ols (fin_pts pts) = Ok (Fin s, er).
