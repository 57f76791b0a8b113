(** Specification vocabulary for Tsallis statistics of images seen from another side. *)
From Coq Require Import Reals List Arith.
From Verif Require Import Lib.PyBase Lib.Fl Lib.Arr Spec.Lag Spec.Turned Model.TsallisRun.

(** An image of n0 rows and n1 columns, as a list of rows, seen from another side *)
Definition seen_rows (v : view) (n0 n1 : nat) (img : list (list fl)) : list (list fl) :=
  tab2 (rows_seen v n0 n1) (columns_seen v n0 n1) (Turned.seen v n0 n1 (px img)).
(** What two runs leave: the same exception, or the same lags, distributions and fits, with the arrays seen from that side *)
Definition same_tsallis (v : view) (n0 n1 : nat) (r' r : outcome) : Prop :=
  snd r' = snd r /\
  (snd r = None -> o_lags (fst r') = o_lags (fst r) /\ o_rows (fst r') = o_rows (fst r) /\
    exists d' d, o_dists (fst r') = Some d' /\ o_dists (fst r) = Some d /\
      Forall2 (fun e' e => fst e' = seen_rows v n0 n1 (fst e) /\ snd e' = snd e) d' d).
