(** Vocabulary for Tsallis statistics of images with blank surroundings (C316). *)
From Coq Require Import Reals List ZArith Arith Bool.
From Verif Require Import Lib.PyBase Lib.Fl Lib.Arr Spec.Lag Model.TsallisRun.
Import ListNotations.
Local Open Scope R_scope.

(** The image of n0 x n1 pixels inside a larger one of N0 x N1: its pixel (0, 0) is pixel (o0, o1)
    there, and every pixel outside it is blank. *)
Definition in_blanks (n0 n1 N0 N1 o0 o1 : nat) (img : list (list fl)) : list (list fl) :=
  tab2 N0 N1 (fun i j => if (o0 <=? i) && (i <? o0 + n0) && ((o1 <=? j) && (j <? o1 + n1)) then px img (i - o0) (j - o1) else NaN).

(** The surroundings along one axis for a lag: with periodic boundaries there are as many blanks
    as the lag between the image and its next copy, otherwise on either side of the image. *)
Definition wide_enough (periodic : bool) (n N o lag : nat) : Prop :=
  (o + n <= N)%nat /\ (if periodic then lag <= N - n else lag <= o /\ lag <= N - (o + n))%nat.

(** The mean of the four pixels at the distance of the lag minus the pixel. *)
Definition difference_at (img : list (list fl)) (lag i j : nat) : fl :=
  fsub (fdiv (fadd (fadd (fadd (px img (i - lag) j) (px img (i + lag) j)) (px img i (j - lag))) (px img i (j + lag))) (Fin 4)) (px img i j).
(** The differences that are not blank, of the pixels of the image that are at least the lag away from its border. *)
Definition inner_differences (n0 n1 : nat) (img : list (list fl)) (lag : nat) : list fl :=
  nonnan (map (fun p => difference_at img lag (fst p) (snd p)) (list_prod (seq lag (n0 - 2 * lag)) (seq lag (n1 - 2 * lag)))).

(** What two runs leave: the same exception, or the same lags, distributions and fits. *)
Definition same_statistics (r' r : outcome) : Prop :=
  snd r' = snd r /\
  (snd r = None -> o_lags (fst r') = o_lags (fst r) /\ o_rows (fst r') = o_rows (fst r) /\
    exists d' d, o_dists (fst r') = Some d' /\ o_dists (fst r) = Some d /\ map snd d' = map snd d).
