(** Specification vocabulary for Tsallis objects. *)
From Coq Require Import Reals List ZArith Arith.
From Verif Require Import Lib.PyBase Lib.Fl Model.Units Model.Tsallis Model.TsallisRun.
Import ListNotations.
Local Open Scope R_scope.

(** The fit that belongs to a lag of r pixels: of the histogram of the differences of the image at
    the whole part of r. *)
Definition fit_of (cols : nat) (img : list (list fl)) curve_fit (periodic : bool) (num_bins : option nat) (sigma_clip : option R) (r : R) (f : row) : Prop :=
  exists arr dist, distribution (match num_bins with None => default_bins img | Some n => n end) (lag_difference periodic cols img (Z.to_nat (Int_part r))) = Ok (arr, dist) /\
    fit_one curve_fit sigma_clip dist = Ok f.
(** A table: every lag, in the unit it was given in, with the fit that belongs to it. *)
Definition table_of (s : stat) (cols : nat) (img : list (list fl)) curve_fit (periodic : bool) (num_bins : option nat) (sigma_clip : option R) (lags : quantity) (t : list (R * row)) : Prop :=
  exists p, to_pixel s lags = Ok p /\ map fst t = q_vals lags /\ Forall2 (fit_of cols img curve_fit periodic num_bins sigma_clip) (q_vals p) (map snd t).
(** Calls one after the other that assign no lags and raise nothing. *)
Fixpoint quiet (s : stat) (cols side : nat) (img : list (list fl)) curve_fit old_dist old_row (o : tobj) (l : list call) : Prop :=
  match l with
  | [] => True
  | c :: r => (forall v, c <> Lags v) /\ snd (do_call s cols side img curve_fit old_dist old_row o c) = None /\
      quiet s cols side img curve_fit old_dist old_row (fst (do_call s cols side img curve_fit old_dist old_row o c)) r
  end.
