(** Specification vocabulary: covariances of channels. *)
From Coq Require Import Reals List.
From Verif Require Import Lib.Fl Lib.RSum Spec.Blank.
Import ListNotations.
Local Open Scope R_scope.

(** The pixels of a channel, with their mean taken off if asked for. *)
Definition centred (mean_sub : bool) (chan : list R) : list R :=
  if mean_sub then map (fun v => v - rmean chan) chan else chan.
(** Sample covariance of two channels (about zero, or about the means with n - 1). *)
Definition covariance (mean_sub : bool) (a b : list R) : R :=
  lsum (map2 Rmult (centred mean_sub a) (centred mean_sub b)) / (INR (length a) - (if mean_sub then 1 else 0)).
(** The same over pixels valid in both channels (no mean subtraction). *)
Definition valid_covariance (a b : list fl) : R :=
  lsum (map (fun p => fst p * snd p) (valid_pairs a b)) / INR (length (valid_pairs a b)).

(** A non-blank cube: channels of equal length [n]. *)
Definition channels_of (n : nat) (cube : list (list R)) : Prop := forall c, In c cube -> length c = n.

(** Values in descending order. *)
Definition descending (l : list R) : Prop := forall i j, (i < j < length l)%nat -> nth j l 0 <= nth i l 0.

(** Enough pixels for the divisor to be positive. *)
Definition enough (ms : bool) (n : nat) : Prop := if ms then (2 <= n)%nat else (1 <= n)%nat.

(** The values above a limit, if one is given. *)
Definition above (noise_lim : option R) (l : list R) : list R :=
  match noise_lim with Some t => filter (fun v => Rltb t v) l | None => l end.
