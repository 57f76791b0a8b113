(** Specification vocabulary for the delta variance. *)
From Coq Require Import Reals List.
From Verif Require Import Lib.RSum Lib.Fl Spec.Blank.
Import ListNotations.
Local Open Scope R_scope.

(** A weight: a non-negative number or blank. *)
Definition weight_value (w : fl) : Prop := match w with Fin r => 0 <= r | NaN => True | _ => False end.

(** Weighted moment of order k of the valid pixels about the mean of the valid values,
    over the sum of all weights. *)
Definition weighted_moment (k : nat) (array weight : list fl) : R :=
  lsum (map (fun p => (fst p - rmean (fins array)) ^ k * snd p) (valid_pairs array weight)) / lsum (fins weight).

(** Blank in the same pixels. *)
Definition same_blanks (a b : list fl) : Prop := map is_nan a = map is_nan b.

(** A positive value (possibly infinite). *)
Definition positive (v : fl) : Prop := match v with Fin r => 0 < r | PInf => True | _ => False end.

(** A curve: positive numbers or blanks. *)
Definition curve (l : list fl) : Prop := Forall (fun v => match v with Fin r => 0 < r | NaN => True | _ => False end) l.

(** Values of two curves at the lags inside [lo, hi] where both are valid. *)
Fixpoint common_values (lo hi : R) (lags : list R) (a b : list fl) : list (R * R) :=
  match lags, a, b with
  | l :: lags, Fin x :: a, Fin y :: b =>
      if Rleb lo l then if Rleb l hi then (x, y) :: common_values lo hi lags a b else common_values lo hi lags a b
      else common_values lo hi lags a b
  | _ :: lags, _ :: a, _ :: b => common_values lo hi lags a b
  | _, _, _ => []
  end.
(** log10 of the share of each value in the total. *)
Definition log_share (l : list R) : list R := map (fun v => ln (v / lsum l) / ln 10) l.

(** Values of one curve at the lags inside [lo, hi]. *)
Fixpoint values_within (lo hi : R) (lags : list R) (a : list fl) : list R :=
  match lags, a with
  | l :: lags, Fin x :: a => if Rleb lo l then if Rleb l hi then x :: values_within lo hi lags a else values_within lo hi lags a else values_within lo hi lags a
  | _ :: lags, _ :: a => values_within lo hi lags a
  | _, _ => []
  end.
(** A map multiplied by a number. *)
Definition scaled (c : R) (l : list fl) : list fl := map (fun v => fmul (Fin c) v) l.
(** A constant added to a map. *)
Definition raised (b : R) (l : list fl) : list fl := map (fun v => fadd v (Fin b)) l.
