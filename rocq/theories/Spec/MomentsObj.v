(** What a Moments object should show after a history of calls *)
From Coq Require Import String Reals List Bool Arith.
From Verif Require Import Lib.PyBase Model.MomentsObj.
Import ListNotations.

(** The cube after the masks of a history *)
Definition masked {C K} (with_mask : C -> K -> result C) (c : C) (h : list (call K)) : C :=
  fold_left (fun c k => match k with ApplyMask _ m => match with_mask c m with Ok c' => c' | Err _ => c end | _ => c end) h c.
(** The noise level after a history *)
Definition level {K} (s : option R) (h : list (call K)) : option R :=
  fold_left (fun s k => match k with SetScale _ s' => s' | _ => s end) h s.
(** Calls that make maps, and calls that make errors *)
Definition makes {K} (k : call K) : bool := match k with Make _ _ _ => true | _ => false end.
Definition makes_errors {K} (k : call K) : bool := match k with Errors _ _ _ => true | _ => false end.
