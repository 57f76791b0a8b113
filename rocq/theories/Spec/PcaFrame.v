(** Vocabulary for the covariance matrix of cubes with blank surroundings (C319). *)
From Coq Require Import Reals List Arith.
From Verif Require Import Lib.Fl Spec.Orders.
Import ListNotations.
Local Open Scope R_scope.

(** A cube (a channel is the list of its pixels) in a field with m further pixels that are blank in each
    channel; q says where in the field the pixels lie. *)
Definition in_blank_field (q : nat -> nat) (m : nat) (cube : list (list R)) : list (list fl) :=
  map (fun chan => in_order q NaN (map Fin chan ++ repeat NaN m)) cube.
