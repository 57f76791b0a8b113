(** Vocabulary for the ellipse fit and its bootstrap. *)
From Coq Require Import Reals List Permutation.
From Verif Require Import Lib.Fl Lib.Mat3 Spec.Conic Model.Ellipse.
Import ListNotations.
Local Open Scope R_scope.

(** The random draws of one iteration for [n] points: a permutation, [n] pairs of weights
    and [n] pairs of signs *)
Definition good_draw (n : nat) (d : draw) : Prop := Permutation (d_perm d) (seq 0 n) /\ length (d_weights d) = n /\ length (d_signs d) = n.
(** The weights of a flat Dirichlet distribution *)
Definition weight_pair (w : R * R) : Prop := 0 <= fst w /\ 0 <= snd w /\ fst w + snd w = 1.
Definition sign_pair (s : R * R) : Prop := (fst s = 1 \/ fst s = -1) /\ (snd s = 1 \/ snd s = -1).
(** For each of the points on the ellipse the optimiser finds its angle *)
Definition nearest (leastsq : ellipse -> point -> R) (l : ellipse) (data : list point) : Prop :=
  forall p, In p data -> (exists t, predict l t = p) -> predict l (leastsq l p) = p.
(** The eigenvalue solver finds three independent eigenvectors of the matrix of these points *)
Definition solves (eig : m3 -> list v3) (data : list point) : Prop := forall m, reduced data = Some m -> eigenbasis m (eig m).

(** Two vectors along one line *)
Definition parallel (u u' : v3) : Prop := exists s, s <> 0 /\ u' = vscale s u.

(** Transformations of points and ellipses *)
Definition shifted (p q : R) (z : point) : point := (fst z + p, snd z + q).
Definition stretched (s : R) (z : point) : point := (s * fst z, s * snd z).
