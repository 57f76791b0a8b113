(** Vocabulary for the Cramer distance of cubes. *)
From Coq Require Import Reals List Permutation.
From Verif Require Import Lib.PyBase Lib.Fl Spec.Blank Model.CramerDistance.
Import ListNotations.
Local Open Scope R_scope.

(** The same cube in another unit of brightness, with its noise level *)
Definition brighter (a : R) (c : cube_in) : cube_in :=
  mk_cube (ci_npix c) (map (map (fmul (Fin a))) (ci_chans c)) (option_map (Rmult a) (ci_noise c)).
(** The same cube with the pixels of each channel in another order *)
Definition rearranged (c c' : cube_in) : Prop :=
  ci_npix c' = ci_npix c /\ Forall2 (@Permutation fl) (ci_chans c) (ci_chans c') /\ ci_noise c' = ci_noise c.
(** The same cube with its channels in another order *)
Definition reordered (c c' : cube_in) : Prop :=
  ci_npix c' = ci_npix c /\ Permutation (ci_chans c) (ci_chans c') /\ ci_noise c' = ci_noise c.
(** No infinite values *)
Definition proper_cube (c : cube_in) : Prop := Forall (Forall blankable) (ci_chans c).
(** [n] values drawn from a row without replacement *)
Definition drawn (row : list fl) (n : nat) (new : list fl) : Prop := length new = n /\ exists rest, Permutation (new ++ rest) row.
(** At least three pixels in a channel, no infinite values, and a brightest pixel [m] that is
    positive and above the noise level *)
Definition bright_cube (c : cube_in) (m : R) : Prop :=
  (3 <= ci_npix c)%nat /\ proper_cube c /\ is_max m (fins (concat (ci_chans c))) /\ 0 < m /\
  match ci_noise c with Some t => t < m | None => True end.
(** What the 2-norm of a matrix satisfies: that of a matrix of numbers, not all zero, is a
    number other than zero, and does not depend on the order of the rows *)
Definition like_norm (norm2 : list (list fl) -> result fl) : Prop :=
  (forall M row v, Forall (Forall (fun x => is_fin x = true)) M -> In row M -> In (Fin v) row -> v <> 0 -> exists n, n <> 0 /\ norm2 M = Ok (Fin n)) /\
  forall M M', Permutation M M' -> norm2 M' = norm2 M.
