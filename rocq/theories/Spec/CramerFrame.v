(** Vocabulary for the Cramer distance of cubes with blank surroundings (C322). *)
From Coq Require Import Reals List ZArith Permutation.
From Verif Require Import Lib.PyBase Lib.Fl Spec.Covariance Model.Psds Model.CramerDistance.
Import ListNotations.
Local Open Scope R_scope.

(** The cube in a field with n more pixels, blank in every channel, anywhere around and in it *)
Definition in_blanks (n : nat) (c c' : cube_in) : Prop :=
  ci_npix c' = (ci_npix c + n)%nat /\ Forall2 (fun chan chan' => Permutation (chan ++ repeat NaN n) chan') (ci_chans c) (ci_chans c') /\ ci_noise c' = ci_noise c.
(** The number of pixels kept of each channel: a fifth of all, blank ones included *)
Definition kept (npix : nat) : nat := Z.to_nat (np_round (2 / 10 * INR npix)).
(** Each channel has no more valid pixels above the noise than are kept. *)
Definition sparse (c : cube_in) : Prop := forall chan, In chan (ci_chans c) -> (length (above (ci_noise c) (fins chan)) <= kept (ci_npix c))%nat.
(** Columns of zeros do not change the norm of a matrix. *)
Definition zeros_free (norm2 : list (list fl) -> result fl) : Prop := forall M k, norm2 (map (fun row => row ++ repeat (Fin 0) k) M) = norm2 M.
