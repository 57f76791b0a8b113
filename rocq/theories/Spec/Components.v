(** Vocabulary for principal components: the components compared, their
    proportions of variance, and the Euclidean distance of two lists. *)
From Coq Require Import Reals List ZArith Arith.
From Verif Require Import Lib.RSum Lib.Fl.
Import ListNotations.
Local Open Scope R_scope.

(** The leading n components; without mean subtraction the first one is left out. *)
Definition compared (mean_sub : bool) (n : nat) (eigs : list R) : list R :=
  if mean_sub then firstn n eigs else skipn 1 (firstn n eigs).

Definition proportions (l : list R) : list R := map (fun v => v / lsum l) l.

Definition l2_distance (a b : list R) : R := sqrt (lsum (map2 (fun x y => (x - y) ^ 2) a b)).

(** A spectrum of eigenvalues that can be normalised. *)
Definition spectrum_ok (mean_sub : bool) (n : nat) (eigs : list R) : Prop :=
  (n <= length eigs)%nat /\ (forall v, In v (compared mean_sub n eigs) -> 0 <= v) /\ 0 < lsum (compared mean_sub n eigs).

(** Circular autocorrelation of an image at the lag (dy, dx). *)
Definition wrap (n : nat) (i : Z) : nat := Z.to_nat (i mod Z.of_nat n).
Definition circular_acf (ny nx : nat) (img : nat -> nat -> R) (dy dx : Z) : R :=
  rsum ny (fun y => rsum nx (fun x =>
    img (wrap ny (Z.of_nat y + dy)) (wrap nx (Z.of_nat x + dx)) * img y x)).

(** The image with its first pixel set to zero. *)
Definition without_first (img : nat -> nat -> R) : nat -> nat -> R :=
  fun y x => match y, x with O, O => 0 | _, _ => img y x end.

(** Components whose eigenvalue is at least eps, and the images asked for: the first
    n components (n > 0) or the last -n significant ones (n < 0). *)
Definition significant (eps : R) (eigs : list R) : list nat :=
  filter (fun i => Rleb eps (nth i eigs 0)) (seq 0 (length eigs)).
Definition wanted (eps : R) (eigs : list R) (n : Z) : list nat :=
  if (0 <? n)%Z then seq 0 (Z.to_nat n)
  else skipn (length (significant eps eigs) - Z.to_nat (- n)) (significant eps eigs).
(** Enough components for n images. *)
Definition available (nz : nat) (eps : R) (eigs : list R) (n : Z) : Prop :=
  length eigs = nz /\ (2 <= n <= Z.of_nat nz \/ 2 <= - n <= Z.of_nat (length (significant eps eigs)))%Z.
(** Mean over a list of images. *)
Definition mean_at (imgs : list (list (list R))) (y x : nat) : R :=
  lsum (map (fun a => nth x (nth y a []) 0) imgs) / INR (length imgs).
