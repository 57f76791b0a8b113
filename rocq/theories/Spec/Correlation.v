(** Specification of the spectral correlation function: for pairs of spectra,
    1 - sqrt of the mean over pairs of |a - b|^2 / (|a|^2 + |b|^2), with blanks
    left out of the sums and pairs without power left out of the mean. *)
From Coq Require Import Reals List ZArith Arith Bool.
From Verif Require Import Lib.Fl Lib.RSum Spec.Blank.
Import ListNotations.
Local Open Scope R_scope.

(** Every value is a number or blank. *)
Definition cube_ok (nz ny nx : nat) (cube : nat -> nat -> nat -> fl) : Prop :=
  forall z y x, (z < nz)%nat -> (y < ny)%nat -> (x < nx)%nat -> blankable (cube z y x).

(** The cube in other intensity units. *)
Definition recalibrated (c : R) (cube : nat -> nat -> nat -> fl) : nat -> nat -> nat -> fl :=
  fun z y x => fmul (Fin c) (cube z y x).

Definition spectrum := nat -> fl.
Definition sq_or_0 (v : fl) : R := match v with Fin r => r ^ 2 | _ => 0 end.
Definition sqdiff_or_0 (v w : fl) : R := match v, w with Fin r, Fin s => (r - s) ^ 2 | _, _ => 0 end.

Definition spec_ratio (nz : nat) (d t : spectrum) : list R :=
  let power := rsum nz (fun z => sq_or_0 (d z)) + rsum nz (fun z => sq_or_0 (t z)) in
  if Reqb power 0 then [] else [rsum nz (fun z => sqdiff_or_0 (d z) (t z)) / power].

Definition scf_spec (nz : nat) (pairs : list (spectrum * spectrum)) : fl :=
  match flat_map (fun dt => spec_ratio nz (fst dt) (snd dt)) pairs with
  | [] => NaN
  | ratios => Fin (1 - sqrt (rmean ratios))
  end.

(** The pixels of an axis of length n whose partner at lag s is inside too. *)
Definition partner_inside (n : nat) (s : Z) : list nat :=
  filter (fun p => (0 <=? Z.of_nat p - s)%Z && (Z.of_nat p - s <? Z.of_nat n)%Z) (seq 0 n).

(** The partner of pixel p at lag s, on the axis continued periodically. *)
Definition partner (n : nat) (s : Z) (p : nat) : nat := Z.to_nat ((Z.of_nat p - s) mod Z.of_nat n).

(** Pairs of spectra at lag (sy, sx), for the pixels (y, x) of [ys] x [xs]. *)
Definition pairs_at (ny nx : nat) (cube : nat -> nat -> nat -> fl) (sy sx : Z) (ys xs : list nat)
    : list (spectrum * spectrum) :=
  map (fun p => ((fun z => cube z (fst p) (snd p)), (fun z => cube z (partner ny sy (fst p)) (partner nx sx (snd p)))))
      (list_prod ys xs).

(** Weight of the entry (i, j) of a square surface: one over the distance from
    the centre, and 1 at the centre. *)
Definition lag_weight (size i j : nat) : R :=
  if (i =? size / 2)%nat && (j =? size / 2)%nat then 1
  else 1 / sqrt ((INR i - INR (size / 2)) * (INR i - INR (size / 2)) + (INR j - INR (size / 2)) * (INR j - INR (size / 2))).

(** Weighted root-mean-square difference of two square surfaces. *)
Definition weighted_rms (size : nat) (w s t : nat -> nat -> R) : R :=
  sqrt (rsum size (fun i => rsum size (fun j => w i j * (s i j - t i j) ^ 2)) / rsum size (fun i => rsum size (fun j => w i j))).
