(** Vocabulary for cubes with blank surroundings in the spectral correlation function (C315). *)
From Coq Require Import Reals List ZArith Arith Bool.
From Verif Require Import Lib.Fl Lib.RSum Spec.Blank Spec.Correlation.
Import ListNotations.
Local Open Scope R_scope.

(** The cube of ny x nx spectra placed inside a larger one: its pixel (0, 0) is pixel (oy, ox)
    there, and every spectrum outside it is blank. *)
Definition surrounded (ny nx oy ox : nat) (cube : nat -> nat -> nat -> fl) (z y x : nat) : fl :=
  if (oy <=? y) && (y <? oy + ny) && ((ox <=? x) && (x <? ox + nx)) then cube z (y - oy)%nat (x - ox)%nat else NaN.

(** The place and the room of the cube inside one of NY x NX spectra, for lags of up to (sy, sx) pixels. *)
Definition room (ny nx NY NX oy ox : nat) (sy sx : Z) : Prop :=
  (oy + ny <= NY)%nat /\ (ox + nx <= NX)%nat /\ (Z.abs sy <= Z.of_nat (NY - ny))%Z /\ (Z.abs sx <= Z.of_nat (NX - nx))%Z.

(** The partner of pixel p at lag s is on the axis of length n too. *)
Definition has_partner (n : nat) (s : Z) (p : nat) : bool := (0 <=? Z.of_nat p - s)%Z && (Z.of_nat p - s <? Z.of_nat n)%Z.

(** The pairs of the cube's own spectra at a lag. *)
Definition own_pairs (ny nx : nat) (cube : nat -> nat -> nat -> fl) (sy sx : Z) : list (spectrum * spectrum) :=
  pairs_at ny nx cube sy sx (partner_inside ny sy) (partner_inside nx sx).

(** The spectra of the cube that have no partner in it at a lag, each with a blank spectrum. *)
Definition with_blank (ny nx : nat) (cube : nat -> nat -> nat -> fl) (sy sx : Z) : list (spectrum * spectrum) :=
  map (fun p => ((fun z => cube z (fst p) (snd p)), (fun _ => NaN)))
      (filter (fun p => negb (has_partner ny sy (fst p) && has_partner nx sx (snd p))) (list_prod (seq 0 ny) (seq 0 nx))).

(** No blanks, and no spectrum of zeros. *)
Definition full_cube (nz ny nx : nat) (cube : nat -> nat -> nat -> fl) : Prop :=
  (forall z y x, (z < nz)%nat -> (y < ny)%nat -> (x < nx)%nat -> exists r, cube z y x = Fin r) /\
  (forall y x, (y < ny)%nat -> (x < nx)%nat -> exists z r, (z < nz)%nat /\ cube z y x = Fin r /\ r <> 0).

(** The number of pairs at a lag. *)
Definition pair_count (ny nx : nat) (sy sx : Z) : R :=
  (INR ny - Rabs (IZR sy)) * (INR nx - Rabs (IZR sx)).
