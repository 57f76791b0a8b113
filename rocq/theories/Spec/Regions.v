(** Specification vocabulary for connected regions of an image. *)
From Coq Require Import ZArith List Arith.
Import ListNotations.

Definition pixel : Type := (nat * nat)%type.

(** Distance along one axis. *)
Definition gap (a b : nat) : nat := (a - b) + (b - a).
(** Pixels that share a side; pixels that share a side or a corner. *)
Definition adj4 (p q : pixel) : Prop := gap (fst p) (fst q) + gap (snd p) (snd q) = 1.
Definition adj8 (p q : pixel) : Prop := p <> q /\ gap (fst p) (fst q) <= 1 /\ gap (snd p) (snd q) <= 1.
Definition adjacent (connectivity : Z) : pixel -> pixel -> Prop := if Z.leb connectivity 1 then adj4 else adj8.

(** q can be reached from p by steps that stay in the set. *)
Inductive connected (adj : pixel -> pixel -> Prop) (inside : pixel -> Prop) : pixel -> pixel -> Prop :=
| connected_refl p : inside p -> connected adj inside p p
| connected_step p q r : connected adj inside p q -> adj q r -> inside r -> connected adj inside p r.

(** The region of p has at least m pixels. *)
Definition region_ge (adj : pixel -> pixel -> Prop) (inside : pixel -> Prop) (m : Z) (p : pixel) : Prop :=
  exists l, NoDup l /\ (forall q, In q l <-> connected adj inside p q) /\ (m <= Z.of_nat (length l))%Z.

(** The set has exactly k regions that satisfy [large] (a property of all
    pixels of a region): one pixel of each can be listed. *)
Definition regions (adj : pixel -> pixel -> Prop) (inside : pixel -> Prop) (large : pixel -> Prop) (k : nat) : Prop :=
  exists reps, NoDup reps /\ length reps = k /\
    (forall p, In p reps -> inside p /\ large p) /\
    (forall p q, In p reps -> In q reps -> connected adj inside p q -> p = q) /\
    (forall p, inside p -> large p -> exists r, In r reps /\ connected adj inside p r).

Definition in_image (n0 n1 : nat) (p : pixel) : Prop := fst p < n0 /\ snd p < n1.
