(** Images and cubes seen from another side. *)
From Coq Require Import String Reals List ZArith Arith.
From Verif Require Import Lib.PyBase Model.ScfSpectrum.
Local Open Scope R_scope.

(** Left and right exchanged, up and down exchanged, the axes exchanged *)
Definition left_right {A} (nx : nat) (image : nat -> nat -> A) (y x : nat) : A := image y (nx - 1 - x)%nat.
Definition up_down {A} (ny : nat) (image : nat -> nat -> A) (y x : nat) : A := image (ny - 1 - y)%nat x.
Definition axes_swapped {A} (image : nat -> nat -> A) (y x : nat) : A := image x y.
(** Turned by a quarter: what was at the left edge (x = 0) is at the edge y = 0 *)
Definition quarter_turn {A} (ny : nat) (image : nat -> nat -> A) (y x : nat) : A := image (ny - 1 - x)%nat y.

(** Whole-pixel lags, one for each direction: the list reversed is the list negated. *)
Definition pixel_lags (lags : list R) : Prop :=
  (forall l, In l lags -> exists k : Z, l = IZR k) /\ rev lags = map Ropp lags.
(** The boundaries: continued periodically with any lags, or cut with lags no longer than the map. *)
Definition allowed (b : string) (lags : list R) (ny nx : nat) : Prop :=
  b = "continuous"%string \/ (b = "cut"%string /\ forall l, In l lags -> Rabs l <= INR (Nat.min ny nx)).
(** Two outcomes of SCF.run with the same lags, spectrum, deviations and fit, or the same exception. *)
Definition same_scf_run (r1 r2 : result scf_obj) : Prop :=
  match r1, r2 with
  | Ok o1, Ok o2 => s_lags o1 = s_lags o2 /\ s_spectrum o1 = s_spectrum o2 /\ s_stddev o1 = s_stddev o2 /\ s_fit o1 = s_fit o2
  | Err e1, Err e2 => e1 = e2
  | _, _ => False
  end.

(** ** Pictures *)
(** The ways to look at a picture of ny rows and nx columns *)
Inductive view : Type := LeftRight | UpDown | Swapped | QuarterTurn.
Definition seen {A} (v : view) (ny nx : nat) (image : nat -> nat -> A) : nat -> nat -> A :=
  match v with
  | LeftRight => left_right nx image
  | UpDown => up_down ny image
  | Swapped => axes_swapped image
  | QuarterTurn => quarter_turn ny image
  end.
(** The rows and the columns of what is seen *)
Definition rows_seen (v : view) (ny nx : nat) : nat := match v with LeftRight | UpDown => ny | Swapped | QuarterTurn => nx end.
Definition columns_seen (v : view) (ny nx : nat) : nat := match v with LeftRight | UpDown => nx | Swapped | QuarterTurn => ny end.
