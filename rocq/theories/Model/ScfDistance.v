(** Model of turbustat/statistics/scf/scf.py, [SCF_Distance.__init__]: which lags the two
    surfaces that are compared have. *)
From Coq Require Import Reals List Arith Bool.
From Verif Require Import Lib.PyBase Model.DeltaVar.
Import ListNotations.

(** A data cube, or an SCF object with its roll lags (pixels) *)
Inductive scf_input := Cube | ScfObject (lags : list R).

(** scf.py:866-877, cubes on a common grid (scale 1): the common lags of both.  The
    second test is on _has_data1 again; self.scf2 does not exist yet for a cube.
    Comparing arrays of different sizes gives a plain bool, which has no .all(). *)
Definition common_roll_lags (default : list R) (c1 c2 : scf_input) : result (list R * list R) :=
  let roll_lags1 := match c1 with ScfObject l => l | Cube => default end in
  roll_lags2 <- match c1 with
                | ScfObject _ => match c2 with ScfObject l => Ok l | Cube => Err AttributeError end
                | Cube => Ok default
                end ;;
  if negb (Nat.eqb (length roll_lags1) (length roll_lags2)) then Err AttributeError
  else if lags_eqb roll_lags1 roll_lags2 then Ok (roll_lags1, roll_lags2) else Err ValueError.

(** scf.py:894-912, 925-945: the lags of a surface afterwards.  An object whose number of
    lags differs passes the check and is not recomputed. *)
Definition surface_lags (c : scf_input) (roll_lags : list R) : list R :=
  match c with
  | Cube => roll_lags
  | ScfObject l => if negb (Nat.eqb (length roll_lags) (length l)) then l
                   else if lags_eqb roll_lags l then l else roll_lags
  end.
Definition scf_distance_lags (default : list R) (c1 c2 : scf_input) : result (list R * list R) :=
  r <- common_roll_lags default c1 c2 ;;
  Ok (surface_lags c1 (fst r), surface_lags c2 (snd r)).
