(** Vocabulary for the lags of SCF objects and the distance of two of them. *)
From Coq Require Import String Reals List Arith Bool.
From Verif Require Import Lib.PyBase Lib.PyStr Lib.Arr Lib.Fl Spec.Correlation Model.Psds Model.Scf Model.ScfSpectrum Model.ScfPairs.
Import ListNotations.
Local Open Scope R_scope.

(** The literal [s] of a program. *)
Definition text (s : string) : py_str := mk_str s true.
(** An equal string made at run time, or an element of an array of strings. *)
Definition made (s : string) : py_str := mk_str s false.

(** A cube with at least one value that is neither zero nor blank. *)
Definition signal (nz ny nx : nat) (cube : nat -> nat -> nat -> fl) : Prop :=
  exists z y x r, (z < nz)%nat /\ (y < ny)%nat /\ (x < nx)%nat /\ cube z y x = Fin r /\ r <> 0.

(** The lags of an object as angles. *)
Definition angles (i : scf_inst) : list R := map (fun l => l * i_pixel i) (s_roll_lags (i_obj i)).
(** The surface of the object's cube at these lags. *)
Definition surface_of (i : scf_inst) (lags : list R) (boundary : string) : result (list (list fl)) :=
  compute_surface (s_nz (i_obj i)) (s_ny (i_obj i)) (s_nx (i_obj i)) (s_cube (i_obj i)) lags boundary.
(** The surface of the object was computed with this boundary at its own lags, and so was the spectrum. *)
Definition computed (i : scf_inst) (boundary : string) : Prop :=
  exists s, s_surface (i_obj i) = Some s /\ surface_of i (s_roll_lags (i_obj i)) boundary = Ok s /\
    i_size i = length (s_roll_lags (i_obj i)) /\ s_spectrum (i_obj i) <> None.
(** The number of lags for the argument [size]: odd. *)
Definition odd_size (size : nat) : nat := if Nat.even size then (size - 1)%nat else size.
(** The values of a surface as numbers. *)
Definition values_of (s : list (list fl)) (j i : nat) : R := match at2 NaN s j i with Fin r => r | _ => 0 end.
