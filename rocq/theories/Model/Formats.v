(** Model of turbustat/statistics/threeD_to_twoD.py: 2D rearrangements of cubes. *)
From Coq Require Import String Reals List Arith Bool.
From Verif Require Import Lib.PyBase Lib.PyStr Lib.Fl Lib.Arr Model.Psds.
Import ListNotations.
Local Open Scope R_scope.

(** np.sort(v)[::-1] *)
Fixpoint insert_desc (x : R) (l : list R) : list R :=
  match l with [] => [x] | y :: r => if Rleb y x then x :: l else y :: insert_desc x r end.
Definition sort_desc (l : list R) : list R := fold_right insert_desc [] l.

(** threeD_to_twoD.py:12-62 [intensity_data].  Each channel is its flattened list of
    pixels; [vec_length] is int(round(p * cube.shape[1] * cube.shape[2])) (line 32);
    [noise_lim] None is the default -inf.  Comparisons with NaN are false, so an
    all-blank cube (maxval NaN) keeps its channels. *)
Definition intensity_row (vec_length : nat) (noise_lim : option R) (maxval : fl) (chan : list fl) : list fl :=
  let vel_vec := fins chan in
  let vel_vec := match noise_lim with Some t => filter (fun v => Rltb t v) vel_vec | None => vel_vec end in
  let vel_vec := sort_desc vel_vec in
  let vel_vec := if Nat.ltb (length vel_vec) vec_length
    then vel_vec ++ repeat 0 (vec_length - length vel_vec) else firstn vec_length vel_vec in
  map (fun v => fdiv (Fin v) maxval) vel_vec.
Definition intensity_data (cube : list (list fl)) (vec_length : nat) (noise_lim : option R) (norm : bool) : list (list fl) :=
  let maxval := if norm then nanmax (concat cube) else Fin 1 in
  if feqb maxval (Fin 0) then [] else map (intensity_row vec_length noise_lim maxval) cube.

(** threeD_to_twoD.py:72-90, the 'spectra' branch of [_format_data] after the choice of
    the flat indices [bright] by np.argpartition: the columns of the data matrix. *)
Definition format_spectra {A} (ny nx : nat) (spectrum : nat -> nat -> A) (bright : list nat) : result (list A) :=
  if existsb (fun b => Nat.leb ny (b / ny)) bright then Err IndexError
  else Ok (map (fun b => spectrum (b / ny)%nat (b mod nx)%nat) bright).

(** threeD_to_twoD.py:72-75, 92, 96-98, which branch [_format_data] takes; the name is compared
    with the literals by identity. *)
Inductive branch := SpectraBranch | IntensityBranch.
Definition format_branch (data_format : py_str) (num_spec_given : bool) : result branch :=
  if is_literal data_format "spectra" then (if num_spec_given then Ok SpectraBranch else Err ValueError)
  else if is_literal data_format "intensity" then Ok IntensityBranch
  else Err NameError.
