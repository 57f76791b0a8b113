(** Model of turbustat/statistics/scf/scf.py: SCF objects whose lags are changed, and the class
    SCF_Distance without its plots.  Lags are in pixels (conversion of units: Units.v), a header
    is the angular size of its square pixels.  A call that raises leaves no object in the model. *)
From Coq Require Import String Reals List Arith Bool.
From Verif Require Import Lib.PyBase Lib.PyStr Lib.Arr Lib.Fl Lib.RSum Model.DeltaVar Model.Psds Model.Scf Model.ScfSpectrum.
Import ListNotations.
Local Open Scope R_scope.

(** ** An SCF object *)

(** What ScfSpectrum.v records of an SCF object, with the attribute [size] and the size of the
    pixels in the header *)
Record scf_inst := mk_inst { i_obj : scf_obj; i_size : nat; i_pixel : R }.

(** scf.py:57-96; :91 sets [size] *)
Definition new_inst (nz ny nx : nat) (cube : nat -> nat -> nat -> fl) (pixel : R) (roll_lags : option (list R)) (size : nat) : scf_inst :=
  let o := new_scf nz ny nx cube roll_lags size in mk_inst o (length (s_roll_lags o)) pixel.

(** scf.py:107-121, the setter of roll_lags: [size] stays *)
Definition set_roll (i : scf_inst) (lags : list R) : scf_inst :=
  let o := i_obj i in
  mk_inst (mk_scf (s_nz o) (s_ny o) (s_nx o) (s_cube o) lags (s_surface o) (s_lags o) (s_spectrum o) (s_stddev o) (s_azim_mask o) (s_fit o) (s_fit2D o))
    (i_size i) (i_pixel i).

(** scf.py:165-243: the name is tested by value first, then by identity for every pair of
    lags; if neither test succeeds data_slice is not bound *)
Definition boundary_surface (o : scf_obj) (boundary : py_str) : result (list (list fl)) :=
  let name := str_value boundary in
  if negb (String.eqb name "continuous" || String.eqb name "cut") then Err ValueError
  else if is_literal boundary "cut" || is_literal boundary "continuous" || Nat.eqb (length (s_roll_lags o)) 0
  then compute_surface (s_nz o) (s_ny o) (s_nx o) (s_cube o) (s_roll_lags o) name
  else Err UnboundLocalError.

(** scf.py:168, 241: an array of zeros of [size] times [size] of which the entries of the lags
    are filled *)
Definition fill (size n : nat) (s : list (list fl)) : list (list fl) :=
  tab2 size size (fun j i => if Nat.ltb j n && Nat.ltb i n then at2 NaN s j i else Fin 0).

(** scf.py:151-243 [compute_surface] on the object.  Where an earlier value fails and the place
    of a later one too, the error of the value is meant. *)
Definition inst_surface (i : scf_inst) (boundary : py_str) : result scf_inst :=
  let n := length (s_roll_lags (i_obj i)) in
  s <- boundary_surface (i_obj i) boundary ;;
  if Nat.ltb (i_size i) n then Err IndexError
  else Ok (mk_inst (set_surface (i_obj i) (fill (i_size i) n s)) (i_size i) (i_pixel i)).

(** scf.py:245-290 with no arguments, on an object with a surface *)
Definition inst_spectrum (tppf : nat -> fl) (i : scf_inst) : result scf_inst :=
  o <- do_spectrum tppf (i_obj i) no_kwargs ;; Ok (mk_inst o (i_size i) (i_pixel i)).

(** ** SCF_Distance *)

(** The arguments cube1 and cube2: a cube with its header, or an SCF object *)
Inductive pair_input := RawCube (nz ny nx : nat) (cube : nat -> nat -> nat -> fl) (pixel : R) | ScfGiven (i : scf_inst).
Definition input_pixel (c : pair_input) : R := match c with RawCube _ _ _ _ p => p | ScfGiven i => i_pixel i end.
Definition input_lags (c : pair_input) : option (list R) :=
  match c with RawCube _ _ _ _ _ => None | ScfGiven i => Some (s_roll_lags (i_obj i)) end.

(** The argument boundary: a string, or a sequence of strings *)
Inductive boundary_arg := OneBoundary (b : py_str) | Boundaries (l : list py_str).

(** scf.py:847-885, the lags for both.  With scale 1 the second test is on _has_data1 again:
    self.scf2 does not exist yet for a cube.  Comparing arrays of different sizes gives a plain
    bool, which has no .all(). *)
Definition pair_lags (size : nat) (c1 c2 : pair_input) : result (list R * list R) :=
  let roll_lags := default_lags size in
  let scale := input_pixel c2 / input_pixel c1 in
  if Reqb scale 1 then
    r <- match input_lags c1, input_lags c2 with
         | None, _ => Ok (roll_lags, roll_lags)
         | Some l1, Some l2 => Ok (l1, l2)
         | Some _, None => Err AttributeError
         end ;;
    let '(l1, l2) := r in
    if negb (Nat.eqb (length l1) (length l2)) then Err AttributeError
    else if lags_eqb l1 l2 then Ok (l1, l2) else Err ValueError
  else if Rltb 1 scale then Ok (map (Rmult scale) roll_lags, roll_lags)
  else Ok (roll_lags, map (fun l => l / scale) roll_lags).

(** scf.py:887-892 *)
Definition pair_boundary (b : boundary_arg) : result (py_str * py_str) :=
  match b with
  | OneBoundary b => Ok (b, b)
  | Boundaries [b1; b2] => Ok (b1, b2)
  | Boundaries _ => Err ValueError
  end.

(** scf.py:896-923, and the same for the second at 925-952: the object afterwards and
    needs_run.  [lag_check] of an object with another number of lags is True. *)
Definition prepare (tppf : nat -> fl) (c : pair_input) (roll_lags : list R) (boundary : py_str) : result (scf_inst * bool) :=
  let '(i, needs_run) :=
    match c with
    | RawCube nz ny nx cube pixel => (new_inst nz ny nx cube pixel (Some roll_lags) 11, true)
    | ScfGiven i =>
        let lag_check := if negb (Nat.eqb (length roll_lags) (length (s_roll_lags (i_obj i)))) then true
                         else lags_eqb roll_lags (s_roll_lags (i_obj i)) in
        let i := if lag_check then i else set_roll i roll_lags in
        (i, negb lag_check || match s_spectrum (i_obj i) with Some _ => false | None => true end)
    end in
  if needs_run then i <- inst_surface i boundary ;; i <- inst_spectrum tppf i ;; Ok (i, true) else Ok (i, false).

Record scf_pair := mk_pair { p_1 : scf_inst; p_2 : scf_inst; p_size : nat }.

(** scf.py:831-956 [SCF_Distance.__init__]; the same object given twice is not modelled *)
Definition pair_init (tppf : nat -> fl) (c1 c2 : pair_input) (size : nat) (boundary : boundary_arg) : result scf_pair :=
  l <- pair_lags size c1 c2 ;;
  b <- pair_boundary boundary ;;
  r1 <- prepare tppf c1 (fst l) (fst b) ;;
  r2 <- prepare tppf c2 (snd l) (snd b) ;;
  let size := if Nat.even size then (size - 1)%nat else size in
  Ok (mk_pair (fst r1) (fst r2) (if negb (snd r1) && negb (snd r2) then i_size (fst r1) else size)).

(** numpy's broadcasting of square arrays: the common size, and the index into one of them *)
Definition broadcast (a b : nat) : result nat :=
  if Nat.eqb a b then Ok a else if Nat.eqb a 1 then Ok b else if Nat.eqb b 1 then Ok a else Err ValueError.
Definition stretch (n i : nat) : nat := if Nat.eqb n 1 then 0%nat else i.

(** scf.py:986-1002 [distance_metric]; an object without a surface (None) is a TypeError *)
Definition pair_metric (p : scf_pair) (weighted : bool) : result fl :=
  match s_surface (i_obj (p_1 p)), s_surface (i_obj (p_2 p)) with
  | Some s1, Some s2 =>
      n <- broadcast (length s1) (length s2) ;;
      m <- broadcast n (p_size p) ;;
      let entry s j i := at2 NaN s (stretch (length s) j) (stretch (length s) i) in
      let w j i := scf_weight (p_size p) weighted (stretch (p_size p) j) (stretch (p_size p) i) in
      let difference := map (fun q => let '(j, i) := q in fmul (fsqr (fsub (entry s1 j i) (entry s2 j i))) (Fin (w j i))) (pixels m m) in
      let total := rsum (p_size p) (fun j => rsum (p_size p) (fun i => scf_weight (p_size p) weighted j i)) in
      Ok (fsqrt (fdiv (fsum difference) (Fin total)))
  | _, _ => Err TypeError
  end.
(** SCF_Distance(...).distance_metric(weighted).distance *)
Definition scf_pair_distance (tppf : nat -> fl) (c1 c2 : pair_input) (size : nat) (boundary : boundary_arg) (weighted : bool) : result fl :=
  p <- pair_init tppf c1 c2 size boundary ;; pair_metric p weighted.
