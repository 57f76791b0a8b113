(** Model of turbustat/statistics/scf/scf.py: the correlation surface and the
    distance. *)
From Coq Require Import String Reals List ZArith Arith Bool.
From Verif Require Import Lib.PyBase Lib.PySlice Lib.Arr Lib.Fl Lib.RSum Model.StatsUtils Model.Psds.
Import ListNotations.
Local Open Scope R_scope.

(** float(lag).is_integer() *)
Definition is_integer (r : R) : bool := Reqb (IZR (Int_part r)) r.

(** scf.py:184-199: one axis of the data shifted by [lag] pixels with pixel_shift
    or, for a fractional lag, fourier_shift; no shift for lag 0 *)
Definition shift_axis (n : nat) (f : nat -> fl) (lag : R) (i : nat) : fl :=
  if Reqb lag 0 then f i
  else if is_integer lag then nth i (pixel_shift (tab1 n f) (ShiftFloat lag)) NaN
  else nth i (fourier_shift (tab1 n f) lag) NaN.

(** [tmp] of scf.py:184-199: axis 1 is shifted by x_shift, then axis 2 by y_shift *)
Definition shifted (ny nx : nat) (cube : nat -> nat -> nat -> fl) (x_shift y_shift : R) (z y x : nat) : fl :=
  shift_axis nx (fun x' => shift_axis ny (fun y' => cube z y' x') x_shift y) y_shift x.

(** np.ceil *)
Definition np_ceil (r : R) : Z := (- Int_part (- r))%Z.

(** scf.py:201-222: the index ranges of data and tmp along an axis of length n *)
Definition cut_data (n : nat) (lag : R) : list nat :=
  let s := np_ceil lag in
  if (s <? 0)%Z then slice_idx None (Some (Z.of_nat n + s)%Z) 1 n
  else slice_idx (Some s) None 1 n.
Definition cut_tmp (n : nat) (lag : R) : list nat :=
  let s := np_ceil lag in
  if (s <? 0)%Z then slice_idx (Some (- s)%Z) None 1 n
  else slice_idx None (Some (Z.of_nat n - s)%Z) 1 n.

(** scf.py:227-231 for one pixel: [d] and [t] are the spectra of data and tmp *)
Definition pair_value (nz : nat) (d t : nat -> fl) : fl :=
  fdiv (nansum (tab1 nz (fun z => fsqr (fsub (d z) (t z)))))
       (fadd (nansum (tab1 nz (fun z => fsqr (d z)))) (nansum (tab1 nz (fun z => fsqr (t z))))).

(** scf.py:233-234 *)
Definition scf_of_values (values : list fl) : fl :=
  fsub (Fin 1) (fsqrt (fdiv (nansum values) (Fin (INR (length (filter is_fin values)))))).

(** scf.py:201-241, the SCF at one lag.  The comparison with the boundary names
    is modelled by value (the code compares object identity, see DESIGN.md).
    Slices of different lengths raise ValueError (numpy broadcasts a length of
    one; not modelled). *)
Definition scf_value (nz ny nx : nat) (cube : nat -> nat -> nat -> fl) (boundary : string)
    (x_shift y_shift : R) : result fl :=
  let tmp := shifted ny nx cube x_shift y_shift in
  let ranges n lag := if String.eqb boundary "cut" then (cut_data n lag, cut_tmp n lag) else (seq 0 n, seq 0 n) in
  let '(dy, ty) := ranges ny x_shift in
  let '(dx, tx) := ranges nx y_shift in
  if negb (Nat.eqb (length dy) (length ty) && Nat.eqb (length dx) (length tx)) then Err ValueError
  else
    let values := map (fun pq => let '((yd, xd), (yt, xt)) := pq in
                          pair_value nz (fun z => cube z yd xd) (fun z => tmp z yt xt))
                      (combine (list_prod dy dx) (list_prod ty tx)) in
    let v := scf_of_values values in
    if fltb (Fin 1) v then Err ValueError else Ok v.

(** All results of a list, or the first error. *)
Fixpoint sequence {A} (l : list (result A)) : result (list A) :=
  match l with
  | [] => Ok []
  | r :: l' => x <- r ;; xs <- sequence l' ;; Ok (x :: xs)
  end.

(** scf.py:151-243 [compute_surface]: entry [j, i] of the surface belongs to
    x_shift = lags[i], y_shift = lags[j] *)
Definition compute_surface (nz ny nx : nat) (cube : nat -> nat -> nat -> fl) (lags : list R) (boundary : string)
    : result (list (list fl)) :=
  if negb (String.eqb boundary "continuous" || String.eqb boundary "cut") then Err ValueError
  else sequence (map (fun y_shift => sequence (map (fun x_shift => scf_value nz ny nx cube boundary x_shift y_shift) lags)) lags).

(** scf.py:66-71: the default lags for a given size *)
Definition default_lags (size : nat) : list R :=
  let size := if Nat.even size then (size - 1)%nat else size in
  tab1 size (fun i => INR i - INR (size / 2)).

(** scf.py:986-1002 [distance_metric] on surfaces of numbers *)
Definition scf_weight (size : nat) (weighted : bool) (i j : nat) : R :=
  let a := INR j - INR (size / 2) in
  let b := INR i - INR (size / 2) in
  if weighted then (if Reqb a 0 && Reqb b 0 then 1 else 1 / sqrt (a * a + b * b)) else 1.
Definition scf_distance (size : nat) (weighted : bool) (s1 s2 : nat -> nat -> R) : R :=
  let difference := rsum size (fun i => rsum size (fun j => (s1 i j - s2 i j) ^ 2 * scf_weight size weighted i j)) in
  let total := rsum size (fun i => rsum size (fun j => scf_weight size weighted i j)) in
  sqrt (difference / total).
