(** Model of turbustat/statistics/apodizing_kernels.py and of
    base_pspec2.py [apodizing_kernel].  numpy's floats are exact reals. *)
From Coq Require Import Reals String List ZArith Arith.
From Verif Require Import Lib.PyBase Lib.Fl Lib.Arr.
Import ListNotations.
Local Open Scope R_scope.

(** apodizing_kernels.py:58-67 [_radial_distance] at pixel (i, j) of an array of
    shape (n0, n1): [position = (shape - 1) / 2], x along axis 1, y along axis 0 *)
Definition radial_distance (n0 n1 i j : nat) : R :=
  let position n := (INR n - 1) / 2 in
  let x := INR j - position n1 in
  let y := INR i - position n0 in
  sqrt (x ^ 2 + y ^ 2).

(** A window: apodizing_kernels.py [SplitCosineBellWindow] (106-108),
    [HanningWindow] (175-177), [TukeyWindow] (219-221), [CosineBellWindow]
    (257-259) differ in the alpha and beta they store. *)
Record window := mkWindow { alpha : R; beta : R }.
Definition SplitCosineBell (a b : R) : window := mkWindow a b.
Definition Hanning : window := mkWindow 1 0.
Definition Tukey (a : R) : window := mkWindow a (1 - a).
Definition CosineBell (a : R) : window := mkWindow a 0.

(** apodizing_kernels.py:110-140 [__call__] at pixel (i, j): the taper
    (131-134), then 1 inside r_inner (136), then 0 outside r_cut (137-138).
    [int(np.floor(v))] is [Int_part v]. *)
Definition window_at (w : window) (n0 n1 i j : nat) : R :=
  let radial_dist := radial_distance n0 n1 i j in
  let npts := (INR (Nat.min n0 n1) - 1) / 2 in
  let r_inner := beta w * npts in
  let r := radial_dist - r_inner in
  let r_taper := Int_part (alpha w * npts) in
  let f := if Z.eqb r_taper 0 then 1 else 1 / 2 * (1 + cos (PI * r / IZR r_taper)) in
  let f := if Rltb radial_dist r_inner then 1 else f in
  let r_cut := r_inner + IZR r_taper in
  if Rltb r_cut radial_dist then 0 else f.

(** The call on a shape: apodizing_kernels.py:60-61 only accepts two axes. *)
Definition call_window (w : window) (shape : list nat) : result (list (list R)) :=
  match shape with
  | [n0; n1] => Ok (tab2 n0 n1 (window_at w n0 n1))
  | _ => Err ValueError
  end.

(** base_pspec2.py:330-366 [apodizing_kernel].  [data] is the shape of
    self.data (None for MVC), [centroid] that of self.centroid, None when the
    object has no such attribute.  The first axis is dropped when there are
    more than two (347-348). *)
Definition apodizing_kernel (data centroid : option (list nat)) (kernel_type : string) (alpha beta : R)
  : result (list (list R)) :=
  shape <- match data with
           | Some s => Ok s
           | None => match centroid with Some s => Ok s | None => Err AttributeError end
           end ;;
  let shape := if Nat.ltb 2 (length shape) then tl shape else shape in
  if String.eqb kernel_type "splitcosinebell" then call_window (SplitCosineBell alpha beta) shape
  else if String.eqb kernel_type "hanning" then call_window Hanning shape
  else if String.eqb kernel_type "tukey" then call_window (Tukey alpha) shape
  else if String.eqb kernel_type "cosinebell" then call_window (CosineBell alpha) shape
  else Err ValueError.
