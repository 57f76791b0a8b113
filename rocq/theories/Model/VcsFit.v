(** Model of the points and the starting breaks of VCS.fit_pspec
    (turbustat/statistics/vca_vcs/vcs.py:91-204). *)
From Coq Require Import Reals List Arith Bool.
From Verif Require Import Lib.PyBase Lib.Fl Lib.Arr Lib.DFT Model.StatsUtils.
Import ListNotations.
Local Open Scope R_scope.

(** vcs.py:48-49, in 1/pix *)
Definition vcs_freqs (n : nat) : list R := tab1 n (fun k => Rabs (fftfreq n k)).
(** np.max of non-negative numbers *)
Definition rmax (l : list R) : R := fold_right Rmax 0 l.
(** vcs.py:123-136; limits that are given are already converted to 1/pix *)
Definition vcs_low (n : nat) (cut : option R) : R := match cut with None => 98 / 100 / INR n | Some c => c end.
Definition vcs_high (n : nat) (cut : option R) : R := match cut with None => rmax (vcs_freqs n) * (101 / 100) | Some c => c end.
(** a[1:n // 2] *)
Definition inner_half {A} (n : nat) (l : list A) : list A := firstn (n / 2 - 1) (skipn 1 l).
(** vcs.py:141-146 with clip_func (fitting_utils.py:312-313): frequency and power of the fitted
    points, before np.log10; np.max of no frequency raises ValueError *)
Definition vcs_points (n : nat) (ps1D : list fl) (low high : option R) : result (list (R * fl)) :=
  if Nat.eqb n 0 then Err ValueError
  else Ok (filter (fun p => Rltb (vcs_low n low) (fst p) && Rleb (fst p) (vcs_high n high))
                  (combine (inner_half n (vcs_freqs n)) (inner_half n ps1D))).
(** The logarithms of the frequencies, vcs.py:147-148 *)
Definition vcs_x (pts : list (R * fl)) : list R := map (fun p => ln (fst p) / ln 10) pts.

(** vcs.py:150-181: the breaks to try when none is given.  [knots] are the knots of the
    spline, the first and the last included; the spline itself is not modelled. *)
Definition drop_last {A} (l : list A) : list A := firstn (length l - 1) l.
(** np.sort(x)[-1] and np.sort(x)[-3]; x is increasing *)
Definition vcs_start (x knots : list R) : result (list R) :=
  let breaks := rev (drop_last (tl knots)) in
  let breaks := match breaks with b :: rest => if Reqb b (last x 0) then rest else breaks | [] => [] end in
  let breaks := match breaks with [] => [] | _ => if Reqb (last breaks 0) (hd 0 x) then drop_last breaks else breaks end in
  if (length x <=? 3)%nat then Err OtherError
  else match breaks with
       | [] => Ok [1 / 2 * (nth (length x - 1) x 0 + nth (length x - 3) x 0)]
       | _ => Ok breaks
       end.
