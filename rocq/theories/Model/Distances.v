(** Model of the distance_metric methods that compare fitted slopes or curves. *)
From Coq Require Import Reals List Arith Bool.
From Verif Require Import Lib.PyBase Lib.RSum Lib.Fl Lib.Arr.
Import ListNotations.
Local Open Scope R_scope.

(** np.abs((s1 - s2) / np.sqrt(e1**2 + e2**2)) for scalar slopes:
    pspec.py:358-361, vca.py:344-347, mvc.py:458-461, wavelet_transform.py:706-709,
    delta_variance.py:916-919 *)
Definition slope_distance (s1 e1 s2 e2 : fl) : fl := fabs (fdiv (fsub s1 s2) (fsqrt (fadd (fsqr e1) (fsqr e2)))).
(** dendro_stats.py:638-641: the absolute value is taken before the division *)
Definition tail_distance (s1 e1 s2 e2 : fl) : fl := fdiv (fabs (fsub s1 s2)) (fsqrt (fadd (fsqr e1) (fsqr e2))).
(** compare_pdf.py:661-665, the first fitted parameter *)
Definition lognormal_distance := tail_distance.

(** The same expression for fits with a break, whose slopes are arrays of two: numpy
    broadcasts a single slope (a scalar) against the two. *)
Definition fit_slopes := (list (fl * fl))%type.
Definition slope_distances (f1 f2 : fit_slopes) : result (list fl) :=
  let d p q := slope_distance (fst p) (snd p) (fst q) (snd q) in
  match f1, f2 with
  | [p], _ => Ok (map (d p) f2)
  | _, [q] => Ok (map (fun p => d p q) f1)
  | _, _ => if Nat.eqb (length f1) (length f2) then Ok (map2 d f1 f2) else Err ValueError
  end.

(** vcs.py:484-506: slopes with errors, and break with error; an index out of range
    raises IndexError *)
Definition vcs_distance (f1 f2 : fit_slopes) : result fl :=
  match f1, f2 with
  | p :: t1, q :: t2 =>
      let large := slope_distance (fst p) (snd p) (fst q) (snd q) in
      match t1, t2 with
      | [], _ | _, [] => Ok (nansum [large; NaN])
      | p' :: _, q' :: _ => Ok (nansum [large; slope_distance (fst p') (snd p') (fst q') (snd q')])
      end
  | _, _ => Err IndexError
  end.

(** bispec.py:598-609: the two surfaces as flattened arrays with their shapes.  [nnorm] is
    np.linalg.norm *)
Definition nnorm (l : list fl) : fl := fsqrt (fsum (map fsqr l)).
Definition npmean (l : list fl) : fl := fdiv (fsum l) (Fin (INR (length l))).
Definition bispec_distance (sh1 sh2 : nat * nat) (b1 b2 : list fl) : fl * fl :=
  (if Nat.eqb (fst sh1) (fst sh2) && Nat.eqb (snd sh1) (snd sh2) then nnorm (map2 fsub b1 b2) else NaN,
   fabs (fsub (npmean b1) (npmean b2))).

(** genus.py:597-623.  [interp] is InterpolatedUnivariateSpline(thresholds, values, k=3)
    evaluated at a point; [n1], [n2] are the numbers of pixels. *)
Definition linspace (a b : R) (n : nat) : list R :=
  if Nat.leb n 1 then tab1 n (fun _ => a) else tab1 n (fun k => a + INR k * ((b - a) / INR (n - 1))).
Definition genus_points (t1 t2 : list R) : list R :=
  let num_pts := ((length t1 + length t2) / 2)%nat in
  let mn l := fold_right Rmin (hd 0 l) l in let mx l := fold_right Rmax (hd 0 l) l in
  linspace (Rmax (mn t1) (mn t2)) (Rmin (mx t1) (mx t2)) (2 * num_pts).
Definition genus_distance (interp : list R -> list R -> R -> R) (scale : R) (t1 g1 : list R) (n1 : nat) (t2 g2 : list R) (n2 : nat) : R :=
  let v1 := map (fun g => g / (INR n1 / scale)) g1 in
  let v2 := map (fun g => g / INR n2) g2 in
  sqrt (lsum (map (fun p => (interp t1 v1 p - interp t2 v2 p) ^ 2) (genus_points t1 t2))).
