(** Model of WidthEstimate1D of turbustat/statistics/pca/width_estimate.py with its three methods.
    The vectors are finite and not empty. *)
From Coq Require Import String Reals List Bool Arith.
From Verif Require Import Lib.PyBase Lib.Fl Model.StatsUtils Model.Pca.
Import ListNotations.
Local Open Scope string_scope.
Local Open Scope R_scope.

(** width_estimate.py:314: x = np.fft.fftfreq(len(y)) * len(y) *)
Definition lag (n i : nat) : R := fftfreq n i * INR n.
(** scipy.signal.argrelmin(y)[0]: both neighbours are larger; the ends never are minima *)
Definition minima (y : list R) : list nat :=
  filter (fun i => Rltb (nth i y 0) (nth (i - 1) y 0) && Rltb (nth i y 0) (nth (i + 1) y 0)) (seq 1 (length y - 2)).

(** scipy.interpolate.interp1d, kind='linear': the knots are sorted by their position *)
Fixpoint ins (p : R * R) (l : list (R * R)) : list (R * R) :=
  match l with [] => [p] | h :: t => if Rleb (fst p) (fst h) then p :: h :: t else h :: ins p t end.
Definition sorted_knots (l : list (R * R)) : list (R * R) := fold_right ins [] l.
(** Outside the knots it raises ValueError; inside, [hi] is the first knot at or above q, but not
    the first of all *)
Definition interp1d (l : list (R * R)) (q : R) : result fl :=
  let k := sorted_knots l in
  let at_ i := nth i k (0, 0) in
  if Rltb q (fst (at_ 0%nat)) || Rltb (fst (at_ (length k - 1)%nat)) q then Err ValueError
  else
    let hi := Nat.max 1 (Nat.min (length (filter (fun p => Rltb (fst p) q) k)) (length k - 1)) in
    let lo := (hi - 1)%nat in
    Ok (fadd (fmul (fdiv (Fin (snd (at_ hi) - snd (at_ lo))) (Fin (fst (at_ hi) - fst (at_ lo)))) (Fin (q - fst (at_ lo)))) (Fin (snd (at_ lo)))).

Section Fit.
(** LevMarLSQFitter for a Gaussian with mean 0 and the given amplitude: its standard deviation
    with its error, None when there is no covariance matrix *)
Variable gauss_fit : R -> list (R * R) -> option (R * R).

(** width_estimate.py:315-326 [method='interpolate']; both arrays are zero before *)
Definition width_interpolate (y : list R) : result (fl * fl) :=
  match minima y with
  | [] => Err IndexError
  | m :: _ =>
      if Nat.ltb 1 m then
        let knots := map (fun i => (nth i y 0, lag (length y) i)) (seq 0 (m + 1)) in
        Ok (match interp1d knots (exp (-1)) with Ok w => w | Err _ => NaN end, Fin 0)
      else Ok (Fin 0, Fin 0)
  end.
(** width_estimate.py:327-354 [method='fit'] *)
Definition width_fit (y : list R) : result (fl * fl) :=
  match minima y with
  | [] => Err IndexError
  | m :: _ =>
      let count := if Nat.ltb 1 m then m else length y in
      let pts := map (fun i => (Rabs (lag (length y) i), nth i y 0)) (seq 0 count) in
      Ok (match gauss_fit (nth 0 y 0) pts with
          | None => (NaN, NaN)
          | Some (s, e) => (Fin (Rabs s * sqrt 2), Fin (e * sqrt 2))
          end)
  end.
(** width_estimate.py:313-379: one vector, and all of them in order *)
Definition width_1D (method : string) (y : list R) : result (fl * fl) :=
  if String.eqb method "interpolate" then width_interpolate y
  else if String.eqb method "fit" then width_fit y
  else if String.eqb method "walk-down" then Ok (snd (walk_down y))
  else Err ValueError.
Fixpoint widths_1D (method : string) (ys : list (list R)) : result (list (fl * fl)) :=
  match ys with
  | [] => Ok []
  | y :: ys => w <- width_1D method y ;; l <- widths_1D method ys ;; Ok (w :: l)
  end.
End Fit.
