(** Model of turbustat/statistics/fitting_utils.py (without the plotting and the ODR and
    MCMC samplers). *)
From Coq Require Import Reals List Arith Bool.
From Verif Require Import Lib.PyBase Lib.RSum Lib.Fl.
Import ListNotations.
Local Open Scope R_scope.

(** fitting_utils.py:312-313 *)
Definition clip_func (arr : list fl) (low high : fl) : list bool := map (fun v => fltb low v && fleb v high) arr.
(** arr[mask] *)
Fixpoint select {A} (mask : list bool) (l : list A) : list A :=
  match mask, l with
  | b :: m, x :: r => if b then x :: select m r else select m r
  | _, _ => []
  end.

(** A limit argument: None, a scalar Quantity, an array Quantity, a list or array, or a
    bare number *)
Inductive limit := LNone | LScalarQ (v : R) | LArrayQ (l : list R) | LSeq (l : list R) | LNumber (v : R).
(** fitting_utils.py:274-309 [check_fit_limits]: the limits of the two data sets; len() of a
    number raises TypeError *)
Definition check_limit (l : limit) : result (list (option R)) :=
  match l with
  | LNone => Ok [None; None]
  | LScalarQ v => Ok [Some v; Some v]
  | LArrayQ l | LSeq l => if Nat.eqb (length l) 2 then Ok (map Some l) else Err ValueError
  | LNumber _ => Err TypeError
  end.
Definition check_fit_limits (xlow xhigh : limit) : result (list (option R) * list (option R)) :=
  lo <- check_limit xlow ;; hi <- check_limit xhigh ;; Ok (lo, hi).

(** fitting_utils.py:316-361 [residual_bootstrap].  [wendog], [wresid]: (weighted) data and
    residuals of the fit.  [draw b k] is the random integer np.random.choice(n, size) gives
    in resampling b at position k, taken modulo n; n <= 0 raises ValueError.  [refit] is
    the parameters of the fit to the resampled data. *)
Definition resample (wendog wresid : list R) (draw : nat -> nat) : result (list R) :=
  let n := (length wresid - 1)%nat in
  if Nat.eqb n 0 then Err ValueError
  else Ok (map2 Rplus wendog (map (fun k => nth (draw k mod n) wresid 0) (seq 0 (length wresid)))).
Fixpoint resample_all (wendog wresid : list R) (draw : nat -> nat -> nat) (boots : list nat) : result (list (list R)) :=
  match boots with
  | [] => Ok []
  | b :: boots => y <- resample wendog wresid (draw b) ;; r <- resample_all wendog wresid draw boots ;; Ok (y :: r)
  end.
(** np.std(resamps, axis=0) of one parameter *)
Definition rstd (l : list R) : R :=
  let m := lsum l / INR (length l) in sqrt (lsum (map (fun v => (v - m) * (v - m)) l) / INR (length l)).
Definition residual_bootstrap (refit : list R -> list R) (wendog wresid : list R) (draw : nat -> nat -> nat) (nboot npar : nat) : result (list R) :=
  ys <- resample_all wendog wresid draw (seq 0 nboot) ;;
  Ok (map (fun p => rstd (map (fun y => nth p (refit y) 0) ys)) (seq 0 npar)).

(** fitting_utils.py:160-168 [bayes_linear._logprob] over the points with both errors
    positive: None is -inf *)
Definition logprob (theta b : R) (pts : list (R * R * (R * R))) : option R :=
  if Rltb (PI / 4) (Rabs (theta - PI / 4)) then None
  else
    let delta p := let '(x, y, _) := p in (cos theta * y - sin theta * x - b * cos theta) ^ 2 in
    let sigma p := let '(_, _, (ex, ey)) := p in (sin theta) ^ 2 * ex ^ 2 + (cos theta) ^ 2 * ey ^ 2 in
    Some (- (1 / 2) * lsum (map (fun p => delta p / sigma p) pts) - 1 / 2 * lsum (map (fun p => ln (sigma p)) pts)).
