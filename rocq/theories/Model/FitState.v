(** Model of the fit state of a statistic: base_pspec2.py fit_pspec, delta_variance.py
    fit_plaw, wavelet_transform.py fit_transform. *)
From Coq Require Import Reals List Arith Bool.
From Verif Require Import Lib.PyBase Lib.Fl Model.Units.
Import ListNotations.
Local Open Scope R_scope.

(** What Lm_Seg gives: a fit with a break (log10 of the break, its error, two slopes and
    errors, errors of the bootstrap, number of points below the break), or the fit without one *)
Inductive seg_outcome :=
| Broken (brk : R) (brk_err : fl) (slopes errs : fl * fl) (boot : list fl) (below : nat)
| Unbroken.
(** Attributes _brk, _brk_err, _slope, _slope_err: the outer option is hasattr *)
Record fit_state := mk_state { t_brk : option (option R); t_brk_err : option (option fl); t_slope : option (list fl); t_slope_err : option (list fl) }.
Definition unfitted : fit_state := mk_state None None None None.

(** stderrs[1:-1] *)
Definition inner {A} (l : list A) : list A := removelast (tl l).

(** base_pspec2.py:231-300 ([resets] true), delta_variance.py:352-424 and
    wavelet_transform.py:289-366 ([resets] false: the branch without a break does not set
    _brk_err).  [linear] is slope and error of the straight line. *)
Definition fit_step (resets : bool) (min_pts : nat) (bootstrap : bool) (linear : fl * fl) (st : fit_state) (brk : option seg_outcome) : fit_state :=
  let straight berr := mk_state (Some None) berr (Some [fst linear]) (Some [snd linear]) in
  match brk with
  | None => straight (if resets then Some None else t_brk_err st)
  | Some Unbroken => straight (t_brk_err st)
  | Some (Broken b be slopes errs boot below) =>
      if Nat.ltb below min_pts then straight (t_brk_err st)
      else
        let b10 := exp (b * ln 10) in
        mk_state (Some (Some b10)) (Some (Some (fmul (Fin (ln 10 * b10)) (if bootstrap then last boot NaN else be))))
                 (Some [fst slopes; snd slopes])
                 (Some (if bootstrap then inner boot else [fst errs; snd errs]))
  end.
Fixpoint fit_history (resets : bool) (min_pts : nat) (st : fit_state) (l : list (bool * (fl * fl) * option seg_outcome)) : fit_state :=
  match l with [] => st | (boot, lin, b) :: l => fit_history resets min_pts (fit_step resets min_pts boot lin st b) l end.

(** Reading obj.brk_err *)
Definition read_brk_err (st : fit_state) : result (option fl) := match t_brk_err st with None => Err AttributeError | Some e => Ok e end.

(** wavelet_transform.py:324: the unit of the break; base_pspec2.py:253 and
    delta_variance.py:379 *)
Definition wavelet_brk (b : R) : quantity := mk_q [b] (inv_unit pix).
Definition deltavar_brk (b : R) : quantity := mk_q [b] pix.

(** vcs.py:152-208: the search over the breaks of the spline (already the interior knots,
    in descending order), and the start of the final fit.  [try b] is whether Lm_Seg with
    start b keeps a break.  An array of two or more breaks raises ValueError in Lm_Seg, and so
    does log10 of a negative number, which is no finite break. *)
Fixpoint vcs_try (try : R -> bool) (l : list R) : option R := match l with [] => None | b :: l => if try b then Some b else vcs_try try l end.
Definition vcs_breaks (try : R -> bool) (knots : list R) (default : R) (log_break : bool) : result R :=
  let breaks := match knots with [] => [default] | _ => knots end in
  b <- match vcs_try try breaks with
       | Some b => Ok b
       | None => match breaks with [b] => Ok b | _ => Err ValueError end
       end ;;
  if log_break then Ok b else if Rltb 0 b then Ok (ln b / ln 10) else Err ValueError.
(** vcs.py:210-217: the slope errors; the bootstrap gives one error per parameter of the
    final fit *)
Definition vcs_slope_errs (bootstrap : bool) (slope_errs stderrs : list fl) : list fl := if bootstrap then inner stderrs else slope_errs.
