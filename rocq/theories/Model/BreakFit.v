(** Model of the segmented fits as the statistics ask for them: lm_seg.py (LmSeg.v) called
    from base_pspec2.py and delta_variance.py. *)
From Coq Require Import Reals List Arith Bool.
From Verif Require Import Lib.PyBase Lib.RSum Lib.Fl Model.FitState Model.LmSeg.
Import ListNotations.
Local Open Scope R_scope.

(** lm_seg.py:42-207: the object is made and fit_model is called with its default tol, iter_max,
    h_step and epsil_0; 101 turns are enough for 100 iterations (C46).  [ols] is statsmodels:
    the values, the weights, the columns. *)
Definition lm_seg_fit (ols : list R -> option (list R) -> list (list R) -> fit_result) (x y : list fl) (brk : fl) (w : option (list fl)) : result seg_fit :=
  s <- lm_seg_init x y brk w ;;
  match fit_model s (ols (seg_y s) (seg_weights s)) true 100 (1 / 1000) 2 10 101 with Some r => r | None => Err OtherError end.

(** base_pspec2.py:238-241, 253-273: what is read from the fit.  [boot] stands for
    residual_bootstrap.  None when params.size is not 5. *)
Definition read_break (boot : seg_fit -> list fl) (g : seg_fit) : result (option (R * fl * (fl * fl) * (fl * fl) * list fl * fl)) :=
  se <- get_slopes g ;;
  if Nat.eqb (length (params g)) 5 then
    match se, g_params g with
    | ([s1; s2], [e1; e2]), amp :: _ => Ok (Some (g_brk g, g_brk_err g, (s1, s2), (e1, e2), boot g, amp))
    | _, _ => Err OtherError
    end
  else Ok None.
(** base_pspec2.py:238 with the rows (x, y, weight) of PspecFit.fit_rows *)
Definition pspec_seg (ols : list R -> option (list R) -> list (list R) -> fit_result) (boot : seg_fit -> list fl) (weighted : bool)
    (rows : list (fl * fl * fl)) (brk : fl) : result (option (R * fl * (fl * fl) * (fl * fl) * list fl * fl)) :=
  g <- lm_seg_fit ols (map (fun r => fst (fst r)) rows) (map (fun r => snd (fst r)) rows) brk (if weighted then Some (map snd rows) else None) ;;
  read_break boot g.
(** delta_variance.py:360-372, 377-392 with the points (log10 lag, log10 value, weight) *)
Definition dv_seg (ols : list R -> option (list R) -> list (list R) -> fit_result) (boot : seg_fit -> list fl)
    (pts : list (R * fl * fl)) (brk : R) (bootstrap : bool) : result seg_outcome :=
  let x := map (fun r => Fin (fst (fst r))) pts in
  g <- lm_seg_fit ols x (map (fun r => snd (fst r)) pts) (Fin brk) (Some (map snd pts)) ;;
  out <- read_break boot g ;;
  match out with
  | None => Ok Unbroken
  | Some (b, be, slopes, errs, boot, amp) => Ok (Broken b be slopes errs boot (length (filter (fun v => fltb v (Fin b)) x)))
  end.
