(** Model of turbustat/statistics/lm_seg.py: the segmented linear fit. *)
From Coq Require Import Reals List Arith Bool.
From Verif Require Import Lib.PyBase Lib.RSum Lib.Fl.
Import ListNotations.
Local Open Scope R_scope.

(** arr.max(), arr.min(): NaN if there is a NaN, ValueError if empty *)
Definition np_max (l : list fl) : result fl :=
  match l with [] => Err ValueError | _ => Ok (if existsb is_nan l then NaN else nanmax l) end.
Definition np_min (l : list fl) : result fl :=
  match l with [] => Err ValueError | _ => Ok (if existsb is_nan l then NaN else nanmin l) end.

(** The object after the constructor: finite points, start of the break, weights. *)
Record lm_seg := mk_seg { seg_x : list R; seg_y : list R; seg_brk : R; seg_weights : option (list R) }.

(** lm_seg.py:42-70 [Lm_Seg.__init__] *)
Definition lm_seg_init (x y : list fl) (brk : fl) (weights : option (list fl)) : result lm_seg :=
  match brk with
  | Fin b =>
      mx <- np_max x ;; mn <- np_min x ;;
      if fltb mx brk || fltb brk mn then Err ValueError
      else
        w <- match weights with
             | None => Ok None
             | Some w => if negb (Nat.eqb (length x) (length w)) then Err ValueError
                         else if forallb is_fin w then Ok (Some (fins w)) else Err ValueError
             end ;;
        let good := filter (fun p => is_fin (fst p) && is_fin (snd p)) (combine x y) in
        if Nat.leb (length good) 3 then Err OtherError
        else Ok (mk_seg (fins (map fst good)) (fins (map snd good)) b w)
  | _ => Err ValueError
  end.

(** What a statsmodels fit gives: parameters, their errors, residuals, covariances *)
Record fit_result := mk_fit { f_params : list fl; f_bse : list fl; f_resid : list fl; f_cov : list (list fl) }.

(** sm.add_constant of the columns: no constant is added if there is a constant non-zero
    column already (its default has_constant='skip') *)
Definition const_col (c : list R) : bool := match c with [] => false | v :: r => negb (Reqb v 0) && forallb (Reqb v) r end.
Definition add_constant (cols : list (list R)) : list (list R) :=
  if existsb const_col cols then cols else repeat 1 (length (hd [] cols)) :: cols.

(** sm.OLS(y, X).fit() or sm.WLS(y, X, weights).fit(): [solver] is the solver, a function
    of the columns; weights of another length than y raise ValueError *)
Definition lm_fit (s : lm_seg) (solver : list (list R) -> fit_result) (cols : list (list R)) : result fit_result :=
  match seg_weights s with
  | None => Ok (solver cols)
  | Some w => if Nat.eqb (length w) (length (seg_y s)) then Ok (solver cols) else Err ValueError
  end.

(** lm_seg.py:113-116, 186-189: the columns x, U, V for a break point *)
Definition col_U (x : list R) (brk : R) : list R := map (fun v => (v - brk) * (if Rltb brk v then 1 else 0)) x.
Definition deriv_max (x : list R) (brk : R) : list R := map (fun v => if Rltb v brk then 0 else -1) x.
Definition columns (x : list R) (brk : R) : list (list R) := [x; col_U x brk; deriv_max x brk].

(** (x > b).any() and not (x > b).all(), for a b that may be no number *)
Definition usable (x : list R) (b : fl) : bool :=
  existsb (fun v => fltb b (Fin v)) x && negb (forallb (fun v => fltb b (Fin v)) x).

(** fit.params[i] *)
Definition index (l : list fl) (i : nat) : result fl := match nth_error l i with Some v => Ok v | None => Err IndexError end.

(** State of the search: break, step size, epsilon, residuals of the last fit, failed,
    iteration count, last fit *)
Record search := mk_search { c_brk : R; c_step : fl; c_eps : fl; c_dev : fl; c_fail : bool; c_it : nat; c_fit : option fit_result }.

(** lm_seg.py:136-153: halve the step until the break is usable.  [todo] is 5 - h_it.
    Returns the new break, the step, and the number of halvings. *)
Fixpoint halve (x : list R) (gamma beta step new_brk : fl) (todo h_it : nat) : (option R * fl * nat) :=
  match todo with
  | O => (None, step, h_it)
  | S todo =>
      let new_brk := fsub new_brk (fdiv (fmul step gamma) beta) in
      let step := fdiv step (Fin 2) in
      let new_brk := fadd new_brk (fdiv (fmul step gamma) beta) in
      if usable x new_brk
      then (match new_brk with Fin b => Some b | _ => None end, step, S h_it)
      else halve x gamma beta step new_brk todo (S h_it)
  end.

(** lm_seg.py:113-174: one turn of the loop; the second result is whether it ended by
    [break], the third the number of halvings *)
Definition search_step (s : lm_seg) (solver : list (list R) -> fit_result) (constant : bool) (iter_max : nat) (c : search)
  : result (search * bool * nat) :=
  let x := seg_x s in
  let cols := columns x (c_brk c) in
  fit <- lm_fit s solver (if constant then add_constant cols else cols) ;;
  beta <- index (f_params fit) 2 ;; gamma <- index (f_params fit) 3 ;;
  let new_brk := fadd (Fin (c_brk c)) (fdiv (fmul (c_step c) gamma) beta) in
  let '(found, step, halvings) :=
    if usable x new_brk then (match new_brk with Fin b => Some b | _ => None end, c_step c, 0%nat)
    else halve x gamma beta (c_step c) new_brk 5 0 in
  let dev_1 := fsum (map fsqr (f_resid fit)) in
  let epsil := fdiv (fsub dev_1 (c_dev c)) (fadd (c_dev c) (Fin (1 / 1000))) in
  let '(brk, fail, it) := match found with
                          | Some b => (b, c_fail c, c_it c)
                          | None => (c_brk c, true, S iter_max)
                          end in
  let it := S it in
  Ok (mk_search brk step epsil dev_1 fail it (Some fit), Nat.ltb iter_max it, halvings).

(** lm_seg.py:112: while np.abs(epsil) > tol.  [None]: still running after [fuel] turns. *)
Definition continues (tol : R) (c : search) : bool := fltb (Fin tol) (fabs (c_eps c)).
Fixpoint search_loop (s : lm_seg) (solver : list (list R) -> fit_result) (constant : bool) (iter_max : nat) (tol : R) (fuel : nat) (c : search)
  : option (result search) :=
  if continues tol c then
    match fuel with
    | O => None
    | S fuel => match search_step s solver constant iter_max c with
                | Err e => Some (Err e)
                | Ok (c, true, _) => Some (Ok c)
                | Ok (c, false, _) => search_loop s solver constant iter_max tol fuel c
                end
    end
  else Some (Ok c).

(** lm_seg.py:286-301 *)
Definition brk_errs (params : list fl) (cov : list (list fl)) : result fl :=
  p2 <- index params 2 ;; p3 <- index params 3 ;;
  c3 <- match nth_error cov 3 with Some r => Ok r | None => Err IndexError end ;;
  c2 <- match nth_error cov 2 with Some r => Ok r | None => Err IndexError end ;;
  v33 <- index c3 3 ;; v22 <- index c2 2 ;; v32 <- index c3 2 ;;
  Ok (fsqrt (fadd (fadd v33 (fmul v22 (fsqr (fdiv p3 p2)))) (fmul (fmul (Fin 2) v32) (fdiv p3 p2)))).

(** The fitted object: final break, its error, parameters and errors of the final fit
    (without the break), and whether the break was dropped *)
Record seg_fit := mk_seg_fit { g_brk : R; g_brk_err : fl; g_params : list fl; g_errs : list fl; g_fail : bool }.

(** lm_seg.py:176-207, after the loop *)
Definition rmax_of (l : list R) : R := fold_right Rmax (hd 0 l) l.
Definition finish (s : lm_seg) (solver : list (list R) -> fit_result) (init : fit_result) (c : search) : result seg_fit :=
  let ssq f := fsum (map fsqr (f_resid f)) in
  fail <- (if c_fail c then Ok true
           else match c_fit c with
                | None => Err UnboundLocalError
                | Some f => Ok (fleb (ssq init) (ssq f))
                end) ;;
  if fail then
    fit <- lm_fit s solver (add_constant [seg_x s]) ;;
    Ok (mk_seg_fit (rmax_of (seg_x s)) (Fin 0) (f_params fit) (f_bse fit) true)
  else
    fit <- lm_fit s solver (add_constant (columns (seg_x s) (c_brk c))) ;;
    e <- match c_fit c with
         | None => Err UnboundLocalError
         | Some f => brk_errs (f_params fit ++ [Fin (c_brk c)]) (f_cov f)
         end ;;
    Ok (mk_seg_fit (c_brk c) e (f_params fit) (f_bse fit) false).

(** lm_seg.py:72-207 [fit_model] (the outer None: still running after [fuel] turns).
    The epsilon check calls warnings.warning, which does not exist. *)
Definition fit_model (s : lm_seg) (solver : list (list R) -> fit_result) (constant : bool) (iter_max : nat) (tol h_step epsil_0 : R) (fuel : nat)
  : option (result seg_fit) :=
  match lm_fit s solver (if constant then add_constant [seg_x s] else [seg_x s]) with
  | Err e => Some (Err e)
  | Ok init =>
      if Rltb epsil_0 tol then Some (Err AttributeError)
      else match search_loop s solver constant iter_max tol fuel
                   (mk_search (seg_brk s) (Fin h_step) (Fin epsil_0) (fsum (map fsqr (f_resid init))) false 0 None) with
           | None => None
           | Some (Err e) => Some (Err e)
           | Some (Ok c) => Some (finish s solver init c)
           end
  end.

(** lm_seg.py:254-261: params and param_errs with the break appended *)
Definition params (g : seg_fit) : list fl := g_params g ++ [Fin (g_brk g)].
Definition param_errs (g : seg_fit) : list fl := g_errs g ++ [g_brk_err g].

(** lm_seg.py:222-243 [get_slopes]; assigning a longer array to an element raises
    ValueError (three slopes or more) *)
Definition get_slopes (g : seg_fit) : result (list fl * list fl) :=
  if g_fail g then
    s <- index (params g) 1 ;; e <- index (param_errs g) 1 ;; Ok ([s], [e])
  else
    match (length (params g) - 3)%nat with
    | O => Ok ([], [])
    | 1%nat => s <- index (params g) 1 ;; e <- index (param_errs g) 1 ;; Ok ([s], [e])
    | 2%nat =>
        s <- index (params g) 1 ;; e <- index (param_errs g) 1 ;;
        s' <- index (params g) 2 ;; e' <- index (param_errs g) 2 ;;
        Ok ([s; fadd s' s], [e; fsqrt (fadd (fsqr e') (fsqr e))])
    | _ => Err ValueError
    end.

(** lm_seg.py:209-220 [model] at the points xs (numbers): argmin of |x - brk| is the first
    nearest point *)
Fixpoint nearest (brk : R) (best : R) (l : list R) : R :=
  match l with
  | [] => best
  | v :: r => nearest brk (if Rltb (Rabs (v - brk)) (Rabs (best - brk)) then v else best) r
  end.
Definition model (p0 p1 p2 brk : R) (xs : list R) : result (list R) :=
  match xs with
  | [] => Err ValueError
  | v :: r =>
      let t := nearest brk v r in
      Ok (map (fun k => p0 + p1 * k * (if Rltb k brk then 1 else 0) +
                        ((p1 + p2) * k + (- p2) * t) * (if Rleb brk k then 1 else 0)) xs)
  end.
(** [model] of a fitted object: p = self.params, of which the first three are used (the
    third is the break itself when the break was dropped); parameters that are no numbers
    are left out *)
Definition seg_model (g : seg_fit) (xs : list R) : result (list R) :=
  match params g with
  | Fin p0 :: Fin p1 :: Fin p2 :: _ => model p0 p1 p2 (g_brk g) xs
  | _ => Err OtherError
  end.
