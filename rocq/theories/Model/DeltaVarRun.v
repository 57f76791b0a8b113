(** Model of turbustat/statistics/delta_variance/delta_variance.py: a DeltaVariance object through a
    history of calls, each of which may raise and leaves what it had set before, and the lags of
    DeltaVariance_Distance. *)
From Coq Require Import String Reals List ZArith Arith Bool.
From Verif Require Import Lib.PyBase Lib.Fl Lib.RSum Lib.Arr Model.Units Model.DeltaVar Model.FitState.
Import ListNotations.
Local Open Scope R_scope.

(** Options of compute_deltavar: the boundary, whether the convolved arrays are kept, and the
    others together *)
Record copts := mk_copts { c_boundary : string; c_keep : bool; c_others : nat }.
(** What an object is made from: its units, the smaller side of the image; the value and error
    stored for a lag and the convolved array (DeltaVar.v); what uninitialised memory holds; the
    weighted straight line (slope, error; with bootstrap or not) and Lm_Seg on points (log10 lag,
    log10 value, weight), given log10 of the break *)
Definition point := (R * fl * fl)%type.
Record dv_env := mk_dv { v_stat : stat; v_side : nat; v_value : copts -> R -> fl * fl; v_conv : copts -> R -> list fl; v_memory : nat -> fl * fl;
  v_line : list point -> bool -> fl * fl; v_seg : list point -> R -> bool -> result seg_outcome }.

(** Attributes: lags (in pixels), delta_var with its error, the lists kept by name, fit_range,
    slope and break (FitState.v) *)
Record dvo := mk_dvo { d_lags : list R; d_curve : option (list (fl * fl)); d_kept : list (string * list (list fl)); d_range : option (R * R); d_fit : fit_state }.

(** Lags given: none, numbers (an array or list), or a Quantity *)
Inductive lags_arg := LNone | LNumbers (l : list R) | LQuantity (q : quantity).
(** delta_variance.py:56-92, 99-119 [__init__] *)
Definition lags_of (e : dv_env) (l : lags_arg) (nlags : nat) : result (list R) :=
  pix <- match l with
         | LNone => Ok (logspace 3 (INR (v_side e) / 2) nlags)
         | LNumbers l => Ok l
         | LQuantity q => p <- to_pixel (v_stat e) q ;; Ok (q_vals p)
         end ;;
  if lags_ok (v_side e) pix then Ok pix else Err ValueError.
Definition new_dv (e : dv_env) (l : lags_arg) (nlags : nat) : result dvo :=
  lags <- lags_of e l nlags ;; Ok (mk_dvo lags None [("_convolved_arrays"%string, []); ("_convolved_weights"%string, [])] None unfitted).

Definition outcome := (dvo * option exn)%type.
Definition also (r : outcome) (k : dvo -> outcome) : outcome := match r with (o, None) => k o | _ => r end.

(** delta_variance.py:99-119, lags set later (in pixels; C90 is about other units) *)
Definition set_lags (e : dv_env) (o : dvo) (l : list R) : outcome :=
  if lags_ok (v_side e) l then (mk_dvo l (d_curve o) (d_kept o) (d_range o) (d_fit o), None) else (o, Some ValueError).

Fixpoint append_to (name : string) (arrays : list (list fl)) (l : list (string * list (list fl))) : list (string * list (list fl)) :=
  match l with [] => [] | (n, v) :: r => if String.eqb n name then (n, v ++ arrays) :: r else (n, v) :: append_to name arrays r end.
(** delta_variance.py:137-263 [compute_deltavar]: the arrays are made with np.empty before the
    boundary is looked at, which is done at every lag *)
Definition known (boundary : string) : bool := String.eqb boundary "wrap" || String.eqb boundary "fill".
Definition compute (e : dv_env) (o : dvo) (c : copts) : outcome :=
  match d_lags o with
  | [] => (mk_dvo [] (Some []) (d_kept o) (d_range o) (d_fit o), None)
  | _ =>
      if known (c_boundary c) then
        let arrays := if c_keep c then map (v_conv e c) (d_lags o) else [] in
        (mk_dvo (d_lags o) (Some (map (v_value e c) (d_lags o))) (append_to "_convolved_weights" arrays (append_to "_convolved_arrays" arrays (d_kept o))) (d_range o) (d_fit o), None)
      else (mk_dvo (d_lags o) (Some (map (v_memory e) (seq 0 (length (d_lags o))))) (d_kept o) (d_range o) (d_fit o), Some ValueError)
  end.
(** delta_variance.py:266-277 [convolve_arrays], [convolve_weights]: the attribute read is
    _convolve_arrays in both *)
Fixpoint attribute (name : string) (l : list (string * list (list fl))) : result (list (list fl)) :=
  match l with [] => Err AttributeError | (n, v) :: r => if String.eqb n name then Ok v else attribute name r end.
Definition convolve_arrays (o : dvo) : result (list (list fl)) := attribute "_convolve_arrays" (d_kept o).
Definition convolve_weights (o : dvo) : result (list (list fl)) := attribute "_convolve_arrays" (d_kept o).

(** Arguments of fit_plaw: limits, break, bootstrap *)
Record fargs := mk_fargs { f_xlow : option quantity; f_xhigh : option quantity; f_brk : option quantity; f_boot : bool }.
Definition in_pixels (s : stat) (q : option quantity) : result (option R) :=
  match q with None => Ok None | Some q => p <- to_pixel s q ;; Ok (Some (hd 0 (q_vals p))) end.
Definition given_or (d : R) (v : option R) : R := match v with Some v => v | None => d end.
Definition log10 (v : R) : R := ln v / ln 10.
(** delta_variance.py:317-350: the points within the limits; log10 of a limit that is not positive
    is -inf or NaN, so it admits every lag or none *)
Definition above_limit (v : option R) (lag : R) : bool :=
  match v with None => true | Some v => if Rltb 0 v then Rleb (log10 v) (log10 lag) else if Rltb v 0 then false else true end.
Definition below_limit (v : option R) (lag : R) : bool :=
  match v with None => true | Some v => if Rltb 0 v then Rleb (log10 lag) (log10 v) else false end.
Definition points (lo hi : option R) (lags : list R) (curve : list (fl * fl)) : list point :=
  map (fun p => (log10 (fst p), flog10 (fst (snd p)), fdiv (Fin 1) (fsqr (snd (snd p)))))
      (filter (fun p => above_limit lo (fst p) && below_limit hi (fst p)) (combine lags curve)).
(** delta_variance.py:293-434 [fit_plaw].  If there are not as many values as lags, masks of
    one length index arrays of the other: IndexError, or ValueError if the two limits have
    different lengths themselves *)
Definition fit_plaw (e : dv_env) (o : dvo) (a : fargs) : outcome :=
  match d_curve o with
  | None => (o, Some AttributeError)
  | Some curve =>
      match in_pixels (v_stat e) (f_xlow a) with
      | Err x => (o, Some x)
      | Ok lo =>
      match in_pixels (v_stat e) (f_xhigh a) with
      | Err x => (o, Some x)
      | Ok hi =>
          let range := (given_or (fst (default_range (d_lags o))) lo, given_or (snd (default_range (d_lags o))) hi) in
          let o := mk_dvo (d_lags o) (d_curve o) (d_kept o) (Some range) (d_fit o) in
          if negb (Nat.eqb (length curve) (length (d_lags o))) then
            (o, Some (if eqb (match lo with None => true | _ => false end) (match hi with None => true | _ => false end) then IndexError
                      else if Nat.eqb (length curve) 1 || Nat.eqb (length (d_lags o)) 1 then IndexError else ValueError))
          else
            let pts := points lo hi (d_lags o) curve in
            let finish b := (mk_dvo (d_lags o) (d_curve o) (d_kept o) (d_range o) (fit_step false 3 (f_boot a) (v_line e pts (f_boot a)) (d_fit o) b), None) in
            match in_pixels (v_stat e) (f_brk a) with
            | Err x => (o, Some x)
            | Ok None => finish None
            | Ok (Some b) =>
                if Rltb b (fst range) || Rltb (snd range) b then (o, Some ValueError)
                else match v_seg e pts (log10 b) (f_boot a) with Err x => (o, Some x) | Ok s => finish (Some s) end
            end
      end
      end
  end.

(** delta_variance.py:606-665 [run]: the arrays are not kept *)
Definition run (e : dv_env) (o : dvo) (c : copts) (a : fargs) : outcome :=
  also (compute e o (mk_copts (c_boundary c) false (c_others c))) (fun o => fit_plaw e o a).

(** Calls a user makes *)
Inductive call := CSetLags (l : list R) | CCompute (c : copts) | CFit (a : fargs) | CRun (c : copts) (a : fargs).
Definition do_call (e : dv_env) (o : dvo) (c : call) : outcome :=
  match c with
  | CSetLags l => set_lags e o l
  | CCompute c => compute e o c
  | CFit a => fit_plaw e o a
  | CRun c a => run e o c a
  end.
(** A history: exceptions are caught by the user, who goes on *)
Fixpoint history (e : dv_env) (o : dvo) (l : list call) : dvo := match l with [] => o | c :: l => history e (fst (do_call e o c)) l end.

(** ** DeltaVariance_Distance *)

(** delta_variance.py:764-779: the lags of the two data sets, for lags given.  The ratio of the
    pixel sizes is a numpy number, which multiplies a list as an array; a list divided by a float
    raises TypeError.  [is_list]: numbers given as a list. *)
Definition pair_lags (scale : R) (is_list : bool) (l : lags_arg) : result (lags_arg * lags_arg) :=
  let times (k : R) := match l with
                       | LNone => LNone
                       | LNumbers l => LNumbers (map (fun v => k * v) l)
                       | LQuantity q => LQuantity (mk_q (map (fun v => k * v) (q_vals q)) (q_unit q))
                       end in
  if Reqb scale 1 then Ok (l, l)
  else if Rltb 1 scale then Ok (times scale, l)
  else match l, is_list with LNumbers _, true => Err TypeError | _, _ => Ok (l, times (/ scale)) end.
(** delta_variance.py:730-750: lags given or the default, then 764-779 *)
Definition distance_lags (e1 e2 : dv_env) (scale : R) (is_list : bool) (l : lags_arg) : result (lags_arg * lags_arg) :=
  pair_lags scale is_list
    (match l with LNone => LQuantity (mk_q (logspace 3 (INR (if Nat.ltb (v_side e2) (v_side e1) then v_side e2 else v_side e1) / 2) 25) pix) | _ => l end).
(** delta_variance.py:789-793, 811-815, two data sets: construction and run of each; 867-912 the
    curve distance *)
Definition data_distance (e1 e2 : dv_env) (scale : R) (is_list : bool) (l : lags_arg) (c1 c2 : copts) (a1 a2 : fargs) : result (dvo * dvo * fl) :=
  ls <- distance_lags e1 e2 scale is_list l ;;
  o1 <- new_dv e1 (fst ls) 25 ;;
  match run e1 o1 c1 a1 with
  | (_, Some x) => Err x
  | (o1, None) =>
      o2 <- new_dv e2 (snd ls) 25 ;;
      match run e2 o2 c2 a2 with
      | (_, Some x) => Err x
      | (o2, None) =>
          match d_curve o1, d_range o1, d_curve o2, d_range o2 with
          | Some v1, Some r1, Some v2, Some r2 =>
              d <- curve_distance true (map fst v1) (d_lags o1) r1 (map fst v2) (d_lags o2) r2 ;; Ok (o1, o2, d)
          | _, _, _, _ => Err AttributeError
          end
      end
  end.
