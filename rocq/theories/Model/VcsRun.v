(** Model of the VCS objects of turbustat/statistics/vca_vcs/vcs.py through calls of compute_pspec,
    fit_pspec and run that may raise, and of the kind of errors Lm_Seg.fit_model asks statsmodels
    for (turbustat/statistics/lm_seg.py).  Plots and printed summaries are left out. *)
From Coq Require Import Reals List Arith Bool.
From Verif Require Import Lib.PyBase Lib.Fl Model.Psds Model.Units Model.DeltaVar Model.LmSeg Model.VcsFit.
Import ListNotations.
Local Open Scope R_scope.

(** Arguments of fit_pspec: breaks (a number or None), log_break, low_cut, high_cut, bootstrap *)
Record vargs := mk_va { a_breaks : option R; a_log : bool; a_low : option quantity; a_high : option quantity; a_boot : bool }.
Definition vcs_defaults : vargs := mk_va None true None None false.
(** Attributes _ps1D, low_cut and high_cut (in 1/pix), fit, _slope, _slope_errs; None before they
    are set.  A fit is an Lm_Seg object: [Some None] is one whose fit_model did not return. *)
Record vobj := mk_v { v_ps1D : option (list fl); v_low : option R; v_high : option R; v_fit : option (option seg_fit); v_slope : option (list fl); v_errs : option (list fl) }.
Definition fresh : vobj := mk_v None None None None None None.
Definition outcome := (vobj * option exn)%type.
Definition with_fit (o : vobj) (g : option seg_fit) : vobj := mk_v (v_ps1D o) (v_low o) (v_high o) (Some g) (v_slope o) (v_errs o).
Definition with_low (o : vobj) (l : R) : vobj := mk_v (v_ps1D o) (Some l) (v_high o) (v_fit o) (v_slope o) (v_errs o).
Definition with_high (o : vobj) (h : R) : vobj := mk_v (v_ps1D o) (v_low o) (Some h) (v_fit o) (v_slope o) (v_errs o).

Section Vcs.
(** The cube (NaN: blank), with its number of channels and its sides *)
Variables nz ny nx : nat.
Variable cube : nat -> nat -> nat -> fl.
(** base_statistic.py:357-370 to 1/pix; the knots of the spline; statsmodels (values, weights,
    columns); residual_bootstrap *)
Variable to_freq : quantity -> result R.
Variable knots : list R -> list fl -> result (list R).
Variable ols : list R -> option (list R) -> list (list R) -> fit_result.
Variable boot : seg_fit -> list fl.

(** vcs.py:51-82 [compute_pspec] *)
Definition compute (o : vobj) : vobj := mk_v (Some (vcs_ps1D nz ny nx cube)) (v_low o) (v_high o) (v_fit o) (v_slope o) (v_errs o).

(** vcs.py:188-190, 208-209: self.fit = Lm_Seg(x, y, b), then its fit_model *)
Definition attempt (o : vobj) (x : list R) (y : list fl) (b : fl) : vobj * result seg_fit :=
  match lm_seg_init (map Fin x) y b None with
  | Err e => (o, Err e)
  | Ok s =>
      match fit_model s (ols (seg_y s) (seg_weights s)) true 100 (1 / 1000) 2 10 101 with
      | Some (Ok g) => match get_slopes g with Ok _ => (with_fit o (Some g), Ok g) | Err e => (with_fit o None, Err e) end
      | Some (Err e) => (with_fit o None, Err e)
      | None => (with_fit o None, Err OtherError)
      end
  end.
(** vcs.py:183-201: the loop over the breaks; the break that was kept, if any *)
Fixpoint search_breaks (o : vobj) (x : list R) (y : list fl) (l : list R) : vobj * result (option R) :=
  match l with
  | [] => (o, Ok None)
  | b :: l =>
      match attempt o x y (Fin b) with
      | (o', Err e) => (o', Err e)
      | (o', Ok g) => if Nat.eqb (length (params g)) 5 then (o', Ok (Some b)) else search_breaks o' x y l
      end
  end.
(** vcs.py:150-206: the start of the last fit; an array of one break serves as a number, one of
    several is refused by Lm_Seg *)
Definition start (o : vobj) (x : list R) (y : list fl) (a : vargs) : vobj * result fl :=
  let logged b := if a_log a then Fin b else flog10 (Fin b) in
  match a_breaks a with
  | Some b => (o, Ok (logged b))
  | None =>
      match knots x y with
      | Err e => (o, Err e)
      | Ok ks =>
          match vcs_start x ks with
          | Err e => (o, Err e)
          | Ok bs =>
              match search_breaks o x y bs with
              | (o', Err e) => (o', Err e)
              | (o', Ok (Some b)) => (o', Ok (logged b))
              | (o', Ok None) => match bs with [b] => (o', Ok (logged b)) | _ => (o', Err ValueError) end
              end
          end
      end
  end.
(** vcs.py:122-221 [fit_pspec] *)
Definition limit (given : option quantity) (default : R) : result R := match given with None => Ok default | Some q => to_freq q end.
Definition do_fit (o : vobj) (a : vargs) : outcome :=
  match limit (a_low a) (vcs_low nz None) with
  | Err e => (o, Some e)
  | Ok low =>
      let o := with_low o low in
      match limit (a_high a) (vcs_high nz None) with
      | Err e => (o, Some e)
      | Ok high =>
          let o := with_high o high in
          match v_ps1D o with
          | None => (o, Some AttributeError)
          | Some ps =>
              match vcs_points nz ps (Some low) (Some high) with
              | Err e => (o, Some e)
              | Ok pts =>
                  let x := vcs_x pts in let y := map (fun p => flog10 (snd p)) pts in
                  match start o x y a with
                  | (o, Err e) => (o, Some e)
                  | (o, Ok b) =>
                      match attempt o x y b with
                      | (o, Err e) => (o, Some e)
                      | (o, Ok g) =>
                          match get_slopes g with
                          | Err e => (o, Some e)
                          | Ok (slopes, errs) => (mk_v (v_ps1D o) (v_low o) (v_high o) (v_fit o) (Some slopes) (Some (if a_boot a then removelast (tl (boot g)) else errs)), None)
                          end
                      end
                  end
              end
          end
      end
  end.
(** vcs.py:348-391 [run] *)
Definition run (o : vobj) (a : vargs) : outcome := do_fit (compute o) a.

Inductive call := Compute | Fit (a : vargs) | Run (a : vargs).
Definition do_call (o : vobj) (c : call) : outcome := match c with Compute => (compute o, None) | Fit a => do_fit o a | Run a => run o a end.
Definition history (o : vobj) (l : list call) : vobj := fold_left (fun o c => fst (do_call o c)) l o.
End Vcs.

(** vcs.py:223-249: the properties slope, slope_err, brk, brk_err *)
Definition slope (o : vobj) : result (list fl) := match v_slope o with Some l => Ok l | None => Err AttributeError end.
Definition slope_err (o : vobj) : result (list fl) := match v_errs o with Some l => Ok l | None => Err AttributeError end.
(** the break of an Lm_Seg object whose fit_model raised is left out *)
Definition brk (o : vobj) : result R := match v_fit o with Some (Some g) => Ok (g_brk g) | Some None => Err OtherError | None => Err AttributeError end.
Definition brk_err (o : vobj) : result fl := match v_fit o with Some (Some g) => Ok (g_brk_err g) | _ => Err AttributeError end.

(** ** The kind of errors *)
(** cov_type of a statsmodels fit *)
Inductive cov_type := Nonrobust | HC3.
(** lm_seg.py:72-207: fit_kwargs go to the fit without a break; the fits in the loop and the last
    one are made by fit() *)
Definition fit_model_cov (s : lm_seg) (solver : cov_type -> list (list R) -> fit_result) (asked : cov_type) : option (result seg_fit) :=
  match lm_fit s (solver asked) (add_constant [seg_x s]) with
  | Err e => Some (Err e)
  | Ok init =>
      match search_loop s (solver Nonrobust) true 100 (1 / 1000) 101
              (mk_search (seg_brk s) (Fin 2) (Fin 10) (fsum (map fsqr (f_resid init))) false 0 None) with
      | None => None
      | Some (Err e) => Some (Err e)
      | Some (Ok c) => Some (finish s (solver Nonrobust) init c)
      end
  end.
Definition lm_seg_fit_cov (ols : cov_type -> list R -> option (list R) -> list (list R) -> fit_result) (asked : cov_type) (x y : list fl) (brk : fl) (w : option (list fl)) : result seg_fit :=
  s <- lm_seg_init x y brk w ;;
  match fit_model_cov s (fun c => ols c (seg_y s) (seg_weights s)) asked with Some r => r | None => Err OtherError end.
