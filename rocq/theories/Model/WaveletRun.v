(** Model of the Wavelet objects of turbustat/statistics/wavelets/wavelet_transform.py through
    a history of calls, each of which may raise and leaves what it had set before. *)
From Coq Require Import Reals List ZArith Arith Bool.
From Verif Require Import Lib.PyBase Lib.Fl Lib.RSum Model.Units Model.Psds Model.DeltaVar Model.BaseStat Model.Wavelet Model.FitState Model.DeltaVarRun Model.LmSeg Model.BreakFit.
From Verif Require Model.Distances.
Import ListNotations.
Local Open Scope R_scope.

(** What an object is made from: its units, the image with its shape; half the kernel size
    astropy chooses for a scale; statsmodels (values, weights, columns); the errors of
    residual_bootstrap for a segmented fit and for the slope of a straight line *)
Record wenv := mk_we { e_stat : stat; e_ny : nat; e_nx : nat; e_img : nat -> nat -> fl; e_half : R -> nat;
  e_ols : list R -> option (list R) -> list (list R) -> fit_result; e_boot : LmSeg.seg_fit -> list fl; e_lboot : fit_result -> fl }.
Definition side (e : wenv) : nat := Nat.min (e_ny e) (e_nx e).

(** Attributes: _scales; _values with _stddev; _Wf (the inner None is the attribute None);
    _fit_range in pixels; _brk, _brk_err, _slope and _slope_err (FitState.v); the parameters of
    `fit`; _model (the inner None is a straight line).  The outer None is a missing attribute. *)
Record wobj := mk_w { w_scales : quantity; w_curve : option (list (fl * fl)); w_planes : option (option (list (list R)));
  w_range : option (R * R); w_state : fit_state; w_params : option (list fl); w_model : option (option LmSeg.seg_fit) }.
Definition outcome := (wobj * option exn)%type.

(** wavelet_transform.py:50-73 [__init__] *)
Definition new_wavelet (e : wenv) (scales : option lag_value) (num : nat) : result wobj :=
  match wavelet_scales (e_stat e) (side e) num scales with
  | (Some q, None) => Ok (mk_w q None None None unfitted None None)
  | (_, Some x) => Err x
  | (None, None) => Err OtherError
  end.
(** wavelet_transform.py:82-110, the setter of scales *)
Definition set_scales (e : wenv) (o : wobj) (v : lag_value) : outcome :=
  match BaseStat.set_lags (e_stat e) (side e) (Some (w_scales o)) v with
  | (Some q, x) => (mk_w q (w_curve o) (w_planes o) (w_range o) (w_state o) (w_params o) (w_model o), x)
  | (None, x) => (o, x)
  end.

(** wavelet_transform.py:112-198 [compute_transform].  The setter of the scales has converted
    them to pixels before, so the conversion does not raise here. *)
Definition plane_at (e : wenv) (norm : bool) (an : R) : list R :=
  map (fun p => wavelet_coef (e_ny e) (e_nx e) (wavelet_data (e_img e)) (e_half e an) norm an (fst p) (snd p)) (pixels (e_ny e) (e_nx e)).
Definition compute (e : wenv) (o : wobj) (norm keep : bool) : outcome :=
  match to_pixel (e_stat e) (w_scales o) with
  | Err x => (o, Some x)
  | Ok p =>
      (mk_w (w_scales o) (Some (compute_transform (e_half e) (e_ny e) (e_nx e) (e_img e) norm (q_vals p)))
            (Some (if keep then Some (map (plane_at e norm) (q_vals p)) else None)) (w_range o) (w_state o) (w_params o) (w_model o), None)
  end.

(** Arguments of fit_transform *)
Record wargs := mk_wa { a_xlow : option quantity; a_xhigh : option quantity; a_brk : option quantity; a_min_pts : nat; a_weighted : bool; a_boot : bool }.
(** wavelet_transform.py:246-256: log10 of scale and value, and the weight *)
Definition weight_of (ve : fl * fl) : fl :=
  let err := fdiv (fmul (Fin (434 / 1000)) (snd ve)) (fst ve) in
  if feqb err (Fin 0) then NaN else fdiv (Fin 1) (fsqr err).
Definition fit_points (lo hi : option R) (scales : list R) (curve : list (fl * fl)) : list point :=
  map (fun p => (DeltaVarRun.log10 (fst p), DeltaVar.flog10 (fst (snd p)), weight_of (snd p)))
      (filter (fun p => above_limit lo (fst p) && below_limit hi (fst p)) (combine scales curve)).

(** wavelet_transform.py:341-352: add_constant before the rows with blanks are dropped
    (missing='drop'); no rows at all are refused.  Values are never infinite. *)
Definition used (weighted : bool) (r : point) : bool := is_fin (snd (fst r)) && (negb weighted || is_fin (snd r)).
Definition straight_line (ols : list R -> option (list R) -> list (list R) -> fit_result) (weighted : bool) (pts : list point) : result fit_result :=
  let rows := filter (used weighted) pts in
  match rows with
  | [] => Err ValueError
  | _ =>
      let x := map (fun r => fst (fst r)) rows in
      Ok (ols (fins (map (fun r => snd (fst r)) rows)) (if weighted then Some (fins (map snd rows)) else None)
              (if const_col (map (fun r => fst (fst r)) pts) then [x] else [repeat 1 (length x); x]))
  end.
(** wavelet_transform.py:296-300: the segmented fit, and what is read from it *)
Definition segmented (e : wenv) (weighted : bool) (pts : list point) (b : R) : result (LmSeg.seg_fit * seg_outcome) :=
  let x := map (fun r => Fin (fst (fst r))) pts in
  g <- lm_seg_fit (e_ols e) x (map (fun r => snd (fst r)) pts) (DeltaVar.flog10 (Fin b)) (if weighted then Some (map snd pts) else None) ;;
  out <- read_break (e_boot e) g ;;
  Ok (g, match out with
         | None => Unbroken
         | Some (b, be, slopes, errs, boot, amp) => Broken b be slopes errs boot (length (filter (fun v => fltb v (Fin b)) x))
         end).

(** wavelet_transform.py:338-366, without a break: _brk is None before the line is fitted *)
Definition finish_line (e : wenv) (o : wobj) (a : wargs) (pts : list point) (seg : option seg_outcome) : outcome :=
  let st := w_state o in
  let unbroken := mk_state (Some None) (t_brk_err st) (t_slope st) (t_slope_err st) in
  let left_with params := mk_w (w_scales o) (w_curve o) (w_planes o) (w_range o) unbroken params (w_model o) in
  match straight_line (e_ols e) (a_weighted a) pts with
  | Err x => (left_with (w_params o), Some x)
  | Ok f =>
      match index (f_params f) 1, index (f_bse f) 1 with
      | Ok s, Ok err =>
          (mk_w (w_scales o) (w_curve o) (w_planes o) (w_range o) (fit_step false (a_min_pts a) (a_boot a) (s, if a_boot a then e_lboot e f else err) st seg)
                (Some (f_params f)) (Some None), None)
      | _, _ => (left_with (Some (f_params f)), Some IndexError)
      end
  end.
Definition kept (min_pts : nat) (s : seg_outcome) : bool := match s with Broken _ _ _ _ _ below => negb (Nat.ltb below min_pts) | Unbroken => false end.
(** wavelet_transform.py:241-368 [fit_transform].  If there are not as many values as scales, masks
    of one length index arrays of the other, as in DeltaVarRun.v *)
Definition fit_transform (e : wenv) (o : wobj) (a : wargs) : outcome :=
  match to_pixel (e_stat e) (w_scales o), w_curve o with
  | Err x, _ => (o, Some x)
  | Ok _, None => (o, Some AttributeError)
  | Ok p, Some curve =>
      let scales := q_vals p in
      match in_pixels (e_stat e) (a_xlow a) with
      | Err x => (o, Some x)
      | Ok lo =>
      match in_pixels (e_stat e) (a_xhigh a) with
      | Err x => (o, Some x)
      | Ok hi =>
          let range := fit_range scales lo hi in
          let o := mk_w (w_scales o) (w_curve o) (w_planes o) (Some range) (w_state o) (w_params o) (w_model o) in
          if negb (Nat.eqb (length curve) (length scales)) then
            (o, Some (if eqb (match lo with None => true | _ => false end) (match hi with None => true | _ => false end) then IndexError
                      else if Nat.eqb (length curve) 1 || Nat.eqb (length scales) 1 then IndexError else ValueError))
          else
            let pts := fit_points lo hi scales curve in
            match in_pixels (e_stat e) (a_brk a) with
            | Err x => (o, Some x)
            | Ok None => finish_line e o a pts None
            | Ok (Some b) =>
                if Rltb b (fst range) || Rltb (snd range) b then (o, Some ValueError)
                else
                  match segmented e (a_weighted a) pts b with
                  | Err x => (o, Some x)
                  | Ok (g, s) =>
                      let o := mk_w (w_scales o) (w_curve o) (w_planes o) (w_range o) (w_state o) (Some (g_params g)) (w_model o) in
                      if kept (a_min_pts a) s then
                        (mk_w (w_scales o) (w_curve o) (w_planes o) (w_range o) (fit_step false (a_min_pts a) (a_boot a) (NaN, NaN) (w_state o) (Some s)) (w_params o) (Some (Some g)), None)
                      else finish_line e o a pts (Some s)
                  end
            end
      end
      end
  end.

(** wavelet_transform.py:413-432 [fitted_model] *)
Definition fitted_model (o : wobj) (xs : list R) : result (list R) :=
  match w_model o with
  | None => Err AttributeError
  | Some (Some g) => seg_model g xs
  | Some None =>
      match w_params o with
      | Some (Fin p0 :: Fin p1 :: _) => Ok (map (fun x => p0 + p1 * x) xs)
      | Some [] | Some [_] => Err IndexError
      | _ => Err OtherError
      end
  end.

(** wavelet_transform.py:546-608 [run], without the plot: the planes are not kept *)
Definition also (r : outcome) (k : wobj -> outcome) : outcome := match r with (o, None) => k o | _ => r end.
Definition run (e : wenv) (o : wobj) (norm : bool) (a : wargs) : outcome := also (compute e o norm false) (fun o => fit_transform e o a).

(** Calls a user makes; exceptions are caught by the user, who goes on *)
Inductive call := SetScales (v : lag_value) | Compute (norm keep : bool) | Fit (a : wargs) | Run (norm : bool) (a : wargs).
Definition do_call (e : wenv) (o : wobj) (c : call) : outcome :=
  match c with SetScales v => set_scales e o v | Compute n k => compute e o n k | Fit a => fit_transform e o a | Run n a => run e o n a end.
Definition history (e : wenv) (o : wobj) (l : list call) : wobj := fold_left (fun o c => fst (do_call e o c)) l o.

(** ** Wavelet_Distance *)

(** wavelet_transform.py:643-680, 700-711: two images; [num] is not passed on; the distance of
    the slopes (Distances.v) *)
Definition slopes_of (o : wobj) : list (fl * fl) :=
  match t_slope (w_state o), t_slope_err (w_state o) with Some s, Some er => combine s er | _, _ => [] end.
Definition image_distance (e1 e2 : wenv) (scales : option lag_value) (a1 a2 : wargs) : result (list fl) :=
  o1 <- new_wavelet e1 scales 50 ;;
  match run e1 o1 true a1 with
  | (_, Some x) => Err x
  | (o1, None) =>
      o2 <- new_wavelet e2 scales 50 ;;
      match run e2 o2 true a2 with
      | (_, Some x) => Err x
      | (o2, None) => Distances.slope_distances (slopes_of o1) (slopes_of o2)
      end
  end.
