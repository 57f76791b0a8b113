(** Model of turbustat/statistics/base_pspec2.py: the radial spectrum, the fit of a
    (segmented) line and of the 2D model, and the order in which
    pspec_bispec/pspec.py, vca_vcs/vca.py and mvc/mvc.py call them in run.  Frequencies and
    limits are in 1/pixel (Units.v has the conversion).  A call that raises leaves no object
    in the model. *)
From Coq Require Import String Reals List ZArith Arith Bool.
From Verif Require Import Lib.PyBase Lib.Arr Lib.Fl Lib.RSum Lib.Bins Model.StatsUtils Model.Psds Model.Beam Model.EllipPlaw Model.FitState Model.ScfSpectrum.
Import ListNotations.
Local Open Scope R_scope.

(** What the methods read and write.  None is an attribute that is not set. *)
Record pobj := mk_p {
  o_ps2D : option (list (list fl));
  o_freqs : option (list R);
  o_ps1D : option (list fl);
  o_stddev : option (list fl);
  o_azim : option (nat -> nat -> bool);
  o_low : option R; o_high : option R;
  o_state : fit_state;
  o_amp : option fl;             (* self.fit.params[0] *)
  o_fit2D : option fit2D
}.
Definition new_p : pobj := mk_p None None None None None None None unfitted None None.

(** pspec.py:69-119, vca.py:69-124, mvc.py:115-198: [ps] is the spectrum they compute, see
    Beam.v and Mvc.v *)
Definition do_pspec (o : pobj) (ps : result (list (list fl))) : result pobj :=
  p <- ps ;; Ok (mk_p (Some p) (o_freqs o) (o_ps1D o) (o_stddev o) (o_azim o) (o_low o) (o_high o) (o_state o) (o_amp o) (o_fit2D o)).

(** base_pspec2.py:77-107 [compute_radial_pspec].  The keywords are those of Psds.pspec
    without boot_iter, alpha, mean_func and return_freqs. *)
Definition do_radial (tppf : nat -> fl) (o : pobj) (logspacing : bool) (kw : spec_kwargs) : result pobj :=
  match o_ps2D o with
  | None => Err AttributeError
  | Some ps =>
      out <- pspec tppf ps (k_nbins kw) true (k_binsize kw) logspacing (k_max_bin kw) (k_min_bin kw) true
               (match k_theta_0 kw with Some t => t | None => None end) (k_delta_theta kw) nanmean ;;
      mask <- match k_theta_0 kw, prof_mask out with
              | None, _ => Ok (o_azim o)
              | Some _, Some m => Ok (Some m)
              | Some _, None => Err ValueError
              end ;;
      Ok (mk_p (o_ps2D o) (Some (prof_bins out)) (Some (prof_ps1D out)) (prof_stddev out) mask (o_low o) (o_high o) (o_state o) (o_amp o) (o_fit2D o))
  end.

(** base_pspec2.py:165, 194 and 410: 1 / (0.5 max(shape)) *)
Definition rows_of (ps : list (list fl)) : nat := length ps.
Definition cols_of (ps : list (list fl)) : nat := length (hd [] ps).
Definition default_low (ps : list (list fl)) : R := 1 / (1 / 2 * INR (Nat.max (rows_of ps) (cols_of ps))).
(** fitting_utils.py:312-313 on real numbers *)
Definition clip (low high f : R) : bool := Rltb low f && Rleb f high.

Record fit_args := mk_f { f_unbinned : bool; f_brk : option R; f_log_break : bool; f_low : option R; f_high : option R;
  f_min_pts : nat; f_weighted : bool; f_bootstrap : bool }.
Definition plain_fit : fit_args := mk_f false None false None None 10 false false.

(** base_pspec2.py:157-224: the limits, and the rows (x, y, weight) of the fit; no weights
    are weights of 1 *)
Definition fit_rows (o : pobj) (a : fit_args) : result (R * R * list (fl * fl * fl)) :=
  match o_ps2D o with
  | None => Err AttributeError
  | Some ps =>
      let low := match f_low a with Some r => r | None => default_low ps end in
      if f_unbinned a then
        let ny := rows_of ps in
        let nx := cols_of ps in
        let freq p := freqs_raw ny nx (fst p) (snd p) in
        let high := match f_high a with Some r => r | None => rmax_list (map freq (pixels ny nx)) end in
        if f_weighted a then Err OtherError
        else Ok (low, high, map (fun p => (flog10 (Fin (freq p)), flog10 (at2 NaN ps (fst p) (snd p)), Fin 1))
                              (filter (fun p => clip low high (freq p)) (pixels ny nx)))
      else
        match o_freqs o, o_ps1D o, o_stddev o with
        | Some freqs, Some ps1D, Some sd =>
            let high := match f_high a with Some r => r | None => rmax_list freqs end in
            let weight v s := if f_weighted a
                              then let s := if feqb s (Fin 0) then NaN else s in
                                   fdiv (Fin 1) (fsqr (fdiv (fmul (Fin (434 / 1000)) s) v))
                              else Fin 1 in
            Ok (low, high, map (fun b => let '(f, v, s) := b in (flog10 (Fin f), flog10 v, weight v s))
                             (filter (fun b => clip low high (fst (fst b))) (combine (combine freqs ps1D) sd)))
        | _, _, _ => Err AttributeError
        end
  end.

(** base_pspec2.py:281-300, the straight line.  sm.add_constant fails on an empty array and
    leaves out the constant when every x is the same non-zero number, so that params[1] does
    not exist; infinite x are refused; missing='drop'.  [line] is the solver: intercept and
    slope; [err] the standard error of the slope. *)
Definition same_x (rows : list (fl * fl * fl)) : bool :=
  match rows with
  | [] => false
  | r :: _ => let x0 := fst (fst r) in negb (feqb x0 (Fin 0)) && forallb (fun r => feqb (fst (fst r)) x0) rows
  end.
Definition straight_line (line : list (fl * fl * fl) -> fl * fl) (rows : list (fl * fl * fl)) : result (fl * fl) :=
  let kept := filter row_ok rows in
  if Nat.eqb (length kept) 0 then Err ValueError
  else if negb (forallb (fun r => is_fin (fst (fst r))) kept) then Err ValueError
  else if same_x rows then Err IndexError
  else Ok (line kept).

(** base_pspec2.py:226-300.  [seg rows brk] is Lm_Seg: None when no break is kept (params.size
    is not 5), else log10 of the break, its error, the slopes, their errors, the errors of the
    bootstrap, and the intercept. *)
Definition seg_fit := (R * fl * (fl * fl) * (fl * fl) * list fl * fl)%type.
Definition below_break (b : R) (rows : list (fl * fl * fl)) : nat := length (filter (fun r => fltb (fst (fst r)) (Fin b)) rows).
Definition do_fit (line : list (fl * fl * fl) -> fl * fl) (err : bool -> list (fl * fl * fl) -> fl)
    (seg : list (fl * fl * fl) -> fl -> result (option seg_fit)) (o : pobj) (a : fit_args) : result pobj :=
  lr <- fit_rows o a ;;
  let '(low, high, rows) := lr in
  let finish st amp := mk_p (o_ps2D o) (o_freqs o) (o_ps1D o) (o_stddev o) (o_azim o) (Some low) (Some high) st (Some amp) (o_fit2D o) in
  let straight outcome :=
    l <- straight_line line rows ;;
    Ok (finish (fit_step true (f_min_pts a) (f_bootstrap a) (snd l, err (f_bootstrap a) rows) (o_state o) outcome) (fst l)) in
  match f_brk a with
  | None => straight None
  | Some b =>
      out <- seg rows (if f_log_break a then Fin b else flog10 (Fin b)) ;;
      match out with
      | None => straight (Some Unbroken)
      | Some (b, be, slopes, errs, boot, amp) =>
          let outcome := Some (Broken b be slopes errs boot (below_break b rows)) in
          if Nat.ltb (below_break b rows) (f_min_pts a) then straight outcome
          else Ok (finish (fit_step true (f_min_pts a) (f_bootstrap a) (NaN, NaN) (o_state o) outcome) amp)
      end
  end.

(** base_pspec2.py:406-433: the pixels of the 2D fit *)
Definition pixels_2Dpspec (o : pobj) (ps : list (list fl)) (low high : option R) (use_azimmask : bool) : result (R * R * list (nat * nat)) :=
  let lo := match low with Some r => r | None => default_low ps end in
  hi <- match high, o_freqs o with
        | Some r, _ => Ok r
        | None, Some f => Ok (rmax_list f)
        | None, None => Err AttributeError
        end ;;
  let ny := rows_of ps in
  let nx := cols_of ps in
  let azim p := match o_azim o with Some m => if use_azimmask then m (fst p) (snd p) else true | None => true end in
  let sel := filter (fun p => clip lo hi (freqs_raw ny nx (fst p) (snd p)) && azim p) (pixels ny nx) in
  if Nat.eqb (length sel) 0 then Err ValueError else Ok (lo, hi, sel).

Record fit2D_args := mk_f2 { g_p0 : option params; g_low : option R; g_high : option R; g_levmarq : bool; g_bootstrap : bool;
  g_azim : bool; g_radial : bool; g_fix : bool }.
(** base_pspec2.py:435-449: the start *)
Definition start_2D (o : pobj) (ps : list (list fl)) : params :=
  match t_slope (o_state o), o_amp o with
  | Some (s :: _), Some amp => mkParams (fl_real amp) (Fin 0) (PI / 2) (fl_real s)
  | _, _ => mkParams (fl_real (flog10 (nanmax (concat ps)))) (Fin 0) (PI / 2) (-2)
  end.
(** base_pspec2.py:368-486 [fit_2Dpspec] *)
Definition do_fit2D (solve : list R -> list R -> solver) (perms : list (list nat)) (o : pobj) (g : fit2D_args) : result pobj :=
  match o_ps2D o with
  | None => Err AttributeError
  | Some ps =>
      lhs <- pixels_2Dpspec o ps (g_low g) (g_high g) (g_azim g) ;;
      let '(lo, hi, sel) := lhs in
      let ny := rows_of ps in
      let nx := cols_of ps in
      let xs := map (fun p => at2 0 (xx_freq ny nx) (fst p) (snd p)) sel in
      let ys := map (fun p => at2 0 (yy_freq ny nx) (fst p) (snd p)) sel in
      let p0 := match g_p0 g with Some p => p | None => start_2D o ps end in
      r <- fit_elliptical_powerlaw (solve xs ys) perms (map (fun p => flog10 (at2 NaN ps (fst p) (snd p))) sel) xs ys p0
             (g_levmarq g) (g_bootstrap g) (6827 / 10000) (g_radial g) (g_fix g) ;;
      f <- store_2D r ;;
      Ok (mk_p (o_ps2D o) (o_freqs o) (o_ps1D o) (o_stddev o) (o_azim o) (Some lo) (Some hi) (o_state o) (o_amp o) (Some f))
  end.

(** pspec.py:180-202, vca.py:187-208, mvc.py:276-295: run, with the keywords already matched
    to the methods (PspecKwargs.v) *)
Record prun_args := mk_pr { r_log : bool; r_radial : spec_kwargs; r_fit : fit_args; r_fit_2D : bool; r_2D : fit2D_args }.
Definition do_prun (tppf : nat -> fl) (line : list (fl * fl * fl) -> fl * fl) (err : bool -> list (fl * fl * fl) -> fl)
    (seg : list (fl * fl * fl) -> fl -> result (option seg_fit)) (solve : list R -> list R -> solver) (perms : list (list nat))
    (o : pobj) (ps : result (list (list fl))) (a : prun_args) : result pobj :=
  o <- do_pspec o ps ;;
  o <- do_radial tppf o (r_log a) (r_radial a) ;;
  o <- do_fit line err seg o (r_fit a) ;;
  if r_fit_2D a
  then do_fit2D solve perms o (mk_f2 (g_p0 (r_2D a)) (f_low (r_fit a)) (f_high (r_fit a)) (g_levmarq (r_2D a)) (g_bootstrap (r_2D a)) (g_azim (r_2D a)) (g_radial (r_2D a)) (g_fix (r_2D a)))
  else Ok o.

(** base_pspec2.py:55-56; [_ps2D] has the shape of [ps2D] *)
Definition wavenumbers (o : pobj) : result (list R) :=
  match o_freqs o, o_ps2D o with
  | Some f, Some ps => Ok (map (fun v => v * INR (Nat.min (rows_of ps) (cols_of ps))) f)
  | _, _ => Err AttributeError
  end.
