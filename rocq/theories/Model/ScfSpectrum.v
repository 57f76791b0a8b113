(** Model of turbustat/statistics/scf/scf.py: the lags, the spectrum, its power-law fit, the
    2D fit, and run.  Lags and limits are in pixels (the conversion of units is in Units.v).
    A call that raises leaves no object in the model. *)
From Coq Require Import String Reals List ZArith Arith Bool.
From Verif Require Import Lib.PyBase Lib.Arr Lib.Fl Lib.RSum Lib.Bins Model.StatsUtils Model.Psds Model.Scf Model.EllipPlaw.
Import ListNotations.
Local Open Scope R_scope.

(** What the methods of an SCF object read and write.  None is an attribute that is not set
    (for the surface: None). *)
Record scf_obj := mk_scf {
  s_nz : nat; s_ny : nat; s_nx : nat; s_cube : nat -> nat -> nat -> fl;
  s_roll_lags : list R;
  s_surface : option (list (list fl));
  s_lags : option (list R);
  s_spectrum : option (list fl);
  s_stddev : option (list fl);
  s_azim_mask : option (nat -> nat -> bool);
  s_fit : option (fl * fl);
  s_fit2D : option fit2D
}.

(** scf.py:66-86, the lags given (numbers of pixels) or built from the size *)
Definition init_lags (roll_lags : option (list R)) (size : nat) : list R :=
  match roll_lags with
  | None => default_lags size
  | Some l => if Nat.even (length l) then removelast l else l
  end.
(** scf.py:57-96 *)
Definition new_scf (nz ny nx : nat) (cube : nat -> nat -> nat -> fl) (roll_lags : option (list R)) (size : nat) : scf_obj :=
  mk_scf nz ny nx cube (init_lags roll_lags size) None None None None None None None.

Definition set_surface (o : scf_obj) (s : list (list fl)) : scf_obj :=
  mk_scf (s_nz o) (s_ny o) (s_nx o) (s_cube o) (s_roll_lags o) (Some s) (s_lags o) (s_spectrum o) (s_stddev o) (s_azim_mask o) (s_fit o) (s_fit2D o).
(** scf.py:151-243 on the object *)
Definition do_surface (o : scf_obj) (boundary : string) : result scf_obj :=
  s <- compute_surface (s_nz o) (s_ny o) (s_nx o) (s_cube o) (s_roll_lags o) boundary ;; Ok (set_surface o s).

(** The keyword arguments of compute_spectrum.  [k_theta_0]: not given, given as None, or given. *)
Record spec_kwargs := mk_kw { k_nbins : option nat; k_binsize : R; k_max_bin : option R; k_min_bin : option R;
  k_theta_0 : option (option R); k_delta_theta : option R }.
Definition no_kwargs : spec_kwargs := mk_kw None 1 None None None None.

(** scf.py:245-290 *)
Definition do_spectrum (tppf : nat -> fl) (o : scf_obj) (kw : spec_kwargs) : result scf_obj :=
  o <- match s_surface o with None => do_surface o "continuous" | Some _ => Ok o end ;;
  match s_surface o with
  | None => Err TypeError
  | Some surface =>
      out <- pspec tppf surface (k_nbins kw) true (k_binsize kw) false (k_max_bin kw) (k_min_bin kw) false
               (match k_theta_0 kw with Some t => t | None => None end) (k_delta_theta kw) nanmean ;;
      mask <- match k_theta_0 kw, prof_mask out with
              | None, _ => Ok (s_azim_mask o)
              | Some _, Some m => Ok (Some m)
              | Some _, None => Err ValueError
              end ;;
      match s_roll_lags o with
      | a :: b :: _ =>
          Ok (mk_scf (s_nz o) (s_ny o) (s_nx o) (s_cube o) (s_roll_lags o) (s_surface o)
                (Some (map (fun l => l * Rabs (b - a)) (prof_bins out))) (Some (prof_ps1D out)) (prof_stddev out) mask (s_fit o) (s_fit2D o))
      | _ => Err IndexError
      end
  end.

(** A limit: not given, a Quantity, or something else. *)
Inductive limit := NoLimit | Limit (r : R) | NotQuantity.

(** scf.py:311-342: log10 of the lags, the limits *)
Definition lower_ok (xlow : limit) (x : fl) : bool := match xlow with Limit r => fleb (flog10 (Fin r)) x | _ => true end.
Definition upper_ok (xhigh : limit) (x : fl) : bool := match xhigh with Limit r => fleb x (flog10 (Fin r)) | _ => true end.

(** scf.py:344-365 with WLS(missing='drop'): rows (x, y, weight) without a NaN.  [wls] is the
    solver: intercept and slope. *)
Definition row_ok (r : fl * fl * fl) : bool := let '(x, y, w) := r in negb (is_nan x || is_nan y || is_nan w).
Definition do_fit (wls : list (fl * fl * fl) -> fl * fl) (o : scf_obj) (xlow xhigh : limit) : result scf_obj :=
  match s_lags o, s_spectrum o, s_stddev o with
  | Some lags, Some spec, Some sd =>
      match xlow, xhigh with
      | NotQuantity, _ | _, NotQuantity => Err TypeError
      | _, _ =>
          let rows := combine (combine (map (fun l => flog10 (Fin l)) lags) (map flog10 spec)) (map (fun s => fdiv (Fin 1) (fsqr s)) sd) in
          let within := filter (fun r => let x := fst (fst r) in lower_ok xlow x && upper_ok xhigh x) rows in
          if Nat.eqb (length within) 0 then Err ValueError
          else Ok (mk_scf (s_nz o) (s_ny o) (s_nx o) (s_cube o) (s_roll_lags o) (s_surface o) (s_lags o) (s_spectrum o) (s_stddev o) (s_azim_mask o)
                     (Some (wls (filter row_ok within))) (s_fit2D o))
      end
  | _, _, _ => Err AttributeError
  end.
(** scf.py:405-429 *)
Definition fitted_model (fit : R * R) (x : R) : R := Rpower 10 (fst fit + snd fit * log10 x).

(** scf.py:458-487: the pixels of the surface that are fitted *)
Definition rmin_abs (l : list R) : R := rmin_list (map Rabs l).
Definition rmax_abs (l : list R) : R := rmax_list (map Rabs l).
Definition pixels_2D (o : scf_obj) (surface : list (list fl)) (lags : list R) (xlow xhigh : option R) (use_azimmask : bool)
    : result (list (nat * nat)) :=
  match lags with
  | l0 :: l1 :: _ =>
      let pix_lag_diff := l1 - l0 in
      let low := match xlow with Some r => r | None => rmin_abs lags end in
      let high := match xhigh with Some r => r | None => rmax_abs lags end in
      let ny := length surface in
      let nx := length (hd [] surface) in
      let inside p := let d := dists ny nx (ny - 1 - fst p) (snd p) * pix_lag_diff in Rltb low d && Rleb d high in
      let azim p := match s_azim_mask o with Some m => if use_azimmask then m (fst p) (snd p) else true | None => true end in
      let sel := filter (fun p => inside p && azim p) (pixels ny nx) in
      if Nat.eqb (length sel) 0 then Err ValueError else Ok sel
  | _ => Err IndexError
  end.

(** scf.py:489-522.  The 1D fit, if there is one, gives the start. *)
Definition fl_real (v : fl) : R := match v with Fin r => r | _ => 0 end.
Definition do_fit2D (solve : list R -> list R -> solver) (perms : list (list nat)) (o : scf_obj) (p0 : option params)
    (xlow xhigh : option R) (levmarq bootstrap use_azimmask : bool) : result scf_obj :=
  match s_lags o, s_surface o with
  | Some lags, Some surface =>
      sel <- pixels_2D o surface lags xlow xhigh use_azimmask ;;
      let ny := length surface in
      let nx := length (hd [] surface) in
      let xs := map (fun p => radial_x nx (snd p)) sel in
      let ys := map (fun p => radial_y ny (ny - 1 - fst p)) sel in
      let p0 := match p0, s_fit o with
                | Some p, _ => p
                | None, Some (a, b) => mkParams (fl_real a) (Fin 0) (PI / 2) (fl_real b)
                | None, None => mkParams 1 (Fin 0) (PI / 2) (- (2 / 10))
                end in
      r <- fit_elliptical_powerlaw (solve xs ys) perms (map (fun p => flog10 (at2 NaN surface (fst p) (snd p))) sel) xs ys p0 levmarq bootstrap (6827 / 10000) false false ;;
      f <- store_2D r ;;
      Ok (mk_scf (s_nz o) (s_ny o) (s_nx o) (s_cube o) (s_roll_lags o) (s_surface o) (s_lags o) (s_spectrum o) (s_stddev o) (s_azim_mask o) (s_fit o) (Some f))
  | _, _ => Err AttributeError
  end.

(** scf.py:787-800 *)
Definition lim (l : limit) : option R := match l with Limit r => Some r | _ => None end.
Record run_args := mk_run { a_boundary : string; a_xlow : limit; a_xhigh : limit; a_spec : spec_kwargs; a_fit_2D : bool;
  a_p0 : option params; a_levmarq : bool; a_bootstrap : bool; a_use_azimmask : bool }.
Definition do_run (tppf : nat -> fl) (wls : list (fl * fl * fl) -> fl * fl) (solve : list R -> list R -> solver) (perms : list (list nat))
    (o : scf_obj) (a : run_args) : result scf_obj :=
  o <- do_surface o (a_boundary a) ;;
  o <- do_spectrum tppf o (a_spec a) ;;
  o <- do_fit wls o (a_xlow a) (a_xhigh a) ;;
  if a_fit_2D a
  then do_fit2D solve perms o (a_p0 a) (lim (a_xlow a)) (lim (a_xhigh a)) (a_levmarq a) (a_bootstrap a) (a_use_azimmask a)
  else Ok o.
