(** Model of turbustat/statistics/pca/pca.py: autocorrelations of the eigenvectors, spectral
    widths, the size-line width fit and the sonic length; and of the errors of the spatial
    widths in pca/width_estimate.py. *)
From Coq Require Import String Reals List ZArith Arith Bool.
From Coquelicot Require Import Complex.
From Coq Require Import List.
From Verif Require Import Lib.PyBase Lib.Fl Lib.RSum Lib.Arr Lib.DFT Lib.DFT2 Model.Units Model.BaseStat Model.Pca Model.EllipPlaw.
Import ListNotations.
Local Open Scope R_scope.

(** ** Spectral widths *)

(** pca.py:306-308, one component with n channels *)
Definition autocorr_vector (n : nat) (vec : nat -> R) : list R :=
  let fftx := dft1 n (fun j => RtoC (vec j)) in
  let fftxs k := Cconj (fftx k) in
  let mean (X : nat -> C) := Cmult (RtoC (/ INR n)) (csum n X) in
  let acor := idft1 n (fun k => Cmult (Cminus (fftx k) (mean fftx)) (Cminus (fftxs k) (mean fftxs))) in
  tab1 n (fun j => fst (acor j)).

(** pca.py:286-314 [autocorr_spec]: one vector per component ([eigvecs channel idx]).  The
    range of a number that is not positive is empty, so acors is unbound; swapaxes of the
    one-dimensional array of a single component raises AxisError, a ValueError. *)
Definition autocorr_spec (nz : nat) (eigvecs : nat -> nat -> R) (n_eigs : Z) : result (list (list R)) :=
  if (n_eigs <=? 0)%Z then Err UnboundLocalError
  else if (Z.of_nat nz <? n_eigs)%Z then Err IndexError
  else if (n_eigs =? 1)%Z then Err ValueError
  else Ok (map (fun idx => autocorr_vector nz (fun channel => eigvecs channel idx)) (seq 0 (Z.to_nat n_eigs))).

(** pca.py:420-441 [find_spectral_widths] with method='walk-down': width and error of each
    component *)
Definition find_spectral_widths (nz : nat) (eigvecs : nat -> nat -> R) (n_eigs : Z) : result (list (fl * fl)) :=
  acors <- autocorr_spec nz eigvecs n_eigs ;; Ok (map (fun y => snd (walk_down y)) acors).

(** ** Errors of the spatial widths *)

(** width_estimate.py:245-268: the two axis widths with their errors, after the beam
    correction with kappa = 1, where np.power(_, 0) is 1; the combined width and error *)
Definition combine_widths (term2 y_scale x_scale y_err x_err : fl) : fl * fl :=
  let y_err := fmul (fabs (fmul (Fin 1) (Fin 1))) y_err in
  let x_err := fmul (fabs (fmul (Fin 1) (Fin 1))) x_err in
  let y := fsub y_scale term2 in
  let x := fsub x_scale term2 in
  let scale := fsqrt (fadd (fsqr y) (fsqr x)) in
  (scale, fdiv (fsqrt (fadd (fsqr (fmul x x_err)) (fsqr (fmul y y_err)))) scale).

(** ** The fit *)

(** Widths of one component *)
Record width_row := mk_row { w_spat : fl; w_spat_err : fl; w_spec : fl; w_spec_err : fl }.

(** pca.py:513-541: a limit (None: not given) as a number of pixels.  Only scalars: an array
    would be compared element by element (here ValueError). *)
Definition limit_pixels (s : stat) (v : option lag_value) : result (option R) :=
  match v with
  | None => Ok None
  | Some NotQuantity => Err TypeError
  | Some (LagQuantity q) => p <- to_pixel s q ;; match q_vals p with [r] => Ok (Some r) | _ => Err ValueError end
  end.

(** pca.py:523, 537: comparisons of the logarithms *)
Definition within (lo hi : option R) (r : width_row) : bool :=
  let x := flog10 (w_spat r) in
  match lo with Some l => fleb (flog10 (Fin l)) x | None => true end &&
  match hi with Some h => fleb x (flog10 (Fin h)) | None => true end.

(** pca.py:543-571: the components that are fitted *)
Definition all_finite (r : width_row) : bool := is_fin (w_spec r) && is_fin (w_spat r) && is_fin (w_spat_err r) && is_fin (w_spec_err r).
Definition fit_rows (lo hi : option R) (rows : list width_row) : result (list width_row) :=
  if negb (existsb (within lo hi) rows) then Err ValueError
  else
    let pts := filter (fun r => within lo hi r && all_finite r) rows in
    if Nat.ltb (length pts) 2 then Err OtherError else Ok pts.

(** What a fit leaves: index, intercept (in channels) and their ranges *)
Record fitted := mk_fitted { f_index : R; f_index_range : R * R; f_intercept : R; f_intercept_range : R * R }.

(** pca.py:574-590, from the parameters and errors of the straight line *)
Definition odr_fitted (slope icept slope_err icept_err : R) : fitted :=
  mk_fitted slope (slope - slope_err, slope + slope_err)
            (Rpower 10 icept) (Rpower 10 (icept - icept_err), Rpower 10 (icept + icept_err)).

(** fitting_utils.py:180-193, 268-269 [bayes_linear] after the sampler: [chain] are the angles and intercepts
    it visited, conf_interval the two percentiles; np.median is the 50th percentile.
    pca.py:579-590 *)
Definition bayes_samples (chain : list (R * R)) : list (R * R) := map (fun p => (tan (fst p), snd p)) chain.
Definition bayes_fitted (conf : R * R) (samps : list (R * R)) : fitted :=
  let slopes := sort_r (map fst samps) in
  let icepts := sort_r (map snd samps) in
  mk_fitted (percentile slopes 50) (percentile slopes (fst conf), percentile slopes (snd conf))
            (Rpower 10 (percentile icepts 50)) (Rpower 10 (percentile icepts (fst conf)), Rpower 10 (percentile icepts (snd conf))).

(** Attributes _fit_method, _xlow, _xhigh, the fit, and _samps (slope and intercept of every
    sample); None: not set *)
Record pca_state := mk_pst { p_method : option string; p_xlow : option fl; p_xhigh : option fl; p_fit : option fitted; p_samps : option (list (R * R)) }.
Definition unfit : pca_state := mk_pst None None None None None.
Record fit_call := mk_call { c_method : string; c_xlow : option lag_value; c_xhigh : option lag_value }.

(** pca.py:472-590 [fit_plaw].  [odr] and [bayes] are the two fits of the selected
    components. *)
Definition fit_plaw (s : stat) (rows : list width_row) (odr : list width_row -> fitted) (bayes : list width_row -> fitted * list (R * R))
    (st : pca_state) (c : fit_call) : pca_state * option exn :=
  if negb (String.eqb (c_method c) "odr") && negb (String.eqb (c_method c) "bayes") then (st, Some TypeError)
  else
    let st := mk_pst (Some (c_method c)) (p_xlow st) (p_xhigh st) (p_fit st) (p_samps st) in
    match limit_pixels s (c_xlow c) with
    | Err e => (st, Some e)
    | Ok lo =>
        let xlow := match lo with Some l => Fin l | None => nanmin (map w_spat rows) end in
        let st := mk_pst (p_method st) (Some xlow) (p_xhigh st) (p_fit st) (p_samps st) in
        match limit_pixels s (c_xhigh c) with
        | Err e => (st, Some e)
        | Ok hi =>
            let xhigh := match hi with Some h => Fin h | None => nanmax (map w_spat rows) end in
            let st := mk_pst (p_method st) (p_xlow st) (Some xhigh) (p_fit st) (p_samps st) in
            match fit_rows lo hi rows with
            | Err e => (st, Some e)
            | Ok pts =>
                if String.eqb (c_method c) "odr" then (mk_pst (p_method st) (p_xlow st) (p_xhigh st) (Some (odr pts)) (p_samps st), None)
                else (mk_pst (p_method st) (p_xlow st) (p_xhigh st) (Some (fst (bayes pts))) (Some (snd (bayes pts))), None)
            end
        end
    end.
Fixpoint fit_all (s : stat) (rows : list width_row) odr bayes (st : pca_state) (l : list fit_call) : pca_state :=
  match l with [] => st | c :: l => fit_all s rows odr bayes (fst (fit_plaw s rows odr bayes st c)) l end.

(** ** gamma *)

(** pca.py:1220-1248 *)
Definition brunt_index_correct (alpha : R) : R := 152 / 100 * alpha - 19 / 100.
(** pca.py:1251-1257 *)
Definition brunt_index_correct_range (alpha_low alpha_up : R) : R * R :=
  ((152 / 100 - 18 / 100) * alpha_low - (19 / 100 + 2 / 10), (152 / 100 + 18 / 100) * alpha_up - (19 / 100 - 2 / 10)).

(** ** Sonic length *)

(** pca.py:695: the sound speed in m/s, for a temperature in K and the two constants *)
Definition sound_speed (k_B m_p T_k mu : R) : R := sqrt (k_B * T_k / (mu * m_p)).
(** pca.py:697: in channels of width [w] (m/s) *)
Definition sound_channels (c_s w : R) : R := c_s / Rabs w.

(** pca.py:699-704 *)
Definition used_index (use_gamma : bool) (f : fitted) : R := if use_gamma then brunt_index_correct (f_index f) else f_index f.
Definition used_range (use_gamma : bool) (f : fitted) : R * R :=
  if use_gamma then brunt_index_correct_range (fst (f_index_range f)) (snd (f_index_range f)) else f_index_range f.

(** pca.py:706, for positive numbers and an index that is not 0 *)
Definition sonic_value (c_s : R) (use_gamma : bool) (f : fitted) : R := Rpower (c_s / f_intercept f) (1 / used_index use_gamma f).
(** pca.py:708-721, fit_method='odr' *)
Definition sonic_range_odr (c_s : R) (use_gamma : bool) (f : fitted) : R * R :=
  let index := used_index use_gamma f in
  let lambd := sonic_value c_s use_gamma f in
  let index_err := Rabs (index - fst (used_range use_gamma f)) in
  let intercept_err := 434 / 1000 * Rabs (f_intercept f - fst (f_intercept_range f)) / f_intercept f in
  let term1 := log10 (c_s / f_intercept f) * (index_err / index) in
  let term2 := intercept_err / f_intercept f in
  let lambd_error := (lambd / index) * sqrt (term1 ^ 2 + term2 ^ 2) in
  (lambd - lambd_error, lambd + lambd_error).
(** pca.py:722-736, fit_method='bayes': the slopes of the samples (corrected or not) are not
    used *)
Definition sonic_range_bayes (c_s : R) (use_gamma : bool) (f : fitted) (samps : list (R * R)) : R * R :=
  let index := used_index use_gamma f in
  let all_lambds := map (fun sm => Rpower (c_s / Rpower 10 (snd sm)) (1 / index)) samps in
  (percentile (sort_r all_lambds) 15, percentile (sort_r all_lambds) 85).
(** pca.py:653-742 [sonic_length] in pixels.  An attribute that is not set raises
    AttributeError. *)
Definition sonic_length (st : pca_state) (c_s : R) (use_gamma : bool) : result (R * (R * R)) :=
  match p_fit st, p_method st with
  | Some f, Some m =>
      if String.eqb m "odr" then Ok (sonic_value c_s use_gamma f, sonic_range_odr c_s use_gamma f)
      else match p_samps st with
           | Some samps => Ok (sonic_value c_s use_gamma f, sonic_range_bayes c_s use_gamma f samps)
           | None => Err AttributeError
           end
  | _, _ => Err AttributeError
  end.

(** ** model *)

(** A value, or a bound method *)
Inductive attribute := ANumber (v : R) | AMethod.
(** np.log10 of a method is a TypeError *)
Definition np_log10 (a : attribute) : result R := match a with ANumber v => Ok (log10 v) | AMethod => Err TypeError end.
(** pca.py:647-651; self.intercept is a method *)
Definition model (f : fitted) (x : R) : result R := l <- np_log10 AMethod ;; Ok (f_index f * x + l).
