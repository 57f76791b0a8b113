(** Model of turbustat/statistics/vca_vcs/slice_thickness.py. *)
From Coq Require Import Reals List ZArith Bool String.
From Verif Require Import Lib.PyBase Lib.RSum Lib.Fl Model.StatsUtils Model.Scf Model.DeltaVar.
Import ListNotations.
Local Open Scope R_scope.

(** A SpectralCube seen from here: its spectral axis (numbers in the axis' unit), that
    unit as a multiple of a common one (m/s, say), its allow_huge_operations flag. *)
Record sc_cube := mk_cube { spectral_axis : list R; axis_unit : R; huge : bool }.

(** The channel width: an int, a Quantity in pixels, in a unit equivalent to that of
    the spectral axis (number, unit as above), in any other unit; or something else *)
Inductive width := WInt (n : Z) | WPix (v : R) | WSpec (v unit_ : R) | WUnit (v : R) | WOther.

(** What is returned: the cube itself; cube.downsample_axis(factor, axis=0) with the
    estimator of that call; the cube smoothed with a Gaussian1DKernel of the given stddev
    and interpolated to a new axis *)
Inductive estimator := NanMean | Custom (f : list fl -> fl).
Inductive regridded := SameCube | Downsampled (factor : Z) (e : estimator) | Regridded (stddev : R) (new_axis : list R).

(** np.diff(cube.spectral_axis[:2])[0] *)
Definition channel_step (c : sc_cube) : result R :=
  match spectral_axis c with a :: b :: _ => Ok (b - a) | _ => Err IndexError end.

(** slice_thickness.py:93-117.  [channel_width / orig_width] keeps both units: np.ceil
    of the quotient and [.value] see the number only. *)
Definition downsample (c : sc_cube) (w : width) (f : estimator) : result regridded :=
  factor <- match w with
            | WInt n => Ok n
            | WOther => Err TypeError
            | WPix v => step <- channel_step c ;; Ok (np_ceil v)
            | WSpec v _ => step <- channel_step c ;; Ok (np_ceil (v / Rabs step))
            | WUnit _ => step <- channel_step c ;; Err UnitConversionError
            end ;;
  Ok (Downsampled factor NanMean).

(** slice_thickness.py:119-172 *)
Definition regrid (c : sc_cube) (w : width) : result regridded :=
  match w with
  | WInt _ | WOther => Err TypeError
  | _ =>
      current <- channel_step c ;;
      target <- match w with
                | WPix v => Ok (v * current)
                | WSpec v s => Ok (v * (s / axis_unit c))
                | _ => Err UnitConversionError
                end ;;
      let diff_factor := Rabs (target / current) in
      if Reqb diff_factor 1 then Ok SameCube
      else if Rltb diff_factor 1 then Err ValueError
      else
        let gaussian_width := sqrt (target ^ 2 - current ^ 2) / Rabs current / sqrt (8 * ln 2) in
        let num_chan := Z.to_nat (Int_part (INR (List.length (spectral_axis c)) / diff_factor)) in
        let new_axis := linspace (rmin_list (spectral_axis c)) (rmax_list (spectral_axis c)) num_chan in
        Ok (Regridded gaussian_width (if Rltb current 0 then rev new_axis else new_axis))
  end.

(** slice_thickness.py:21-172: the flag of the caller's cube afterwards, and the
    result.  [None] is something else than a SpectralCube.  spectral-cube is
    installed. *)
Definition spectral_regrid_cube (cube : option sc_cube) (w : width) (method : string) (downsamp_function : estimator) (allow_huge : bool)
    : option sc_cube * result regridded :=
  match cube with
  | None => (None, Err TypeError)
  | Some c =>
      if negb (String.eqb method "regrid" || String.eqb method "downsample") then (Some c, Err ValueError)
      else
        let c := mk_cube (spectral_axis c) (axis_unit c) allow_huge in
        (Some c, if String.eqb method "downsample" then downsample c w downsamp_function else regrid c w)
  end.

(** spectral-cube's downsample_axis(factor, axis=0) on one spectrum, for factors of at least
    1 (trusted): blocks of [factor] channels, the last one filled up with blanks *)
Fixpoint blocks (fuel : nat) (factor : nat) (l : list fl) : list (list fl) :=
  match fuel, l with
  | _, [] => []
  | O, _ => []
  | S fuel, _ => firstn factor l :: blocks fuel factor (skipn factor l)
  end.
Definition downsample_axis (factor : nat) (e : estimator) (spectrum : list fl) : list fl :=
  map (match e with NanMean => nanmean | Custom f => f end) (blocks (List.length spectrum) factor spectrum).
