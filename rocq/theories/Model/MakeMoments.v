(** Model of the class Moments of turbustat/moments/make_moments.py.  [A] is the type of the
    moment maps, [S] that of noise levels. *)
From Coq Require Import String Ascii Reals List Bool Arith.
From Verif Require Import Lib.PyBase Lib.Fl Model.Units.
Import ListNotations.
Local Open Scope string_scope.
Local Open Scope R_scope.

(** make_moments.py:81-100: the scale setter (of a scalar).  A value without a unit is [Some None];
    astropy's UnitsError is UnitConversionError here *)
Definition set_scale (cube_unit : unit_) (value : option (option quantity)) : result (option quantity) :=
  match value with
  | None => Ok None
  | Some None => Err TypeError
  | Some (Some q) =>
      if negb (is_equivalent (q_unit q) cube_unit) then Err UnitConversionError
      else if Rltb (hd 0 (q_vals q)) 0 then Err ValueError
      else Ok (Some q)
  end.
Definition assign_scale (cube_unit : unit_) (old : option quantity) (value : option (option quantity)) : option quantity :=
  match set_scale cube_unit value with Ok s => s | Err _ => old end.

(** make_moments.py:68-69 *)
Definition valid_method (how : string) : bool := String.eqb how "slice" || String.eqb how "cube" || String.eqb how "ray".

Section Class.
Variables (A S : Type).
(** The attributes: None = not set.  A map comes with a flag: it has units. *)
Record moments := mk_moments {
  m_scale : option S; m_how : string; m_save : option string;
  m_mom0 : option (A * bool); m_mom1 : option (A * bool); m_lw : option (A * bool);
  m_err0 : option (A * bool); m_err1 : option (A * bool); m_errl : option (A * bool) }.

(** make_moments.py:119-139 [make_moments]: the new state and the outcome.  [mom0], [mom1]
    and [lw] are spectral-cube's maps.  With units=False the last statement reads the
    attribute _moment2, which is never set. *)
Definition make_moments (mom0 mom1 lw : A) (units : bool) (st : moments) : moments * result unit :=
  let st := mk_moments (m_scale st) (m_how st) (m_save st) (Some (mom0, units)) (Some (mom1, units)) (Some (lw, true)) (m_err0 st) (m_err1 st) (m_errl st) in
  (st, if units then Ok tt else Err AttributeError).

(** make_moments.py:141-176 [make_moment_errors].  [zeros] are maps of zeros, [err0], [err1],
    [errl] the functions of _moment_errs.py for a noise level, with how = moment_how *)
Definition make_moment_errors (zeros : A * A * A) (err0 err1 errl : string -> S -> result A) (st : moments) (scale : option S) : moments * result unit :=
  match m_mom0 st with
  | None => (st, Err ValueError)
  | Some _ =>
      match m_scale st, scale with
      | None, None =>
          let '(z0, z1, zl) := zeros in
          (mk_moments (m_scale st) (m_how st) (m_save st) (m_mom0 st) (m_mom1 st) (m_lw st) (Some (z0, true)) (Some (z1, true)) (Some (zl, true)), Ok tt)
      | Some s, _ =>
          match err0 (m_how st) s with
          | Err e => (st, Err e)
          | Ok e0 =>
              let st := mk_moments (m_scale st) (m_how st) (m_save st) (m_mom0 st) (m_mom1 st) (m_lw st) (Some (e0, true)) (m_err1 st) (m_errl st) in
              match err1 (m_how st) s with
              | Err e => (st, Err e)
              | Ok e1 =>
                  let st := mk_moments (m_scale st) (m_how st) (m_save st) (m_mom0 st) (m_mom1 st) (m_lw st) (m_err0 st) (Some (e1, true)) (m_errl st) in
                  match errl (m_how st) s with
                  | Err e => (st, Err e)
                  | Ok el => (mk_moments (m_scale st) (m_how st) (m_save st) (m_mom0 st) (m_mom1 st) (m_lw st) (m_err0 st) (m_err1 st) (Some (el, true)), Ok tt)
                  end
              end
          end
      | None, Some _ => (st, Ok tt)
      end
  end.

(** make_moments.py:178-206: the properties moment0_err, ..., all_moments, all_moment_errs *)
Definition attr {B} (x : option B) : result B := match x with Some v => Ok v | None => Err AttributeError end.
Definition all_moments (st : moments) : result (list A) :=
  a <- attr (m_mom0 st) ;; b <- attr (m_mom1 st) ;; c <- attr (m_lw st) ;; Ok [fst a; fst b; fst c].
Definition all_moment_errs (st : moments) : result (list A) :=
  a <- attr (m_err0 st) ;; b <- attr (m_err1 st) ;; c <- attr (m_errl st) ;; Ok [fst a; fst b; fst c].

(** A directory of FITS files, each with two arrays *)
Definition files : Type := string -> option (A * A).
(** HDUList.writeto *)
Definition write (overwrite : bool) (fs : files) (name : string) (v : A * A) : result files :=
  match fs name with
  | Some _ => if overwrite then Ok (fun n => if String.eqb n name then Some v else fs n) else Err OtherError
  | None => Ok (fun n => if String.eqb n name then Some v else fs n)
  end.
(** make_moments.py:302-341 [to_fits]; returns the new save_name *)
Definition to_fits (st : moments) (save_name : option string) (overwrite : bool) (fs : files) : result (files * string) :=
  let name := match save_name with Some n => n | None => match m_save st with Some n => n | None => "default" end end in
  ms <- all_moments st ;;
  es <- all_moment_errs st ;;
  match ms, es with
  | [m0; m1; ml], [e0; e1; el] =>
      fs <- write overwrite fs (name ++ "_moment0.fits") (m0, e0) ;;
      fs <- write overwrite fs (name ++ "_centroid.fits") (m1, e1) ;;
      fs <- write overwrite fs (name ++ "_linewidth.fits") (ml, el) ;;
      Ok (fs, name)
  | _, _ => Err IndexError
  end.

(** str operations: c in s, ".".join(s.split(".")[:-1]), os.path.basename, s[:-5], os.path.join *)
Fixpoint has (c : ascii) (s : string) : bool := match s with EmptyString => false | String x r => Ascii.eqb x c || has c r end.
Fixpoint drop_ext (s : string) : string := match s with EmptyString => "" | String x r => if has "."%char r then String x (drop_ext r) else "" end.
Fixpoint basename (s : string) : string := match s with EmptyString => "" | String x r => if has "/"%char r then basename r else if Ascii.eqb x "/"%char then r else s end.
Definition cut5 (s : string) : string := substring 0 (String.length s - 5) s.
Fixpoint ends_slash (s : string) : bool := match s with EmptyString => true | String x EmptyString => Ascii.eqb x "/"%char | String _ r => ends_slash r end.
Definition join (path name : string) : string :=
  if prefix "/" name then name else if ends_slash path then path ++ name else path ++ "/" ++ name.

(** make_moments.py:60-66: save_name of a cube read from a file *)
Definition default_save (cube : option string) : option string := option_map drop_ext cube.

(** make_moments.py:343-450 [from_fits].  [cube] is the name of the file,
    None for a SpectralCube; with a mask the missing method with_mask is called *)
Definition load (fs : files) (name : string) : option A * option A :=
  match fs name with Some (m, e) => (Some m, Some e) | None => (None, None) end.
Definition from_fits (fs : files) (cube : option string) (pre path mask moment0 centroid linewidth : option string)
  : result ((option A * option A) * (option A * option A) * (option A * option A)) :=
  let path := match path with None => "" | Some p => p end in
  let root := match cube with Some n => Some (basename (cut5 n)) | None => pre end in
  match mask with Some _ => Err AttributeError | None =>
    let file given suffix := match given with
                             | Some n => Ok n
                             | None => match root with Some r => Ok (join path (r ++ suffix)) | None => Err TypeError end
                             end in
    n0 <- file moment0 "_moment0.fits" ;;
    n1 <- file centroid "_centroid.fits" ;;
    nl <- file linewidth "_linewidth.fits" ;;
    Ok (load fs n0, load fs n1, load fs nl)
  end.
End Class.

(** make_moments.py:270-300 [get_prop_hdrs]: BUNIT of the header of the i-th map, as exponents
    of the units of the cube and of the spectral axis *)
Definition header_units (cube_unit spectral : nat * nat) : list (nat * nat) :=
  [cube_unit; spectral; spectral; (fst cube_unit + fst spectral, snd cube_unit + snd spectral)%nat].

(** make_moments.py:480-495 [gauss_kern], for size > 0 (for 0 the code divides by 0; offsets from -size to size along each axis; a size
    that is not given, or 0, is that of the first axis) *)
Definition kern_size (size : nat) (given : option nat) : nat := match given with None | Some O => size | Some n => n end.
Definition offset (size i : nat) : R := INR i - INR size.
Definition gauss (size ysize zsize : nat) (i j k : nat) : R :=
  exp (- (offset size i ^ 2 / INR size + offset ysize j ^ 2 / INR ysize + offset zsize k ^ 2 / INR zsize)).
Definition gauss_list (size ysize zsize : nat) : list R :=
  map (fun t => gauss size ysize zsize (fst (fst t)) (snd (fst t)) (snd t))
    (list_prod (list_prod (seq 0 (2 * size + 1)) (seq 0 (2 * ysize + 1))) (seq 0 (2 * zsize + 1))).
Definition gauss_kern (size : nat) (y z : option nat) : nat -> nat -> nat -> R :=
  let ysize := kern_size size y in let zsize := kern_size size z in
  fun i j k => gauss size ysize zsize i j k / fold_right Rplus 0 (gauss_list size ysize zsize).
