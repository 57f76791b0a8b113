(** Model of a Moments object (turbustat/moments/make_moments.py) through histories of calls.
    [C] is the type of the cubes, [K] that of the masks, [A] that of images without units.
    spectral-cube's moments and the functions of _moment_errs.py are variables: what is
    modelled is which cube, axis, noise level and maps each of them is given, and what the
    object keeps. *)
From Coq Require Import String Reals List Bool Arith.
From Verif Require Import Lib.PyBase.
Import ListNotations.
Local Open Scope string_scope.

(** The units of a first moment: those of the spectral axis, of an axis on the sky, or none *)
Inductive units := Spectral | Angular | Bare.

Section Object.
Variables (C K A : Type).
(** cube.with_mask *)
Variable with_mask : C -> K -> result C.
(** cube.moment0, cube.moment1 (axis, how) and cube.linewidth_sigma (how; always along the
    spectral axis) *)
Variables (mom0 mom1 : C -> nat -> string -> result A).
Variable lws : C -> string -> result A.
(** np.zeros_like *)
Variable zeros : A -> A.
(** _moment_errs.py: moment0_error(cube, scale, how, axis), moment1_error(.., moment0, moment1),
    linewidth_sigma_err(cube, scale, how, moment0, moment1, moment1_err) *)
Variable err0 : C -> R -> string -> nat -> result A.
Variable err1 : C -> R -> string -> nat -> A -> A -> result A.
Variable errl : C -> R -> string -> A -> A -> A -> result A.

(** The attributes; None: not set.  The maps come with their units. *)
Record obj := mk_obj {
  o_cube : C; o_how : string; o_scale : option R;
  o_m0 : option (A * units); o_m1 : option (A * units); o_lw : option (A * units);
  o_e0 : option A; o_e1 : option A; o_el : option A }.

(** make_moments.py:52-75 for a SpectralCube and a valid method and scale *)
Definition new (c : C) (how : string) (scale : option R) : obj := mk_obj c how scale None None None None None None.

(** The state after a call and the exception it raised *)
Definition outcome : Type := obj * option exn.

(** make_moments.py:102-117 [apply_mask] *)
Definition apply_mask (o : obj) (k : K) : outcome :=
  match with_mask (o_cube o) k with
  | Err e => (o, Some e)
  | Ok c => (mk_obj c (o_how o) (o_scale o) (o_m0 o) (o_m1 o) (o_lw o) (o_e0 o) (o_e1 o) (o_el o), None)
  end.

(** make_moments.py:81-100 for an accepted level (see C135 for the others) *)
Definition set_scale (o : obj) (s : option R) : outcome :=
  (mk_obj (o_cube o) (o_how o) s (o_m0 o) (o_m1 o) (o_lw o) (o_e0 o) (o_e1 o) (o_el o), None).

(** self._moment0 = .., self._moment1 = .., self._linewidth = .., self._moment0_err = .. *)
Definition put_m0 (o : obj) (v : A * units) : obj := mk_obj (o_cube o) (o_how o) (o_scale o) (Some v) (o_m1 o) (o_lw o) (o_e0 o) (o_e1 o) (o_el o).
Definition put_m1 (o : obj) (v : A * units) : obj := mk_obj (o_cube o) (o_how o) (o_scale o) (o_m0 o) (Some v) (o_lw o) (o_e0 o) (o_e1 o) (o_el o).
Definition put_lw (o : obj) (v : A * units) : obj := mk_obj (o_cube o) (o_how o) (o_scale o) (o_m0 o) (o_m1 o) (Some v) (o_e0 o) (o_e1 o) (o_el o).
Definition put_e0 (o : obj) (v : A) : obj := mk_obj (o_cube o) (o_how o) (o_scale o) (o_m0 o) (o_m1 o) (o_lw o) (Some v) (o_e1 o) (o_el o).
Definition put_e1 (o : obj) (v : A) : obj := mk_obj (o_cube o) (o_how o) (o_scale o) (o_m0 o) (o_m1 o) (o_lw o) (o_e0 o) (Some v) (o_el o).
Definition put_el (o : obj) (v : A) : obj := mk_obj (o_cube o) (o_how o) (o_scale o) (o_m0 o) (o_m1 o) (o_lw o) (o_e0 o) (o_e1 o) (Some v).

(** spectral-cube gives a first moment the units of its axis *)
Definition axis_units (axis : nat) : units := match axis with O => Spectral | _ => Angular end.
(** make_moments.py:119-139 [make_moments]; with units=False the last statement reads
    _moment2, which is never set *)
Definition make_moments (o : obj) (axis : nat) (with_units : bool) : outcome :=
  match mom0 (o_cube o) axis (o_how o) with
  | Err e => (o, Some e)
  | Ok m0 =>
      let o := put_m0 o (m0, axis_units axis) in
      match mom1 (o_cube o) axis (o_how o) with
      | Err e => (o, Some e)
      | Ok m1 =>
          let o := put_m1 o (m1, axis_units axis) in
          match lws (o_cube o) (o_how o) with
          | Err e => (o, Some e)
          | Ok l =>
              let o := put_lw o (l, Spectral) in
              if with_units then (o, None)
              else (put_m1 (put_m0 o (m0, Bare)) (m1, Bare), Some AttributeError)
          end
      end
  end.

(** _moment_errs.py:114-115, 183-184: moment1 -= cube.spectral_axis[0] *)
Definition centred {B} (u : units) (r : result B) : result B := match u with Spectral => r | _ => Err UnitConversionError end.
(** self.moment0, .. *)
Definition got {B} (x : option B) : result B := match x with Some v => Ok v | None => Err AttributeError end.
(** make_moments.py:141-176 [make_moment_errors] *)
Definition make_moment_errors (o : obj) (axis : nat) (scale : option R) : outcome :=
  match o_m0 o with
  | None => (o, Some ValueError)
  | Some m0 =>
      match o_scale o, scale with
      | None, None =>
          let o := put_e0 o (zeros (fst m0)) in
          match got (o_m1 o) with
          | Err e => (o, Some e)
          | Ok m1 =>
              let o := put_e1 o (zeros (fst m1)) in
              match got (o_lw o) with
              | Err e => (o, Some e)
              | Ok l => (put_el o (zeros (fst l)), None)
              end
          end
      | None, Some _ => (o, None)
      | Some s, _ =>
          match err0 (o_cube o) s (o_how o) axis with
          | Err e => (o, Some e)
          | Ok e0 =>
              let o := put_e0 o e0 in
              match (m1 <- got (o_m1 o) ;; centred (snd m1) (err1 (o_cube o) s (o_how o) axis (fst m0) (fst m1))) with
              | Err e => (o, Some e)
              | Ok e1 =>
                  let o := put_e1 o e1 in
                  match (m1 <- got (o_m1 o) ;; centred (snd m1) (errl (o_cube o) s (o_how o) (fst m0) (fst m1) e1)) with
                  | Err e => (o, Some e)
                  | Ok el => (put_el o el, None)
                  end
              end
          end
      end
  end.

(** make_moments.py:202-206 [all_moments], [all_moment_errs] *)
Definition all_moments (o : obj) : result (list A) :=
  a <- got (o_m0 o) ;; b <- got (o_m1 o) ;; c <- got (o_lw o) ;; Ok [fst a; fst b; fst c].
Definition all_moment_errs (o : obj) : result (list A) :=
  a <- got (o_e0 o) ;; b <- got (o_e1 o) ;; c <- got (o_el o) ;; Ok [a; b; c].
(** make_moments.py:208-268 [to_dict] without the headers, of a cube that is not huge: the cube
    and the three maps with their errors *)
Definition to_dict (o : obj) : result (C * list (A * A)) :=
  m0 <- got (o_m0 o) ;; e0 <- got (o_e0 o) ;; m1 <- got (o_m1 o) ;; e1 <- got (o_e1 o) ;;
  l <- got (o_lw o) ;; el <- got (o_el o) ;; Ok (o_cube o, [(fst m0, e0); (fst m1, e1); (fst l, el)]).

(** The calls a user can make *)
Inductive call := ApplyMask (k : K) | SetScale (s : option R) | Make (axis : nat) (with_units : bool) | Errors (axis : nat) (scale : option R).
Definition step (o : obj) (c : call) : outcome :=
  match c with
  | ApplyMask k => apply_mask o k
  | SetScale s => set_scale o s
  | Make axis u => make_moments o axis u
  | Errors axis s => make_moment_errors o axis s
  end.
(** A history: exceptions are caught and the object is used further *)
Definition after (o : obj) (h : list call) : obj := fold_left (fun o c => fst (step o c)) h o.
End Object.
