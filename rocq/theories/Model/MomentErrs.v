(** Model of turbustat/moments/_moment_errs.py.  Units are left out: all values are in
    the units of the cube and of its spectral axis. *)
From Coq Require Import String Reals List Bool Arith.
From Verif Require Import Lib.PyBase Lib.Fl.
Import ListNotations.
Local Open Scope string_scope.
Local Open Scope R_scope.

Definition arr3 (A : Type) : Type := nat -> nat -> nat -> A.
Definition arr2 (A : Type) : Type := nat -> nat -> A.

(** What the functions use of a SpectralCube: shape, mask, filled data, and along each axis
    the positions of the pixels (from the first one) and their size *)
Record cube := mk_cube {
  c_shape : nat * nat * nat; c_mask : arr3 bool; c_filled : arr3 fl; c_pix_cen : nat -> arr3 R; c_pix_size : nat -> arr2 R }.
Definition axis_len (shape : nat * nat * nat) (axis : nat) : nat :=
  let '(n0, n1, n2) := shape in match axis with O => n0 | 1%nat => n1 | _ => n2 end.
(** a[tuple(view)] with view[axis] = i *)
Definition view {A} (axis : nat) (a : arr3 A) (i : nat) : arr2 A := fun p q =>
  match axis with O => a i p q | 1%nat => a p i q | _ => a p q i end.

(** The noise level: a number or a SpectralCube (shape and filled data) *)
Inductive noise := Level (s : fl) | NoiseCube (shape : nat * nat * nat) (filled : arr3 fl).
Definition shape_eqb (a b : nat * nat * nat) : bool :=
  let '(a0, a1, a2) := a in let '(b0, b1, b2) := b in Nat.eqb a0 b0 && Nat.eqb a1 b1 && Nat.eqb a2 b2.
(** _moment_errs.py:228-235 and the same lines of the other functions *)
Definition check (c : cube) (scale : noise) : result unit :=
  match scale with
  | NoiseCube shape _ => if shape_eqb (c_shape c) shape then Ok tt else Err IndexError
  | Level _ => Ok tt
  end.

(** np.nan_to_num: infinities become the largest float *)
Definition float_max : R := (2 - / 2 ^ 52) * 2 ^ 1023.
Definition nan_to_num (x : fl) : fl :=
  match x with NaN => Fin 0 | PInf => Fin float_max | NInf => Fin (- float_max) | Fin r => Fin r end.
Definition b2f (b : bool) : fl := if b then Fin 1 else Fin 0.
(** noise_plane of channel i *)
Definition noise_view (scale : noise) (axis i : nat) : arr2 fl := fun p q =>
  match scale with Level s => s | NoiseCube _ a => nan_to_num (view axis a i p q) end.

(** result += ... *)
Definition add2 (a b : arr2 fl) : arr2 fl := fun p q => fadd (a p q) (b p q).
Definition zeros2 : arr2 fl := fun _ _ => Fin 0.

(** _moment_errs.py:214-259 [_slice0] *)
Definition slice0 (c : cube) (axis : nat) (scale : noise) : result (arr2 fl) :=
  _ <- check c scale ;;
  let '(res, valid) := fold_left (fun st i =>
      let plane := view axis (c_mask c) i in
      (add2 (fst st) (fun p q => fmul (b2f (plane p q)) (fsqr (noise_view scale axis i p q))),
       fun p q => snd st p q || plane p q))
    (seq 0 (axis_len (c_shape c) axis)) (zeros2, fun _ _ => false) in
  Ok (fun p q => if valid p q then fmul (fsqrt (res p q)) (Fin (c_pix_size c axis p q)) else NaN).

(** moment0 / pixel size: the sum along the axis *)
Definition axis_sum (c : cube) (axis : nat) (moment0 : arr2 fl) : arr2 fl := fun p q => fdiv (moment0 p q) (Fin (c_pix_size c axis p q)).

(** _moment_errs.py:262-319 [_slice1] *)
Definition slice1 (c : cube) (axis : nat) (scale : noise) (moment0 moment1 : arr2 fl) : result (arr2 fl) :=
  _ <- check c scale ;;
  let s := axis_sum c axis moment0 in
  let term2 p q := fdiv (moment1 p q) (s p q) in
  let res := fold_left (fun st i =>
      let term1 p q := fdiv (Fin (view axis (c_pix_cen c axis) i p q)) (s p q) in
      add2 st (fun p q => fsqr (fmul (fsub (term1 p q) (term2 p q)) (noise_view scale axis i p q))))
    (seq 0 (axis_len (c_shape c) axis)) zeros2 in
  Ok (fun p q => fsqrt (res p q)).

(** _moment_errs.py:322-385 [_slice2] *)
Definition slice2 (c : cube) (axis : nat) (scale : noise) (moment0 moment1 moment2 moment1_err : arr2 fl) : result (arr2 fl) :=
  _ <- check c scale ;;
  let s := axis_sum c axis moment0 in
  let term12 p q := fdiv (moment2 p q) (s p q) in
  let '(term1, term2) := fold_left (fun st i =>
      let plane p q := nan_to_num (view axis (c_filled c) i p q) in
      let diff p q := fsub (Fin (view axis (c_pix_cen c axis) i p q)) (moment1 p q) in
      let term11 p q := fdiv (fsqr (diff p q)) (s p q) in
      (add2 (fst st) (fun p q => fsqr (fmul (fsub (term11 p q) (term12 p q)) (noise_view scale axis i p q))),
       add2 (snd st) (fun p q => fmul (nan_to_num (plane p q)) (diff p q))))
    (seq 0 (axis_len (c_shape c) axis)) (zeros2, zeros2) in
  let term2 p q := fmul (Fin 4) (fsqr (fdiv (fmul (moment1_err p q) (term2 p q)) (s p q))) in
  Ok (fun p q => fsqrt (fadd (term1 p q) (term2 p q))).

(** np.sum(..., axis=axis) *)
Definition sum_axis (c : cube) (axis : nat) (a : nat -> arr2 fl) : arr2 fl := fun p q =>
  fsum (map (fun i => a i p q) (seq 0 (axis_len (c_shape c) axis))).

(** _moment_errs.py:388-407 [_cube0] *)
Definition cube0 (c : cube) (axis : nat) (scale : noise) : result (arr2 fl) :=
  _ <- check c scale ;;
  Ok (fun p q => fmul (fsqrt (sum_axis c axis (fun i p q => fmul (b2f (view axis (c_mask c) i p q)) (fsqr (noise_view scale axis i p q))) p q))
                      (Fin (c_pix_size c axis p q))).

(** numpy broadcasting of an image (a, b) against a cube (n0, n1, n2): the image is lined up
    with the last two axes, and an axis of length 1 is repeated *)
Definition bdim (n m : nat) : option nat :=
  if Nat.eqb n m then Some n else if Nat.eqb n 1 then Some m else if Nat.eqb m 1 then Some n else None.
Definition clamp (n j : nat) : nat := if Nat.eqb n 1 then O else j.
Definition image_shape (shape : nat * nat * nat) (axis : nat) : nat * nat :=
  let '(n0, n1, n2) := shape in match axis with O => (n1, n2) | 1%nat => (n0, n2) | _ => (n0, n1) end.
Definition broadcast (shape : nat * nat * nat) (axis : nat) : result (nat * nat * nat) :=
  let '(n0, n1, n2) := shape in let '(a, b) := image_shape shape axis in
  match bdim n1 a, bdim n2 b with Some d1, Some d2 => Ok (n0, d1, d2) | _, _ => Err ValueError end.
Definition of_cube {A} (shape : nat * nat * nat) (a : arr3 A) : arr3 A := fun i j k =>
  let '(_, n1, n2) := shape in a i (clamp n1 j) (clamp n2 k).
Definition of_image {A} (shape : nat * nat * nat) (axis : nat) (a : arr2 A) : arr3 A := fun _ j k =>
  let '(n, m) := image_shape shape axis in a (clamp n j) (clamp m k).
Definition sum_over (shape : nat * nat * nat) (axis : nat) (a : arr3 fl) : arr2 fl := fun p q =>
  fsum (map (fun i => view axis a i p q) (seq 0 (axis_len shape axis))).
(** result[~good_pix] = np.nan: the two shapes must match *)
Definition blank_bad (shape : nat * nat * nat) (bshape : nat * nat * nat) (axis : nat) (good : arr2 bool) (res : arr2 fl) : result (arr2 fl) :=
  let '(a, b) := image_shape shape axis in let '(a', b') := image_shape bshape axis in
  if Nat.eqb a a' && Nat.eqb b b' then Ok (fun p q => if good p q then res p q else NaN) else Err IndexError.

(** _moment_errs.py:410-449 [_cube1]: here nan_to_num is taken of any noise *)
Definition cube1 (c : cube) (axis : nat) (scale : noise) (moment0 moment1 : arr2 fl) : result (arr2 fl) :=
  _ <- check c scale ;;
  let sh := c_shape c in
  bsh <- broadcast sh axis ;;
  let noise_plane i j k := match scale with Level s => s | NoiseCube _ a => of_cube sh a i j k end in
  let s := of_image sh axis (axis_sum c axis moment0) in
  let pix_cen := of_cube sh (c_pix_cen c axis) in
  let term1 i j k := fdiv (Fin (pix_cen i j k)) (s i j k) in
  let term2 i j k := fdiv (of_image sh axis moment1 i j k) (s i j k) in
  let res p q := fsqrt (sum_over bsh axis (fun i j k => fsqr (fmul (fsub (term1 i j k) (term2 i j k)) (nan_to_num (noise_plane i j k)))) p q) in
  blank_bad sh bsh axis (fun p q => is_fin (moment0 p q) || is_fin (moment1 p q)) res.

(** _moment_errs.py:452-495 [_cube2] *)
Definition cube2 (c : cube) (axis : nat) (scale : noise) (moment0 moment1 moment2 moment1_err : arr2 fl) : result (arr2 fl) :=
  _ <- check c scale ;;
  let sh := c_shape c in
  bsh <- broadcast sh axis ;;
  let noise_plane i j k := match scale with Level s => s | NoiseCube _ a => nan_to_num (of_cube sh a i j k) end in
  let s := of_image sh axis (axis_sum c axis moment0) in
  let diff i j k := fsub (Fin (of_cube sh (c_pix_cen c axis) i j k)) (of_image sh axis moment1 i j k) in
  let plane i j k := nan_to_num (of_cube sh (c_filled c) i j k) in
  let term11 i j k := fdiv (fsqr (diff i j k)) (s i j k) in
  let term12 i j k := fdiv (of_image sh axis moment2 i j k) (s i j k) in
  let term1 := sum_over bsh axis (fun i j k => fsqr (fmul (fsub (term11 i j k) (term12 i j k)) (noise_plane i j k))) in
  let term21 i j k := fmul (nan_to_num (plane i j k)) (diff i j k) in
  let term2 p q := fmul (Fin 4) (fsqr (fdiv (fmul (moment1_err p q) (sum_over bsh axis term21 p q)) (axis_sum c axis moment0 p q))) in
  blank_bad sh bsh axis (fun p q => is_fin (moment0 p q) || is_fin (moment1 p q) || is_fin (moment2 p q))
    (fun p q => fsqrt (fadd (term1 p q) (term2 p q))).

(** _moment_errs.py:52-58, 105-111, 167-173: [strategy] is what spectral_cube.cube_utils.iterator_strategy returns *)
Definition resolve (how strategy : string) : string :=
  if String.eqb how "auto" then (if String.eqb strategy "ray" then "slice" else strategy) else how.
(** _moment_errs.py:30-80 [moment0_error] (the array) *)
Definition moment0_error (strategy : string) (c : cube) (scale : noise) (axis : nat) (how : string) : result (arr2 fl) :=
  let how := resolve how strategy in
  if String.eqb how "cube" then cube0 c axis scale
  else if String.eqb how "slice" then slice0 c axis scale
  else Err ValueError.
(** _moment_errs.py:83-141 [moment1_error].  [moment0] and [moment1] are given or come from
    spectral-cube; [v0] is the start of the spectral axis *)
Definition moment1_error (strategy : string) (c : cube) (scale : noise) (axis : nat) (how : string) (v0 : R) (moment0 moment1 : arr2 fl) : result (arr2 fl) :=
  let how := resolve how strategy in
  let m1 p q := fsub (moment1 p q) (Fin v0) in
  if String.eqb how "cube" then cube1 c axis scale moment0 m1
  else if String.eqb how "slice" then slice1 c axis scale moment0 m1
  else Err ValueError.
(** _moment_errs.py:144-211 [moment2_error] *)
Definition moment2_error (strategy : string) (c : cube) (scale : noise) (axis : nat) (how : string) (v0 : R)
    (moment0 moment1 moment2 : arr2 fl) (moment1_err : option (arr2 fl)) : result (arr2 fl) :=
  let how := resolve how strategy in
  let m1 p q := fsub (moment1 p q) (Fin v0) in
  e1 <- match moment1_err with Some e => Ok e | None => cube1 c axis scale moment0 m1 end ;;
  if String.eqb how "cube" then cube2 c axis scale moment0 m1 moment2 e1
  else if String.eqb how "slice" then slice2 c axis scale moment0 m1 moment2 e1
  else Err ValueError.
(** _moment_errs.py:498-516 [linewidth_sigma_err] *)
Definition linewidth_sigma_err (strategy : string) (c : cube) (scale : noise) (how : string) (v0 : R)
    (moment0 moment1 moment2 : arr2 fl) (moment1_err : option (arr2 fl)) : result (arr2 fl) :=
  let how := if String.eqb how "auto" then strategy else how in
  e <- moment2_error strategy c scale 0 how v0 moment0 moment1 moment2 moment1_err ;;
  Ok (fun p q => fdiv (e p q) (fmul (Fin 2) (fsqrt (moment2 p q)))).
(** _moment_errs.py:519-530 [linewidth_fwhm_err] *)
Definition linewidth_fwhm_err (strategy : string) (c : cube) (scale : noise) (how : string) (v0 : R)
    (moment0 moment1 moment2 : arr2 fl) (moment1_err : option (arr2 fl)) : result (arr2 fl) :=
  e <- linewidth_sigma_err strategy c scale how v0 moment0 moment1 moment2 moment1_err ;;
  Ok (fun p q => fmul (Fin (2 * sqrt (2 * ln 2))) (e p q)).
