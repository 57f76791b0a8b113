(** Vocabulary for the properties of moment errors. *)
From Coq Require Import String Ascii Reals List Bool Arith.
From Verif Require Import Lib.PyBase Lib.Fl Model.Units Model.MomentErrs.
Import ListNotations.
Local Open Scope R_scope.

(** The voxel at position i along an axis (0, 1 or 2) and at the pixel (p, q) of the other two, in their order *)
Definition voxel {A} (axis : nat) (a : arr3 A) (i : nat) : arr2 A := fun p q =>
  match axis with O => a i p q | 1%nat => a p i q | _ => a p q i end.
(** The number of voxels along the axis *)
Definition depth (shape : nat * nat * nat) (axis : nat) : nat :=
  let '(n0, n1, n2) := shape in match axis with O => n0 | 1%nat => n1 | _ => n2 end.
(** (p, q) is a pixel of the map *)
Definition in_image (c : cube) (axis p q : nat) : Prop :=
  let '(n0, n1, n2) := c_shape c in
  match axis with O => (p < n1 /\ q < n2)%nat | 1%nat => (p < n0 /\ q < n2)%nat | _ => (p < n0 /\ q < n1)%nat end.
(** The voxel of channel i at the pixel is included by the mask *)
Definition included (c : cube) (axis i p q : nat) : Prop :=
  (i < depth (c_shape c) axis)%nat /\ voxel axis (c_mask c) i p q = true.
(** The same cube with another mask *)
Definition remasked (c : cube) (m : arr3 bool) : cube := mk_cube (c_shape c) m (c_filled c) (c_pix_cen c) (c_pix_size c).
(** A noise cube has the shape of the data *)
Definition fits_cube (c : cube) (scale : noise) : Prop := match scale with Level _ => True | NoiseCube shape _ => shape = c_shape c end.
(** No noise level is infinite *)
Definition no_inf (x : fl) : Prop := x <> PInf /\ x <> NInf.
Definition settled (scale : noise) : Prop := match scale with Level s => no_inf s | NoiseCube _ a => forall i j k, no_inf (a i j k) end.
(** A single noise level is a finite number *)
Definition proper (scale : noise) : Prop := match scale with Level s => exists r, s = Fin r | NoiseCube _ _ => True end.
(** The noise multiplied by k *)
Definition scaled (k : R) (scale : noise) : noise :=
  match scale with Level s => Level (fmul (Fin k) s) | NoiseCube shape a => NoiseCube shape (fun i j k' => fmul (Fin k) (a i j k')) end.
(** The noise level of a voxel, 0 where it is blank *)
Definition sigma (scale : noise) (axis i p q : nat) : R :=
  match scale with
  | Level (Fin r) => r
  | NoiseCube _ a => match voxel axis a i p q with Fin r => r | _ => 0 end
  | _ => 0
  end.
(** NaN, infinity or a number that is at least 0 *)
Definition not_negative (x : fl) : Prop := match x with Fin r => 0 <= r | NInf => False | _ => True end.
(** Two outcomes: the same exception, or maps with the second |k| times the first *)
Definition times (k : R) (r r' : PyBase.result (arr2 fl)) : Prop :=
  match r, r' with
  | PyBase.Ok e, PyBase.Ok e' => forall p q, e' p q = fmul (Fin (Rabs k)) (e p q)
  | PyBase.Err x, PyBase.Err y => x = y
  | _, _ => False
  end.
Definition never_negative (r : PyBase.result (arr2 fl)) : Prop := match r with PyBase.Ok e => forall p q, not_negative (e p q) | PyBase.Err _ => True end.
(** The value of a voxel, 0 where it is blank *)
Definition datum (c : cube) (axis i p q : nat) : R := match voxel axis (c_filled c) i p q with Fin r => r | _ => 0 end.

(** No noise level, or one that is not negative and has the kind of unit of the cube *)
Definition valid_scale (cu : unit_) (s : option quantity) : Prop :=
  match s with None => True | Some q => is_equivalent (q_unit q) cu = true /\ 0 <= hd 0 (q_vals q) end.

(** The file stem.fits, in a directory or not *)
Local Open Scope string_scope.
Definition file_name (dir : option string) (stem : string) : string := match dir with None => stem ++ ".fits" | Some d => d ++ "/" ++ stem ++ ".fits" end.

(** An example: three channels of 2 x 2 pixels; nothing is included at pixel (0, 1), one channel at (1, 0) *)
Definition demo_cube : cube :=
  mk_cube (3%nat, 2%nat, 2%nat)
    (fun i p q => match p, q with O, O => true | O, _ => false | S O, O => Nat.eqb i 1 | _, _ => true end)
    (fun i _ _ => Fin (INR i + 1)) (fun _ i _ _ => INR i) (fun _ _ _ => 1).
