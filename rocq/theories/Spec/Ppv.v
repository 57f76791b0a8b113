(** Vocabulary for synthetic position-position-velocity cubes. *)
From Coq Require Import Reals List ZArith Bool Arith.
From Verif Require Import Lib.RSum Lib.Fl Model.MakeCube.
Import ListNotations.
Local Open Scope R_scope.

(** The velocity lies strictly inside the channel between edges k and k+1 *)
Definition in_channel (edges : list R) (k : nat) (v : R) : Prop :=
  (S k < length edges)%nat /\ nth k edges 0 < v < nth (S k) edges 0.
(** The number of channels with the velocity strictly inside *)
Definition hits (edges : list R) (v : R) : nat :=
  length (filter (fun lh => Rltb (fst lh) v && Rltb v (snd lh)) (combine (removelast edges) (tl edges))).
(** Gaussian line of a cell with density 1 at velocity v *)
Definition line (v_therm_sq pix_scale vel dvdz v : R) : R :=
  let sigma := sqrt ((dvdz * pix_scale) ^ 2 + v_therm_sq) in
  pix_scale / (sqrt (2 * PI) * sigma) * exp (- ((v - vel) ^ 2 / (2 * sigma ^ 2))).
(** Value of the cube at channel j, pixel (y, x) *)
Definition voxel (cube : nat -> nat -> option (list R)) (j y x : nat) : R :=
  nth j (match cube y x with Some s => s | None => [] end) 0.
(** The line of sight of a pixel along axis 0, 1 or 2 *)
Definition sight (f : field) (axis y x i : nat) : R :=
  match axis with O => f_at f i y x | 1%nat => f_at f y i x | _ => f_at f y x i end.
Definition on_image (f : field) (axis y x : nat) : Prop :=
  (y < fst (image_dims (f_shape f) axis))%nat /\ (x < snd (image_dims (f_shape f) axis))%nat.
(** Fields made of others *)
Definition f_map2 (g : R -> R -> R) (a b : field) : field := mk_field (f_shape a) (fun i j k => g (f_at a i j k) (f_at b i j k)).
Definition f_map (g : R -> R) (a : field) : field := mk_field (f_shape a) (fun i j k => g (f_at a i j k)).
(** The field seen from behind *)
Definition reversed (axis : nat) (f : field) : field :=
  let n := dim (f_shape f) axis in
  mk_field (f_shape f) (fun i j k => match axis with O => f_at f (n - 1 - i)%nat j k | 1%nat => f_at f i (n - 1 - j)%nat k | _ => f_at f i j (n - 1 - k)%nat end).
Definition nonneg_field (f : field) : Prop := forall i j k, 0 <= f_at f i j k.
(** np.gradient: central differences, one-sided at the two ends *)
Definition grad (v : nat -> R) (n i : nat) : R :=
  if Nat.eqb i 0 then v 1%nat - v 0%nat else if Nat.eqb i (n - 1) then v (n - 1)%nat - v (n - 2)%nat else (v (i + 1)%nat - v (i - 1)%nat) / 2.
(** limits given in the unit of the velocity field *)
Definition lim (U : R) (l : option R) : option velocity := option_map (fun v => mk_vel v U) l.
(** edge k of n equal channels from lo to hi *)
Definition edge (lo hi : R) (n k : nat) : R := lo + INR k * ((hi - lo) / INR n).
(** a velocity field with the same value everywhere *)
Definition uniform (shape : nat * nat * nat) (v : R) : field := mk_field shape (fun _ _ _ => v).
(** units of velocity in cm/s *)
Definition km_s : R := 10 ^ 5.
Definition m_s : R := 10 ^ 2.
(** the middle of n FITS pixels numbered from 1 *)
Definition centre (n : nat) : R := (INR n + 1) / 2.
