(** Vocabulary for the size-line width relation. *)
From Coq Require Import String Reals List ZArith.
From Verif Require Import Lib.Fl Lib.RSum Model.Units Model.BaseStat Model.PcaFit Spec.Units.
Import ListNotations.
Local Open Scope R_scope.

(** Circular autocorrelation of a spectrum of n channels at lag d *)
Definition spectrum_acf (n : nat) (v : nat -> R) (d : nat) : R := rsum n (fun c => v ((c + d) mod n)%nat * v c).
(** The spectrum with its first channel set to zero *)
Definition drop_first (v : nat -> R) : nat -> R := fun c => match c with O => 0 | _ => v c end.

(** A component that can be fitted: its widths and errors are numbers *)
Definition usable (r : width_row) : Prop := is_fin (w_spat r) = true /\ is_fin (w_spat_err r) = true /\ is_fin (w_spec r) = true /\ is_fin (w_spec_err r) = true.
(** A size between the limits (None: no limit) *)
Definition between (lo hi : option R) (r : width_row) : Prop :=
  (forall l, lo = Some l -> exists v, w_spat r = Fin v /\ l <= v) /\ (forall h, hi = Some h -> exists v, w_spat r = Fin v /\ v <= h).
(** Sizes are roots of sums of squares, or blank *)
Definition size_like (v : fl) : Prop := v = NaN \/ exists a, v = Fin a /\ 0 <= a.

(** The line width of the relation at size [l] *)
Definition line_width (intercept index l : R) : R := intercept * Rpower l index.

(** What the caller gives as a limit, and the size in pixels it stands for: nothing, pixels,
    an angle, or a length *)
Inductive limit_is (s : stat) : option lag_value -> option R -> Prop :=
| no_limit : limit_is s None None
| pixel_limit r : 0 < r -> limit_is s (Some (LagQuantity (mk_q [r] pix))) (Some r)
| angle_limit r u cdelt : 0 < r -> s_header s = Some cdelt -> 0 < cdelt -> angle_unit 1 u ->
    limit_is s (Some (LagQuantity (mk_q [r * cdelt / u_factor u] u))) (Some r)
| length_limit r u cdelt d du : 0 < r -> located s cdelt d du -> length_unit 1 u ->
    limit_is s (Some (LagQuantity (mk_q [r * (cdelt * (PI / 180)) * (d * u_factor du) / u_factor u] u))) (Some r).

(** A fit that goes through: a known method, readable limits, and two usable components *)
Definition known_method (m : string) : Prop := m = "odr"%string \/ m = "bayes"%string.

(** A spectrum whose sign is fixed anew for every component, as an eigenvalue solver is free
    to do *)
Definition signed (s : nat -> R) (eigvecs : nat -> nat -> R) : nat -> nat -> R := fun channel idx => s idx * eigvecs channel idx.
Definition sign_choice (s : nat -> R) : Prop := forall idx, s idx = 1 \/ s idx = -1.

(** Sonic length of the relation with exponent [index] and logarithmic intercept [icept] *)
Definition sonic_of (c_s index icept : R) : R := Rpower (c_s / Rpower 10 icept) (1 / index).
