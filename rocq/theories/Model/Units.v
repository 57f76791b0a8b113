(** Model of the unit conversions of turbustat/statistics/base_statistic.py. *)
From Coq Require Import Reals List ZArith Bool.
From Verif Require Import Lib.PyBase.
Import ListNotations.
Local Open Scope R_scope.

(** astropy units: exponents of pixel, angle, length and anything else, and the factor to
    the product of pix, deg and pc. *)
Record unit_ := mk_unit { u_pix : Z; u_ang : Z; u_len : Z; u_other : Z; u_factor : R }.
Definition pix : unit_ := mk_unit 1 0 0 0 1.
Definition deg : unit_ := mk_unit 0 1 0 0 1.
Definition pc : unit_ := mk_unit 0 0 1 0 1.
(** Unit.is_equivalent *)
Definition is_equivalent (u v : unit_) : bool :=
  Z.eqb (u_pix u) (u_pix v) && Z.eqb (u_ang u) (u_ang v) && Z.eqb (u_len u) (u_len v) && Z.eqb (u_other u) (u_other v).

(** astropy Quantity (a scalar is a list of one value; values are finite numbers) *)
Record quantity := mk_q { q_vals : list R; q_unit : unit_ }.

(** 1 / value, value**2, np.sqrt(value).  A root of an odd power is no power of the
    units here and matches none of the conversions. *)
Definition inv_unit (u : unit_) : unit_ := mk_unit (- u_pix u) (- u_ang u) (- u_len u) (- u_other u) (/ u_factor u).
Definition q_inv (q : quantity) : quantity := mk_q (map (fun v => / v) (q_vals q)) (inv_unit (q_unit q)).
Definition q_sq (q : quantity) : quantity :=
  let u := q_unit q in
  mk_q (map (fun v => v * v) (q_vals q)) (mk_unit (2 * u_pix u) (2 * u_ang u) (2 * u_len u) (2 * u_other u) (u_factor u * u_factor u)).
Definition q_sqrt (q : quantity) : result quantity :=
  let u := q_unit q in
  if Z.even (u_pix u) && Z.even (u_ang u) && Z.even (u_len u) && Z.even (u_other u)
  then Ok (mk_q (map sqrt (q_vals q)) (mk_unit (Z.div2 (u_pix u)) (Z.div2 (u_ang u)) (Z.div2 (u_len u)) (Z.div2 (u_other u)) (sqrt (u_factor u))))
  else Err UnitConversionError.

(** Quantity.to(unit, equivalencies=[(funit, tunit, x * k, x / k)]) *)
Definition convert (funit tunit : unit_) (k : R) (q : quantity) (u : unit_) : result quantity :=
  let uq := q_unit q in
  if is_equivalent uq u then Ok (mk_q (map (fun v => v * (u_factor uq / u_factor u)) (q_vals q)) u)
  else if is_equivalent uq funit && is_equivalent u tunit
  then Ok (mk_q (map (fun v => v * (u_factor uq / u_factor funit) * k * (u_factor tunit / u_factor u)) (q_vals q)) u)
  else if is_equivalent uq tunit && is_equivalent u funit
  then Ok (mk_q (map (fun v => v * (u_factor uq / u_factor tunit) / k * (u_factor funit / u_factor u)) (q_vals q)) u)
  else Err UnitConversionError.

(** A statistic object, as far as units go: the angular pixel size of its header in
    degrees (WCSLIB always gives degrees), and its distance; None = not set. *)
Record stat := mk_stat { s_header : option R; s_distance : option (R * unit_) }.

(** base_statistic.py:189-195 *)
Definition ang_size (s : stat) : result R := match s_header s with None => Err AttributeError | Some a => Ok (Rabs a) end.
(** base_statistic.py:197-206 *)
Definition get_distance (s : stat) : result (R * unit_) :=
  match s_header s with
  | None => Err AttributeError
  | Some _ => match s_distance s with None => Err AttributeError | Some d => Ok d end
  end.
(** base_statistic.py:228-234: the value of the pixel size in the unit of the distance
    (dimensionless_angles: the angle counts in radians) *)
Definition physical_size (s : stat) : result R :=
  match s_distance s with
  | None => Err AttributeError
  | Some _ => a <- ang_size s ;; d <- get_distance s ;; Ok (a * (PI / 180) * fst d)
  end.

(** base_statistic.py:180-186, 278-282 [_to_angular] *)
Definition to_angular (s : stat) (q : quantity) (u : unit_) : result quantity :=
  a <- ang_size s ;; convert pix deg a q u.
(** base_statistic.py:236-243, 284-288 [_to_physical] *)
Definition to_physical (s : stat) (q : quantity) (u : unit_) : result quantity :=
  match s_distance s with
  | None => Err AttributeError
  | Some _ => d <- get_distance s ;; p <- physical_size s ;; convert pix (snd d) p q u
  end.
(** base_statistic.py:245-263 [_to_pixel] (of a Quantity) *)
Definition to_pixel (s : stat) (q : quantity) : result quantity :=
  if is_equivalent (q_unit q) pix then Ok q
  else if is_equivalent (q_unit q) deg then to_angular s q pix
  else if is_equivalent (q_unit q) pc then to_physical s q pix
  else Err UnitConversionError.
(** base_statistic.py:265-270 [_to_pixel_freq] *)
Definition to_pixel_freq (s : stat) (q : quantity) : result quantity := r <- to_pixel s (q_inv q) ;; Ok (q_inv r).
(** base_statistic.py:272-276 [_to_pixel_area] *)
Definition to_pixel_area (s : stat) (q : quantity) : result quantity := r <- q_sqrt q ;; p <- to_pixel s r ;; Ok (q_sq p).
(** base_statistic.py:290-306 [_spatial_unit_conversion] *)
Definition spatial_unit_conversion (s : stat) (q : quantity) (u : unit_) : result quantity :=
  if is_equivalent u pix then Ok q
  else if is_equivalent u deg then to_angular s q u
  else if is_equivalent u pc then to_physical s q u
  else Err UnitConversionError.
(** base_statistic.py:308-316 [_spatial_freq_unit_conversion] *)
Definition spatial_freq_unit_conversion (s : stat) (q : quantity) (u : unit_) : result quantity :=
  r <- spatial_unit_conversion s (q_inv q) (inv_unit u) ;; Ok (q_inv r).

(** base_statistic.py:333-370: the spectral axis.  [spec] is the channel width and its
    unit (None: no spectral axis, ValueError) *)
Definition to_spectral (spec : option (R * unit_)) (q : quantity) (u : unit_) : result quantity :=
  match spec with None => Err ValueError | Some (w, su) => convert pix su (Rabs w) q u end.
Definition spectral_freq_unit_conversion (spec : option (R * unit_)) (q : quantity) (u : unit_) : result quantity :=
  r <- to_spectral spec (q_inv q) (inv_unit u) ;; Ok (q_inv r).
