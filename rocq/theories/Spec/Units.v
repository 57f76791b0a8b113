(** Specification vocabulary for units and validated assignments. *)
From Coq Require Import String Reals List ZArith.
From Verif Require Import Lib.PyBase Model.Units Model.BaseStat.
Import ListNotations.
Local Open Scope R_scope.

(** Units of angle and of length to the power n, of any size. *)
Definition angle_unit (n : Z) (u : unit_) : Prop := u_pix u = 0%Z /\ u_ang u = n /\ u_len u = 0%Z /\ u_other u = 0%Z /\ 0 < u_factor u.
Definition length_unit (n : Z) (u : unit_) : Prop := u_pix u = 0%Z /\ u_ang u = 0%Z /\ u_len u = n /\ u_other u = 0%Z /\ 0 < u_factor u.
(** Pixels to the power n. *)
Definition pixel_unit (n : Z) : unit_ := mk_unit n 0 0 0 1.
(** Neither pixels, nor angles, nor lengths. *)
Definition unrelated (u : unit_) : Prop := is_equivalent u pix = false /\ is_equivalent u deg = false /\ is_equivalent u pc = false.
(** An object with a header and a distance. *)
Definition located (s : stat) (pixel_size dist : R) (dist_unit : unit_) : Prop :=
  s_header s = Some pixel_size /\ 0 < pixel_size /\ s_distance s = Some (dist, dist_unit) /\ 0 < dist /\ length_unit 1 dist_unit.

(** What a history of assignments leaves: the last acceptable value, or the old one if
    none was acceptable.  [acceptable v q]: v may be assigned, and is stored as q. *)
Definition last_accepted {A V} (acceptable : V -> A -> Prop) (old : option A) (l : list V) (final : option A) : Prop :=
  (final = old /\ forall v q, In v l -> ~ acceptable v q) \/
  (exists l1 v q l2, l = l1 ++ v :: l2 /\ acceptable v q /\ final = Some q /\ forall w p, In w l2 -> ~ acceptable w p).

(** A quantity as numbers of pixels: pixels as they are, angles over the pixel size of the
    header, lengths over the pixel size at the distance of the object. *)
Definition dimension (u : unit_) (p a l : Z) : Prop := u_pix u = p /\ u_ang u = a /\ u_len u = l /\ u_other u = 0%Z.
Definition in_pixels (s : stat) (q : quantity) (l : list R) : Prop :=
  (dimension (q_unit q) 1 0 0 /\ l = q_vals q) \/
  (dimension (q_unit q) 0 1 0 /\ exists a, s_header s = Some a /\ l = map (fun v => v * u_factor (q_unit q) / Rabs a) (q_vals q)) \/
  (dimension (q_unit q) 0 0 1 /\ exists a d du, s_header s = Some a /\ s_distance s = Some (d, du) /\ dimension du 0 0 1 /\
     l = map (fun v => v * (u_factor (q_unit q) / u_factor du) / (Rabs a * (PI / 180) * d)) (q_vals q)).

(** Lags: a quantity that converts to pixels, no lag below 1 pixel, and no lag with more
    whole pixels than half the smaller side. *)
Definition acceptable_lags (s : stat) (side : nat) (v : lag_value) (q : quantity) : Prop :=
  v = LagQuantity q /\ exists p, in_pixels s q p /\
  forall l, In l p -> 1 <= l /\ IZR (Int_part l) <= INR side / 2.
(** Radii: a quantity that converts to one number of pixels between 2 and half the side. *)
Definition acceptable_radius (s : stat) (side : nat) (v : lag_value) (q : quantity) : Prop :=
  v = LagQuantity q /\ exists r, in_pixels s q [r] /\ 2 <= r <= INR side / 2.
(** Smoothing radii: numbers of pixels between 1 and half the side. *)
Definition acceptable_smoothing (side : nat) (values stored : list R) : Prop :=
  stored = values /\ forall r, In r values -> 1 <= r <= INR side / 2.

(** What each attribute accepts, and what is stored. *)
Definition acceptable_header (o : obj) (v : pyval) (stored : option R) : Prop :=
  (o_need_header o = true /\ exists h, v = PHeader h /\ stored = Some h) \/ (o_need_header o = false /\ stored = None).
Definition acceptable_data (o : obj) (v : pyval) (stored : option ndarray) : Prop :=
  (o_no_data o = false /\ exists a, v = PArray a /\ exists b, stored = Some b /\
     a_vals b = a_vals a /\ a_shape b = filter (fun n => negb (Nat.eqb n 1)) (a_shape a)) \/ (o_no_data o = true /\ stored = None).
Definition acceptable_distance (v : pyval) (q : quantity) : Prop := v = PQuantity q true /\ is_equivalent (q_unit q) pc = true.

(** The values of a history assigned to each attribute. *)
Definition header_values (l : list assignment) : list pyval := flat_map (fun a => match a with AHeader v => [v] | _ => [] end) l.
Definition data_values (l : list assignment) : list pyval := flat_map (fun a => match a with AData v => [v] | _ => [] end) l.
Definition distance_values (l : list assignment) : list pyval := flat_map (fun a => match a with ADistance v => [v] | _ => [] end) l.
