(** Model of turbustat/simulator/make_cube.py and spectrum.pyx, and of the headers of
    turbustat/io/sim_tools.py. *)
From Coq Require Import Reals List ZArith Bool Arith.
From Verif Require Import Lib.PyBase Lib.RSum Lib.Fl Model.Scf Model.StatsUtils.
Import ListNotations.
Local Open Scope R_scope.

(** A velocity: a number and the size of its unit in cm/s *)
Record velocity := mk_vel { v_num : R; v_unit : R }.
Definition cgs (v : velocity) : R := v_num v * v_unit v.
(** Quantity.to(unit) and a - b (in the unit of a) *)
Definition v_to (unit : R) (v : velocity) : R := cgs v / unit.
Definition v_sub (a b : velocity) : velocity := mk_vel (v_num a - v_to (v_unit a) b) (v_unit a).

(** ** spectrum.pyx *)
(** A cell of the line of sight: velocity, density, velocity gradient *)
Definition cell : Type := R * R * R.
Definition cell_vel (c : cell) : R := fst (fst c).
(** spectrum.pyx:55-66: what a cell adds to the channel with centre [v] (sigma > 0; for
    sigma = 0 the compiled code divides by 0) *)
Definition contribution (v_therm_sq pix_scale : R) (c : cell) (v : R) : R :=
  let '(vel, dens, dvdz) := c in
  let sigma := sqrt ((dvdz * pix_scale) ^ 2 + v_therm_sq) in
  let term1 := (dens * pix_scale) / (sqrt (2 * PI) * sigma) in
  let term2 := (v - vel) ^ 2 / (2 * sigma ^ 2) in
  term1 * exp (- term2).
(** spectrum.pyx:15-68 [generate_spectrum] *)
Definition generate_spectrum (cells : list cell) (vel_edges v_cents : list R) (v_therm_sq pix_scale : R) : list R :=
  fold_left (fun spectrum lh =>
      let contribs := filter (fun c => Rltb (fst lh) (cell_vel c) && Rltb (cell_vel c) (snd lh)) cells in
      fold_left (fun spectrum c => map2 Rplus spectrum (map (contribution v_therm_sq pix_scale c) v_cents)) contribs spectrum)
    (combine (removelast vel_edges) (tl vel_edges))
    (map (fun _ => 0) (removelast vel_edges)).

(** ** make_cube.py *)
(** np.gradient of a 1D array *)
Definition gradient (v : list R) : result (list R) :=
  if Nat.ltb (length v) 2 then Err ValueError
  else let at_ i := nth i v 0 in let n := length v in
    Ok (map (fun i => if Nat.eqb i 0 then at_ 1%nat - at_ 0%nat
                      else if Nat.eqb i (n - 1) then at_ (n - 1)%nat - at_ (n - 2)%nat
                      else (at_ (i + 1)%nat - at_ (i - 1)%nat) / 2) (seq 0 n)).
(** 0.5 * (edges[1:] + edges[:-1]) *)
Definition mids (edges : list R) : list R := map2 (fun a b => 1 / 2 * (a + b)) (tl edges) (removelast edges).

(** make_cube.py:209-235 [_spectrum_maker]: [vel] in units of [unit] cm/s, the edges in cm/s *)
Definition conv_to_K : R := 1823 * 10 ^ 10.
Definition spectrum_maker (unit : R) (edges vel dens : list R) (v_therm_sq pix_scale : R) : result (list R) :=
  g <- gradient vel ;;
  let dvdz := map (fun x => x / pix_scale * unit) g in
  let cells := combine (combine (map (fun v => v * unit) vel) dens) dvdz in
  Ok (map (fun s => s / conv_to_K) (generate_spectrum cells edges (mids edges) (v_therm_sq * unit ^ 2) pix_scale)).

(** A 3D field.  [los_axis] may be negative. *)
Record field := mk_field { f_shape : nat * nat * nat; f_at : nat -> nat -> nat -> R }.
Definition dim (s : nat * nat * nat) (a : nat) : nat := let '(n0, n1, n2) := s in match a with O => n0 | 1%nat => n1 | _ => n2 end.
(** The axis meant by shape[los_axis], shape.pop(los_axis) and axis=los_axis *)
Definition real_axis (los : Z) : option nat :=
  if ((-3 <=? los) && (los <? 3))%Z then Some (Z.to_nat (if (los <? 0)%Z then los + 3 else los)) else None.
(** make_cube.py:245-257 [field_slice]: the position where slice(None) goes in [y, x]
    (list.insert counts a negative position from the end of the two-element list) *)
Definition insert_pos (los : Z) : nat := Z.to_nat (if (los <? 0)%Z then Z.max 0 (los + 2) else Z.min los 2).
(** field[field_slice(y, x, los_axis)] *)
Definition los_slice (f : field) (los : Z) (y x : nat) : result (list R) :=
  let p := insert_pos los in
  let '(a, b) := match p with O => (1, 2) | 1 => (0, 2) | _ => (0, 1) end%nat in
  if Nat.ltb y (dim (f_shape f) a) && Nat.ltb x (dim (f_shape f) b)
  then Ok (map (fun i => match p with O => f_at f i y x | 1%nat => f_at f y i x | _ => f_at f y x i end) (seq 0 (dim (f_shape f) p)))
  else Err IndexError.
(** The shape of the image: shape.pop(los_axis) *)
Definition image_dims (s : nat * nat * nat) (axis : nat) : nat * nat :=
  let '(n0, n1, n2) := s in match axis with O => (n1, n2) | 1%nat => (n0, n2) | _ => (n0, n1) end.

(** itertools.product(range(a), range(b)) *)
Definition pixels (d : nat * nat) : list (nat * nat) := list_prod (seq 0 (fst d)) (seq 0 (snd d)).
Fixpoint all_ok {A} (l : list (result A)) : result (list A) :=
  match l with [] => Ok [] | r :: l => x <- r ;; xs <- all_ok l ;; Ok (x :: xs) end.

(** Pool.map: the tasks complete in the order [sched]; each result is stored at the position
    of its task *)
Fixpoint store {A} (i : nat) (v : A) (l : list A) : list A := match l, i with [], _ => [] | _ :: l, O => v :: l | x :: l, S i => x :: store i v l end.
Definition pool_map {A B} (f : A -> B) (d : A) (tasks : list A) (sched : list nat) : list (option B) :=
  fold_left (fun res i => store i (Some (f (nth i tasks d))) res) sched (map (fun _ => None) tasks).

(** make_cube.py:193-197: the cube, None where nothing was written *)
Definition put (cube : nat -> nat -> option (list R)) (out : list R * (nat * nat)) : nat -> nat -> option (list R) :=
  fun y x => if Nat.eqb y (fst (snd out)) && Nat.eqb x (snd (snd out)) then Some (fst out) else cube y x.
Definition assemble (spectra : list (list R * (nat * nat))) : nat -> nat -> option (list R) := fold_left put spectra (fun _ _ => None).

(** make_cube.py:111-171: the velocity channels.  [vel_unit], [vel_min] and [vel_max] belong
    to the velocity field, [v_lim] and [v_eff] (lines 109 and 145) are in its unit.  np.ceil
    of a ratio keeps its unit; int() converts it, .value does not. *)
Definition truncz (x : R) : Z := if Rltb x 0 then np_ceil x else Int_part x.
Definition limits (vel_unit vel_min vel_max v_lim : R) (v_min v_max : option velocity) : velocity * velocity :=
  (match v_min with None => mk_vel (vel_min - 4 * v_lim) vel_unit | Some v => v end,
   match v_max with None => mk_vel (vel_max + 4 * v_lim) vel_unit | Some v => v end).
Definition n_channels (vel_unit v_eff : R) (v_min v_max : velocity) (chan_width : option velocity) : Z :=
  let del_v := v_sub v_max v_min in
  match chan_width with
  | None => np_ceil (v_num del_v / (v_eff / 2))
  | Some w => truncz (IZR (np_ceil (v_num del_v / v_num w)) * (v_unit del_v / v_unit w))
  end.
(** The edges, in the unit of v_min *)
Definition vel_edges (vel_unit vel_min vel_max v_lim v_eff : R) (v_min v_max : option velocity) (chan_width : option velocity) (max_chan : Z)
  : result (list R * R) :=
  let '(lo, hi) := limits vel_unit vel_min vel_max v_lim v_min v_max in
  if Rltb (cgs hi) (cgs lo) then Err ValueError else
  let n := n_channels vel_unit v_eff lo hi chan_width in
  if (max_chan <? n)%Z then Err ValueError
  else if (n + 1 <? 0)%Z then Err ValueError
  else Ok (linspace (v_num lo) (v_num hi) (Z.to_nat (n + 1)), v_unit lo).

(** make_cube.py:18-206 [make_ppv].  [pix_scale] is the length of a cell in cm, [sched] the
    order in which the processes finish (None for threads=1) *)
Definition min_list (l : list R) : R := match l with [] => 0 | a :: l => fold_left Rmin l a end.
Definition max_list (l : list R) : R := match l with [] => 0 | a :: l => fold_left Rmax l a end.
Definition values (f : field) : list R :=
  map (fun t => f_at f (fst (fst t)) (snd (fst t)) (snd t))
    (list_prod (list_prod (seq 0 (dim (f_shape f) 0)) (seq 0 (dim (f_shape f) 1))) (seq 0 (dim (f_shape f) 2))).
Definition make_ppv (vel_unit : R) (vel dens : field) (los : Z) (v_therm_sq pix_scale vel_disp vel_struct_index : R)
    (chan_width v_min v_max : option velocity) (max_chan : Z) (sched : option (list nat)) (return_hdu : bool)
  : result ((nat -> nat -> option (list R)) * list R) :=
  if existsb (fun d => Rltb d 0) (values dens) then Err ValueError else
  match real_axis los with
  | None => Err IndexError
  | Some axis =>
      let v_lim := sqrt (vel_disp ^ 2 + v_therm_sq) in
      let n_los := dim (f_shape vel) axis in
      let v_eff := sqrt (vel_disp ^ 2 * Rpower (2 / INR n_los) vel_struct_index + 2 * v_therm_sq) in
      eu <- vel_edges vel_unit (min_list (values vel)) (max_list (values vel)) v_lim v_eff v_min v_max chan_width max_chan ;;
      let '(edges, unit) := eu in
      let mapper yx :=
        v <- los_slice vel los (fst yx) (snd yx) ;;
        d <- los_slice dens los (fst yx) (snd yx) ;;
        s <- spectrum_maker vel_unit (map (fun e => e * unit) edges) v d v_therm_sq pix_scale ;;
        Ok (s, yx) in
      let tasks := pixels (image_dims (f_shape vel) axis) in
      outs <- match sched with
              | None => all_ok (map mapper tasks)
              | Some order => all_ok (map (fun o => match o with Some r => r | None => Err OtherError end) (pool_map mapper (0, 0)%nat tasks order))
              end ;;
      let axis_values := mids edges in
      if return_hdu && Nat.ltb (length axis_values) 2 then Err IndexError
      else Ok (assemble outs, axis_values)
  end.

(** sim_tools.py:28-84 [create_cube_header]: CRPIX1, CRPIX2 for imshape; world value of the
    spectral pixel i (CRPIX3 = 1) *)
Definition crpix_cube (imshape : nat * nat * nat) : R * R := (INR (dim imshape 1) / 2, INR (dim imshape 2) / 2).
Definition header_spectral (v0 dv : R) (i : nat) : R := v0 + (INR i + 1 - 1) * dv.
(** sim_tools.py:87-131 [create_image_header] *)
Definition crpix_image (imshape : nat * nat) : R * R := (INR (fst imshape) / 2, INR (snd imshape) / 2).
