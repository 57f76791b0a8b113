(** Model of turbustat/statistics/genus/genus.py.  An image is a function of
    the pixel with a shape (n0, n1).  The smoothing is an argument. *)
From Coq Require Import Reals List Bool ZArith Arith.
From Verif Require Import Lib.PyBase Lib.Fl Spec.Regions Model.Distances Model.Units.
Import ListNotations.
Local Open Scope R_scope.

Definition pixels (n0 n1 : nat) : list pixel := list_prod (seq 0 n0) (seq 0 n1).
Definition eqp (p q : pixel) : bool := Nat.eqb (fst p) (fst q) && Nat.eqb (snd p) (snd q).

(** scipy.ndimage.generate_binary_structure(2, connectivity): the offsets of
    the 3x3 array whose coordinates sum to at most max(1, connectivity) *)
Definition struct_near (connectivity : Z) (p q : pixel) : bool :=
  let d a b := Z.abs (Z.of_nat a - Z.of_nat b) in
  let dy := d (fst p) (fst q) in
  let dx := d (snd p) (snd q) in
  (Z.leb dy 1 && Z.leb dx 1 && Z.leb (dy + dx) (Z.max 1 connectivity))%Z%bool.

(** scipy.ndimage.label: the provisional labels of neighbouring pixels of the
    mask are merged, then the labels are numbered from 1 in the order of the
    pixels. *)
Definition merge (l : pixel -> pixel) (e : pixel * pixel) : pixel -> pixel :=
  fun k => if eqp (l k) (l (fst e)) then l (snd e) else l k.
Definition provisional (connectivity : Z) (n0 n1 : nat) (mask : pixel -> bool) : pixel -> pixel :=
  let fg := filter mask (pixels n0 n1) in
  fold_left merge (filter (fun e => struct_near connectivity (fst e) (snd e)) (list_prod fg fg)) (fun k => k).
Fixpoint uniq (l : list pixel) : list pixel :=
  match l with [] => [] | a :: r => a :: filter (fun b => negb (eqp a b)) (uniq r) end.
Fixpoint index_of (a : pixel) (l : list pixel) : nat :=
  match l with [] => 0%nat | b :: r => if eqp a b then 0%nat else S (index_of a r) end.
Definition nd_label (connectivity : Z) (n0 n1 : nat) (mask : pixel -> bool) : (pixel -> nat) * nat :=
  let l := provisional connectivity n0 n1 mask in
  let reps := uniq (map l (filter mask (pixels n0 n1))) in
  (fun p => if mask p then S (index_of (l p) reps) else 0%nat, length reps).

(** genus.py:661-690 [remove_small_objects] *)
Definition remove_small_objects (n0 n1 : nat) (arr : pixel -> bool) (min_size connectivity : Z) : pixel -> bool :=
  let '(labels, num) := nd_label connectivity n0 n1 arr in
  let sizes := map (fun i => length (filter (fun p => arr p && Nat.eqb (labels p) i) (pixels n0 n1))) (seq 1 num) in
  fold_left (fun arr is =>
    if Z.leb min_size (Z.of_nat (snd is)) then arr
    else fun p => if Nat.eqb (labels p) (fst is + 1) then false else arr p)
    (combine (seq 0 num) sizes) arr.

(** genus.py:324-340: the genus of one image at one threshold *)
Definition genus_at (n0 n1 : nat) (smooth_img : pixel -> fl) (thresh : fl) (enable_small_removal : bool) (min_size connectivity : Z) : Z :=
  let high_density p := fltb thresh (smooth_img p) in
  let low_density p := fltb (smooth_img p) thresh in
  let high_density := if enable_small_removal then remove_small_objects n0 n1 high_density min_size connectivity else high_density in
  let low_density := if enable_small_removal then remove_small_objects n0 n1 low_density min_size connectivity else low_density in
  let high_density_num := snd (nd_label connectivity n0 n1 high_density) in
  let low_density_num := snd (nd_label connectivity n0 n1 low_density) in
  (Z.of_nat high_density_num - Z.of_nat low_density_num)%Z.

(** genus.py:271-285: the minimum size in pixels.  [beam] holds the beam axes in
    pixels; [int(np.floor(x))] is [Int_part x]; an area with units goes through
    [_to_pixel_area]. *)
Inductive size_arg := SizePix (n : Z) | SizeArea (area : quantity).
Definition min_size_of (s : stat) (beam : option (R * R)) (use_beam : bool) (min_size : size_arg) : result Z :=
  if use_beam then
    match beam with
    | None => Err AttributeError
    | Some (major, minor) => Ok (Int_part (2 * PI * major * minor / sqrt (8 * ln 2)))
    end
  else match min_size with
       | SizePix n => Ok n
       | SizeArea a => r <- to_pixel_area s a ;; Ok (Int_part (hd 0 (q_vals r)))
       end.

(** genus.py:299-340 [make_genus_curve]; [smooth width] is the convolution with a
    Gaussian kernel of that width *)
Definition make_genus_curve (smooth : R -> (pixel -> fl) -> pixel -> fl) (n0 n1 : nat) (data : pixel -> fl) (thresholds : list fl)
  (smoothing_radii : list (option R)) (enable_small_removal : bool) (min_size connectivity : Z) : list (list Z) :=
  map (fun width =>
    let smooth_img := match width with None => data | Some w => smooth w data end in
    map (fun thresh => genus_at n0 n1 smooth_img thresh enable_small_removal min_size connectivity) thresholds)
    smoothing_radii.

(** genus.py:94-155: the thresholds.  [percentile] is np.nanpercentile of the
    data; units are those of the data. *)
Definition thresholds_of (thresholds : option (list R)) (data_min data_max : R) (percentile : R -> R) (min_value max_value : option R)
  (lowdens_percent highdens_percent : R) (numpts : nat) : list R :=
  match thresholds with
  | Some t => t
  | None =>
      let min_value := match min_value with
                       | Some v => v
                       | None => if Reqb lowdens_percent 0 then data_min else percentile lowdens_percent
                       end in
      let max_value := match max_value with
                       | Some v => v
                       | None => if Reqb highdens_percent 100 then data_max else percentile highdens_percent
                       end in
      linspace min_value max_value numpts
  end.

(** genus.py:157-168, 184-203: the smoothing radii, in pixels; None stands for no
    smoothing *)
Definition smoothing_radii_of (enable_smoothing : bool) (smoothing_radii : option (list R)) (n0 n1 : nat) : result (list (option R)) :=
  if enable_smoothing then
    let values := match smoothing_radii with None => [1] | Some l => l end in
    if existsb (fun v => Rltb v 1) values then Err ValueError
    else if existsb (fun v => Rltb (1 / 2 * INR (Nat.min n0 n1)) v) values then Err ValueError
    else Ok (map Some values)
  else Ok [None].

(** genus.py:350-393 [make_genus_stats_table]: the same table is appended
    before and after its last column is added, and both entries are that
    table.  A table is its columns (thresholds, genus_value, data_mean,
    data_std, smooth_radius). *)
Definition table : Type := (list R * list Z * list fl * list fl * list (option R))%type.
Definition make_genus_stats_table (thresholds : list R) (genus_stats : list (list Z)) (means stds : list fl) (radii : list (option R)) : list table :=
  flat_map (fun ii =>
    let n := length thresholds in
    let t := (thresholds, nth ii genus_stats [], repeat (nth ii means NaN) n, repeat (nth ii stds NaN) n, repeat (nth ii radii None) n) in
    [t; t]) (seq 0 (length radii)).

(** genus.py:555-566 [Genus_Distance]: numpts is not handed to the two Genus
    objects, which use their default of 100 points. *)
Definition distance_thresholds (data_min data_max : R) (percentile : R -> R) (min_value max_value : option R)
  (lowdens_percent highdens_percent : R) (numpts : nat) : list R :=
  thresholds_of None data_min data_max percentile min_value max_value lowdens_percent highdens_percent 100.

(** genus.py:693-717 [model_gaussian_genus] *)
Definition model_gaussian_genus (x A theta_C : R) : R :=
  A / theta_C ^ 2 * x * exp (- x ^ 2 / 2) / Rpower (2 * PI) (3 / 2).
