(** Model of turbustat/statistics/stat_moments/highstatmoments.py.  An image is
    a function of the pixel with a shape (n0, n1). *)
From Coq Require Import Reals List Bool ZArith Arith.
From Verif Require Import Lib.PyBase Lib.Fl Lib.Arr Lib.Hist Model.Units.
Import ListNotations.
Local Open Scope R_scope.

(** x ** 3., x ** 4. *)
Definition fcube (x : fl) : fl := fmul x (fsqr x).
Definition fquart (x : fl) : fl := fsqr (fsqr x).

(** highstatmoments.py:770-804 [compute_moments] (flattened arrays) *)
Definition compute_moments (img weights : list fl) : fl * fl * fl * fl :=
  let mean := fdiv (nansum (map2 fmul img weights)) (nansum weights) in
  let variance := fdiv (nansum (map2 (fun x w => fmul w (fsqr (fsub x mean))) img weights)) (nansum weights) in
  let std := fsqrt variance in
  let skewness := fdiv (nansum (map2 (fun x w => fmul w (fcube (fdiv (fsub x mean) std))) img weights)) (nansum weights) in
  let kurtosis := fsub (fdiv (nansum (map2 (fun x w => fmul w (fquart (fdiv (fsub x mean) std))) img weights)) (nansum weights)) (Fin 3) in
  (mean, variance, skewness, kurtosis).

Definition image : Type := nat -> nat -> fl.
Definition flat (n0 n1 : nat) (a : image) : list fl := map (fun p => a (fst p) (snd p)) (list_prod (seq 0 n0) (seq 0 n1)).

(** highstatmoments.py:48-55: uniform weights where none are given (the data's
    blanks included); 96-101 [array_moments] *)
Definition weights_of (weights : option image) : image := match weights with None => fun _ _ => Fin 1 | Some w => w end.
Definition array_moments (n0 n1 : nat) (data : image) (weights : option image) : fl * fl * fl * fl :=
  compute_moments (flat n0 n1 data) (flat n0 n1 (weights_of weights)).

(** highstatmoments.py:754-767 [circular_region] *)
Definition circular_region (radius : nat) : image := fun a b =>
  let dx := (Z.of_nat a - Z.of_nat radius)%Z in
  let dy := (Z.of_nat b - Z.of_nat radius)%Z in
  if Z.ltb (dx * dx + dy * dy) (Z.of_nat radius * Z.of_nat radius) then Fin 1 else NaN.

(** highstatmoments.py:140-145: np.pad, mode "wrap" or padwithnans *)
Definition pad (n0 n1 r : nat) (periodic : bool) (a : image) : image := fun i j =>
  if periodic then
    a (Z.to_nat ((Z.of_nat i - Z.of_nat r) mod Z.of_nat n0)) (Z.to_nat ((Z.of_nat j - Z.of_nat r) mod Z.of_nat n1))
  else if Nat.leb r i && Nat.ltb i (n0 + r) && Nat.leb r j && Nat.ltb j (n1 + r) then a (i - r)%nat (j - r)%nat else NaN.

(** highstatmoments.py:158-189: the moments at one pixel; (i, j) is its position in
    the padded arrays *)
Definition slice2 (a : image) (i j r : nat) : image := fun p q => a (i - r + p)%nat (j - r + q)%nat.
Definition valid_frac (n : nat) (s : image) : R := INR (length (filter is_fin (flat n n s))) / INR (n * n).
Definition local_moments (n0 n1 r : nat) (periodic : bool) (min_frac : R) (data weights : image) (y x : nat) : fl * fl * fl * fl :=
  let pad_img := pad n0 n1 r periodic data in
  let pad_weights := pad n0 n1 r periodic weights in
  let circle_mask := circular_region r in
  let i := (y + r)%nat in let j := (x + r)%nat in
  let n := (2 * r + 1)%nat in
  let img_slice := slice2 pad_img i j r in
  let wgt_slice := slice2 pad_weights i j r in
  if Rltb (valid_frac n img_slice) min_frac || Rltb (valid_frac n wgt_slice) min_frac then (NaN, NaN, NaN, NaN)
  else compute_moments (flat n n (fun p q => fmul (img_slice p q) (circle_mask p q)))
                       (flat n n (fun p q => fmul (wgt_slice p q) (circle_mask p q))).

(** np.ceil *)
Definition ceil (x : R) : Z := (- Int_part (- x))%Z.

(** highstatmoments.py:72-95: the radius setter; what it returns is the radius that is stored *)
Definition set_radius (s : stat) (n0 n1 : nat) (value : quantity) : result quantity :=
  p <- to_pixel s value ;;
  let pix_rad := hd 0 (q_vals p) in
  if Rltb pix_rad 2 then Err ValueError
  else if Rltb (INR (Nat.min n0 n1) / 2) pix_rad then Err ValueError
  else Ok value.

(** highstatmoments.py:103-189 [compute_spatial_distrib] *)
Definition compute_spatial_distrib (s : stat) (n0 n1 : nat) (data weights : image) (self_radius : quantity)
    (radius : option quantity) (periodic : bool) (min_frac : R) : result (nat -> nat -> fl * fl * fl * fl) :=
  if Rleb min_frac 0 || Rltb 1 min_frac then Err ValueError
  else
    r <- match radius with None => Ok self_radius | Some v => set_radius s n0 n1 v end ;;
    p <- to_pixel s r ;;
    let pix_rad := Z.to_nat (ceil (hd 0 (q_vals p))) in
    Ok (local_moments n0 n1 pix_rad periodic min_frac data weights).

(** highstatmoments.py:446-478 [run]: the maps; min_frac is not handed on *)
Definition run_maps (s : stat) (n0 n1 : nat) (data weights : image) (self_radius : quantity)
    (radius : option quantity) (periodic : bool) (min_frac : R) : result (nat -> nat -> fl * fl * fl * fl) :=
  compute_spatial_distrib s n0 n1 data weights self_radius radius periodic (8 / 10).

(** highstatmoments.py:244-298 [make_spatial_histograms], one moment: the blanks are
    left out, and what comes back are the centres and the densities.  An unset
    number of bins makes np.histogram raise TypeError. *)
Definition spatial_histogram (arr : list fl) (bins nbins : option bins_arg) : result (list R * list fl) :=
  match (match bins with None => nbins | Some b => Some b end) with
  | None => Err TypeError
  | Some b =>
      h <- histogram_fl (nonnan arr) b ;;
      let '(hist, edges) := h in Ok (mid edges, hist)
  end.

(** highstatmoments.py:546-564: the two radii, in pixels *)
Definition distance_radii (scale radius : R) : R * R :=
  if Reqb scale 1 then (radius, radius)
  else if Rltb 1 scale then (scale * radius, radius)
  else (radius, radius / scale).

(** highstatmoments.py:566-626: the [nbins] attribute of the two StatMoments.  [pre]
    describes a StatMoments handed in: its own nbins and whether its
    radius differs by a pixel or more. *)
Definition distance_nbins1 (nbins : option nat) (auto : nat) (pre : option (nat * bool)) : option nat :=
  let self_nbins := match nbins with None => auto | Some n => n end in
  match pre with
  | None => Some self_nbins
  | Some (own, differs) => if differs then nbins else Some own
  end.
Definition distance_nbins2 (nbins : option nat) (auto : nat) (pre : option (nat * bool)) : option nat :=
  let self_nbins := match nbins with None => auto | Some n => n end in
  match pre with None => Some self_nbins | Some (own, _) => Some own end.
(** highstatmoments.py:630-658: the mean histograms of [create_common_histograms] *)
Definition distance_mean_hists (nbins : option nat) (auto : nat) (pre1 pre2 : option (nat * bool)) (mean1 mean2 : list fl)
  : result ((list R * list fl) * (list R * list fl)) :=
  h1 <- spatial_histogram mean1 None (option_map NumBins (distance_nbins1 nbins auto pre1)) ;;
  h2 <- spatial_histogram mean2 None (option_map NumBins (distance_nbins2 nbins auto pre2)) ;;
  Ok (h1, h2).
