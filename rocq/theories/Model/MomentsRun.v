(** Model of StatMoments as an object and of StatMoments_Distance,
    turbustat/statistics/stat_moments/highstatmoments.py. *)
From Coq Require Import Reals List Bool ZArith Arith.
From Verif Require Import Lib.PyBase Lib.Fl Lib.Arr Lib.Hist Model.Units Model.StatsUtils Model.StatMoments.
Import ListNotations.
Local Open Scope R_scope.

(** The image with its header: the shape, the data, the header as the base
    class reads it and as common_scale does (stats_utils.py:486-533) *)
Record picture : Type := mk_picture {
  pic_n0 : nat;
  pic_n1 : nat;
  pic_data : image;
  pic_stat : stat;
  pic_grid : grid }.

Definition moments4 : Type := fl * fl * fl * fl.
Definition mean_of (m : moments4) : fl := fst (fst (fst m)).
Definition variance_of (m : moments4) : fl := snd (fst (fst m)).
Definition skewness_of (m : moments4) : fl := snd (fst m).
Definition kurtosis_of (m : moments4) : fl := snd m.

(** the centres and the values *)
Definition hist : Type := list fl * list fl.
(** The [bins] of np.histogram here: a number, edges, or n blank edges (np.linspace
    between blanks): these are not refused, and all centres and values are blank *)
Inductive mbins : Type := Bins (b : bins_arg) | BlankEdges (n : nat).

(** highstatmoments.py:45-66: what the object holds.  [m_nbins] is None only
    after the assignment at line 593. *)
Record mobj : Type := mk_mobj {
  m_pic : picture;
  m_weights : image;
  m_radius : quantity;
  m_nbins : option nat;
  m_whole : option moments4;                 (* mean, variance, skewness, kurtosis *)
  m_maps : option (nat -> nat -> moments4);  (* _mean_array ... _kurtosis_array *)
  m_mean_hist : option hist;
  m_variance_hist : option hist;
  m_skewness_hist : option hist;
  m_kurtosis_hist : option hist }.

Definition with_radius (o : mobj) (q : quantity) : mobj :=
  mk_mobj (m_pic o) (m_weights o) q (m_nbins o) (m_whole o) (m_maps o) (m_mean_hist o) (m_variance_hist o) (m_skewness_hist o) (m_kurtosis_hist o).
Definition with_nbins (o : mobj) (n : option nat) : mobj :=
  mk_mobj (m_pic o) (m_weights o) (m_radius o) n (m_whole o) (m_maps o) (m_mean_hist o) (m_variance_hist o) (m_skewness_hist o) (m_kurtosis_hist o).
Definition with_whole (o : mobj) (m : moments4) : mobj :=
  mk_mobj (m_pic o) (m_weights o) (m_radius o) (m_nbins o) (Some m) (m_maps o) (m_mean_hist o) (m_variance_hist o) (m_skewness_hist o) (m_kurtosis_hist o).
Definition with_maps (o : mobj) (m : nat -> nat -> moments4) : mobj :=
  mk_mobj (m_pic o) (m_weights o) (m_radius o) (m_nbins o) (m_whole o) (Some m) (m_mean_hist o) (m_variance_hist o) (m_skewness_hist o) (m_kurtosis_hist o).
Definition with_mean_hist (o : mobj) (h : hist) : mobj :=
  mk_mobj (m_pic o) (m_weights o) (m_radius o) (m_nbins o) (m_whole o) (m_maps o) (Some h) (m_variance_hist o) (m_skewness_hist o) (m_kurtosis_hist o).
Definition with_variance_hist (o : mobj) (h : hist) : mobj :=
  mk_mobj (m_pic o) (m_weights o) (m_radius o) (m_nbins o) (m_whole o) (m_maps o) (m_mean_hist o) (Some h) (m_skewness_hist o) (m_kurtosis_hist o).
Definition with_skewness_hist (o : mobj) (h : hist) : mobj :=
  mk_mobj (m_pic o) (m_weights o) (m_radius o) (m_nbins o) (m_whole o) (m_maps o) (m_mean_hist o) (m_variance_hist o) (Some h) (m_kurtosis_hist o).
Definition with_kurtosis_hist (o : mobj) (h : hist) : mobj :=
  mk_mobj (m_pic o) (m_weights o) (m_radius o) (m_nbins o) (m_whole o) (m_maps o) (m_mean_hist o) (m_variance_hist o) (m_skewness_hist o) (Some h).

(** highstatmoments.py:45-66 [__init__]; int(np.sqrt(size)) is [floor_sqrt] *)
Definition floor_sqrt (n : nat) : nat := Z.to_nat (Int_part (sqrt (INR n))).
Definition moments_init (p : picture) (weights : option image) (radius : quantity) (nbins : option nat) : result mobj :=
  r <- set_radius (pic_stat p) (pic_n0 p) (pic_n1 p) radius ;;
  let nb := match nbins with None => floor_sqrt (pic_n0 p * pic_n1 p) | Some n => n end in
  Ok (mk_mobj p (weights_of weights) r (Some nb) None None None None None None).

(** What a call leaves in the object and what it raises. *)
Definition outcome : Type := mobj * option exn.
Definition also (r : outcome) (k : mobj -> outcome) : outcome :=
  match snd r with None => k (fst r) | Some e => (fst r, Some e) end.

(** highstatmoments.py:78-94: assigning to [radius] *)
Definition assign_radius (o : mobj) (q : quantity) : outcome :=
  match set_radius (pic_stat (m_pic o)) (pic_n0 (m_pic o)) (pic_n1 (m_pic o)) q with
  | Ok r => (with_radius o r, None)
  | Err e => (o, Some e)
  end.

(** highstatmoments.py:96-101 [array_moments] *)
Definition whole_moments (o : mobj) : outcome :=
  let p := m_pic o in
  (with_whole o (compute_moments (flat (pic_n0 p) (pic_n1 p) (pic_data p)) (flat (pic_n0 p) (pic_n1 p) (m_weights o))), None).

(** highstatmoments.py:103-189 [compute_spatial_distrib].  The four maps are
    allocated before the radius is looked at; [memory] is what np.empty finds. *)
Definition spatial (memory : nat -> nat -> moments4) (o : mobj) (radius : option quantity) (periodic : bool) (min_frac : R) : outcome :=
  if Rleb min_frac 0 || Rltb 1 min_frac then (o, Some ValueError)
  else
    also (with_maps o memory, None) (fun o =>
    also (match radius with None => (o, None) | Some q => assign_radius o q end) (fun o =>
      let p := m_pic o in
      match to_pixel (pic_stat p) (m_radius o) with
      | Err e => (o, Some e)
      | Ok q => (with_maps o (local_moments (pic_n0 p) (pic_n1 p) (Z.to_nat (ceil (hd 0 (q_vals q)))) periodic min_frac (pic_data p) (m_weights o)), None)
      end)).

(** One moment of the maps, flattened *)
Definition moment_list (o : mobj) (f : moments4 -> fl) : result (list fl) :=
  match m_maps o with
  | None => Err AttributeError
  | Some m => Ok (flat (pic_n0 (m_pic o)) (pic_n1 (m_pic o)) (fun y x => f (m y x)))
  end.
Definition one_hist (o : mobj) (f : moments4 -> fl) (bins : option mbins) : result hist :=
  a <- moment_list o f ;;
  match bins with
  | Some (BlankEdges n) => Ok (repeat NaN (n - 1), repeat NaN (n - 1))
  | Some (Bins b) => h <- spatial_histogram a (Some b) (option_map NumBins (m_nbins o)) ;; Ok (map Fin (fst h), snd h)
  | None => h <- spatial_histogram a None (option_map NumBins (m_nbins o)) ;; Ok (map Fin (fst h), snd h)
  end.

(** highstatmoments.py:244-298 [make_spatial_histograms]: one after the other *)
Record bins4 : Type := mk_bins { b_mean : option mbins; b_variance : option mbins; b_skewness : option mbins; b_kurtosis : option mbins }.
Definition put (r : result hist) (o : mobj) (w : mobj -> hist -> mobj) : outcome :=
  match r with Ok h => (w o h, None) | Err e => (o, Some e) end.
Definition spatial_hists (o : mobj) (b : bins4) : outcome :=
  also (put (one_hist o mean_of (b_mean b)) o with_mean_hist) (fun o =>
  also (put (one_hist o variance_of (b_variance b)) o with_variance_hist) (fun o =>
  also (put (one_hist o skewness_of (b_skewness b)) o with_skewness_hist) (fun o =>
  put (one_hist o kurtosis_of (b_kurtosis b)) o with_kurtosis_hist))).

(** highstatmoments.py:446-481 [run]: min_frac is not handed on *)
Definition moments_run (memory : nat -> nat -> moments4) (o : mobj) (radius : option quantity) (periodic : bool) (min_frac : R) (b : bins4) : outcome :=
  also (whole_moments o) (fun o =>
  also (spatial memory o radius periodic (8 / 10)) (fun o =>
  spatial_hists o b)).

(** The calls a user makes on one object; an exception ends a call, not the session. *)
Inductive mcall : Type :=
| SetRadius (q : quantity)
| Whole
| Spatial (radius : option quantity) (periodic : bool) (min_frac : R)
| Hists (b : bins4)
| Run (radius : option quantity) (periodic : bool) (min_frac : R) (b : bins4).
Definition do_mcall (memory : nat -> nat -> moments4) (o : mobj) (c : mcall) : outcome :=
  match c with
  | SetRadius q => assign_radius o q
  | Whole => whole_moments o
  | Spatial r p f => spatial memory o r p f
  | Hists b => spatial_hists o b
  | Run r p f b => moments_run memory o r p f b
  end.
Definition session (memory : nat -> nat -> moments4) (o : mobj) (cs : list mcall) : mobj :=
  fold_left (fun o c => fst (do_mcall memory o c)) cs o.

(** ** StatMoments_Distance *)
Inductive mgiven : Type := Data (p : picture) (weights : option image) | Object (o : mobj).
Definition pic_of (g : mgiven) : picture := match g with Data p _ => p | Object o => m_pic o end.

(** highstatmoments.py:546-564: radius is a scalar; common_scale is asked only
    for pixels.  The header of an object is taken to be there. *)
Definition scaled (s : R) (q : quantity) : quantity := mk_q (map (fun v => s * v) (q_vals q)) (q_unit q).
Definition two_radii (p1 p2 : picture) (radius : quantity) (tol : R) : result (quantity * quantity) :=
  if is_equivalent (q_unit radius) pix then
    s <- common_scale (pic_grid p1) (pic_grid p2) tol ;;
    Ok (if Reqb s 1 then (radius, radius)
        else if Rltb 1 s then (scaled s radius, radius)
        else (radius, scaled (/ s) radius))
  else Ok (radius, radius).

(** highstatmoments.py:577-602 and 604-626: the object of one image.  [first]
    tells the two apart: only the first gets the [nbins] argument (line 593). *)
Definition prepare (memory : nat -> nat -> moments4) (first : bool) (g : mgiven) (radius : quantity) (nbins : option nat) (self_nbins : nat) (periodic : bool) (min_frac : R) : result mobj :=
  match g with
  | Data p w =>
      o <- moments_init p w radius (Some self_nbins) ;;
      let r := spatial memory o None periodic min_frac in
      match snd r with None => Ok (fst r) | Some e => Err e end
  | Object o =>
      let missing := match m_maps o with None => true | Some _ => false end in
      a <- to_pixel (pic_stat (m_pic o)) (m_radius o) ;;
      b <- to_pixel (pic_stat (m_pic o)) radius ;;
      let differs := Rleb 1 (Rabs (hd 0 (q_vals a) - hd 0 (q_vals b))) in
      let r0 : outcome := if differs then also (assign_radius o radius) (fun o => (if first then with_nbins o nbins else o, None)) else (o, None) in
      let r := also r0 (fun o => if missing || differs then spatial memory o None periodic min_frac else (o, None)) in
      match snd r with None => Ok (fst r) | Some e => Err e end
  end.

(** highstatmoments.py:807-811 [_auto_nbins] and 566-575 *)
Definition size_of (p : picture) : nat := (pic_n0 p * pic_n1 p)%nat.
Definition nbins_of (p1 p2 : picture) (nbins : option nat) : nat :=
  match nbins with Some n => n | None => floor_sqrt (Nat.min (size_of p1) (size_of p2)) end.

(** highstatmoments.py:526-626 [__init__] *)
Record margs : Type := mk_margs { ma_radius : quantity; ma_min_frac : R; ma_nbins : option nat; ma_periodic1 : bool; ma_periodic2 : bool }.
Definition moments_pair (memory : nat -> nat -> moments4) (tol : R) (g1 g2 : mgiven) (a : margs) : result (mobj * mobj) :=
  rr <- two_radii (pic_of g1) (pic_of g2) (ma_radius a) tol ;;
  let nb := nbins_of (pic_of g1) (pic_of g2) (ma_nbins a) in
  o1 <- prepare memory true g1 (fst rr) (ma_nbins a) nb (ma_periodic1 a) (ma_min_frac a) ;;
  o2 <- prepare memory false g2 (snd rr) (ma_nbins a) nb (ma_periodic2 a) (ma_min_frac a) ;;
  Ok (o1, o2).

(** highstatmoments.py:628-656 [create_common_histograms].  Without a range
    np.linspace gives blanks.  (Infinite moments are not told apart from blank ones.) *)
Definition common_edges (o1 o2 : mobj) (f : moments4 -> fl) (nb : nat) : result mbins :=
  l1 <- moment_list o1 f ;;
  l2 <- moment_list o2 f ;;
  b <- common_histogram_bins 1 1 l1 l2 (Some nb) false None None ;;
  Ok (match b with Some (e, _) => Bins (Edges e) | None => BlankEdges nb end).
Definition done (r : outcome) : result mobj := match snd r with None => Ok (fst r) | Some e => Err e end.
Definition common_hists (o1 o2 : mobj) (nb : nat) : result (mobj * mobj) :=
  es <- common_edges o1 o2 skewness_of nb ;;
  ek <- common_edges o1 o2 kurtosis_of nb ;;
  h1 <- done (spatial_hists o1 (mk_bins None None (Some es) (Some ek))) ;;
  h2 <- done (spatial_hists o2 (mk_bins None None (Some es) (Some ek))) ;;
  Ok (h1, h2).

(** highstatmoments.py:682-692: np.diff(centres)[0] and hellinger; a blank bin
    width makes the distance blank *)
Definition compare (h1 h2 : option hist) : result fl :=
  match h1, h2 with
  | Some (Fin c0 :: Fin c1 :: _, v1), Some (_, v2) => Ok (hellinger v1 v2 (c1 - c0))
  | Some (_ :: _ :: _, _), Some _ => Ok NaN
  | Some _, Some _ => Err IndexError
  | _, _ => Err AttributeError
  end.
(** highstatmoments.py:658-751 [distance_metric]: (kurtosis_distance, skewness_distance) *)
Definition moments_metric (o1 o2 : mobj) (self_nbins : nat) (nbins : option nat) : result (fl * fl) :=
  h <- common_hists o1 o2 (match nbins with None => self_nbins | Some n => n end) ;;
  k <- compare (m_kurtosis_hist (fst h)) (m_kurtosis_hist (snd h)) ;;
  s <- compare (m_skewness_hist (fst h)) (m_skewness_hist (snd h)) ;;
  Ok (k, s).
Definition moments_distance (memory : nat -> nat -> moments4) (tol : R) (g1 g2 : mgiven) (a : margs) (nbins : option nat) : result (fl * fl) :=
  o <- moments_pair memory tol g1 g2 a ;;
  moments_metric (fst o) (snd o) (nbins_of (pic_of g1) (pic_of g2) (ma_nbins a)) nbins.
