(** Specification vocabulary for StatMoments objects and the distance between two of them. *)
From Coq Require Import Reals List Bool ZArith Arith.
From Verif Require Import Lib.PyBase Lib.Fl Spec.Distrib Model.Units Model.StatsUtils Model.StatMoments Model.MomentsRun.
Import ListNotations.
Local Open Scope R_scope.

(** Every pixel is a number or blank; every pixel is a number; all weights are positive numbers. *)
Definition readable (p : picture) : Prop := forall i j, (i < pic_n0 p)%nat -> (j < pic_n1 p)%nat -> blankable (pic_data p i j).
Definition complete (p : picture) : Prop := forall i j, (i < pic_n0 p)%nat -> (j < pic_n1 p)%nat -> is_fin (pic_data p i j) = true.
Definition weighted (p : picture) (w : option image) : Prop :=
  match w with None => True | Some w => forall i j, (i < pic_n0 p)%nat -> (j < pic_n1 p)%nat -> exists v, w i j = Fin v /\ 0 < v end.

(** The picture in other units: a factor and an offset, blank pixels stay blank. *)
Definition recalibrated (a b : R) (p : picture) : picture :=
  mk_picture (pic_n0 p) (pic_n1 p) (fun i j => match pic_data p i j with Fin x => Fin (a * x + b) | v => v end) (pic_stat p) (pic_grid p).
(** The picture moved by (s, t) pixels with wrapped boundaries. *)
Definition moved (s t : nat) (p : picture) : picture :=
  mk_picture (pic_n0 p) (pic_n1 p) (shifted (pic_n0 p) (pic_n1 p) s t (pic_data p)) (pic_stat p) (pic_grid p).
Definition moved_weights (p : picture) (s t : nat) (w : option image) : option image := option_map (shifted (pic_n0 p) (pic_n1 p) s t) w.

(** A radius that an object takes: at least two pixels, at most half of the smaller side. *)
Definition acceptable (p : picture) (q : quantity) : bool :=
  match to_pixel (pic_stat p) q with
  | Ok px => Rleb 2 (hd 0 (q_vals px)) && Rleb (hd 0 (q_vals px)) (INR (Nat.min (pic_n0 p) (pic_n1 p)) / 2)
  | Err _ => false
  end.
Definition share (f : R) : bool := Rltb 0 f && Rleb f 1.
(** The radius in force after a history: the last acceptable one that was assigned or given to a call. *)
Definition in_force (p : picture) (q : quantity) (cs : list mcall) : quantity :=
  fold_left (fun q c =>
    match c with
    | SetRadius q' | Run (Some q') _ _ _ => if acceptable p q' then q' else q
    | Spatial (Some q') _ f => if share f && acceptable p q' then q' else q
    | _ => q
    end) cs q.
(** [k] is the radius in pixels, rounded up. *)
Definition rounded_up (p : picture) (q : quantity) (k : nat) : Prop :=
  exists px, to_pixel (pic_stat p) q = Ok px /\ INR k - 1 < hd 0 (q_vals px) <= INR k.

(** The moments around pixel (y, x): blank if the share of numbers in the square around the disc is too small. *)
Definition around (p : picture) (w : image) (k : nat) (periodic : bool) (min_frac : R) (y x : nat) : moments4 :=
  let near a := map (at_offset periodic (pic_n0 p) (pic_n1 p) a y x) in
  if Rltb (finite_share (near (pic_data p) (square k))) min_frac || Rltb (finite_share (near w (square k))) min_frac
  then (NaN, NaN, NaN, NaN)
  else compute_moments (near (pic_data p) (disc k)) (near w (disc k)).
(** The values of one moment at all pixels. *)
Definition values_of (p : picture) (m : nat -> nat -> moments4) (f : moments4 -> fl) : list fl :=
  map (fun yx => f (m (fst yx) (snd yx))) (list_prod (seq 0 (pic_n0 p)) (seq 0 (pic_n1 p))).
(** [h] is the histogram of the values: of n bins over their range, or with the given bins. *)
Definition recorded (values : list fl) (n : nat) (bins : option mbins) (h : hist) : Prop :=
  match bins with
  | None => exists c, Model.StatMoments.spatial_histogram values None (Some (Lib.Hist.NumBins n)) = Ok (c, snd h) /\ fst h = map Fin c
  | Some (Bins b) => exists c, Model.StatMoments.spatial_histogram values (Some b) None = Ok (c, snd h) /\ fst h = map Fin c
  | Some (BlankEdges n) => h = (repeat NaN (n - 1), repeat NaN (n - 1))
  end.

(** ** Two images *)
(** One moment at all pixels of an image, around which a region of radius k is taken. *)
Definition local_values (p : picture) (w : option image) (k : nat) (periodic : bool) (min_frac : R) (f : moments4 -> fl) : list fl :=
  values_of p (around p (weights_of w) k periodic min_frac) f.
(** The pixels have a size. *)
Definition sized (p : picture) : Prop := scale0 (pic_grid p) <> 0.
(** The radii of the two images for a radius in pixels are the same angle, and the image with the
    larger pixels gets the radius as it is given; any other radius is used as it is given. *)
Definition matched (p1 p2 : picture) (q q1 q2 : quantity) : Prop :=
  if is_equivalent (q_unit q) pix then
    let s1 := Rabs (scale0 (pic_grid p1)) in let s2 := Rabs (scale0 (pic_grid p2)) in
    q_unit q1 = q_unit q /\ q_unit q2 = q_unit q /\
    Forall2 (fun v1 v2 => v1 * s1 = v2 * s2) (q_vals q1) (q_vals q2) /\
    (s2 <= s1 -> q1 = q) /\ (s1 <= s2 -> q2 = q)
  else q1 = q /\ q2 = q.
(** The two images in the other order. *)
Definition other_order (a : margs) : margs := mk_margs (ma_radius a) (ma_min_frac a) (ma_nbins a) (ma_periodic2 a) (ma_periodic1 a).
(** An object made for the image and asked for its maps with these options stands for the image. *)
Definition stands_for (memory : nat -> nat -> moments4) (g : mgiven) (p : picture) (w : option image) (q : quantity) (periodic : bool) (min_frac : R) : Prop :=
  g = Data p w \/ exists n o0 o, g = Object o /\ (0 < n)%nat /\ moments_init p w q (Some n) = Ok o0 /\ spatial memory o0 None periodic min_frac = (o, None).
