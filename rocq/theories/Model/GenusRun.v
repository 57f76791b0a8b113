(** Model of the Genus objects of turbustat/statistics/genus/genus.py through runs and changes of
    the smoothing radii, and of Genus_Distance from its two images.  Images carry no unit here
    (units of the thresholds are not modelled); the plots are left out. *)
From Coq Require Import Reals List ZArith Arith Bool.
From Verif Require Import Lib.PyBase Lib.Fl Lib.RSum Spec.Regions Model.Units Model.StatsUtils Model.Distances Model.Genus.
Import ListNotations.
Local Open Scope R_scope.

(** An image with its shape (NaN: blank) *)
Record image := mk_im { i_n0 : nat; i_n1 : nat; i_pix : pixel -> fl }.
Definition values (im : image) : list fl := map (i_pix im) (pixels (i_n0 im) (i_n1 im)).

(** Radii as given: a list, an array or a number of pixels, or a Quantity with one value or an
    array *)
Inductive radii_arg := RadList (l : list R) | RadArray (l : list R) | RadNumber (r : R) | RadQuantity (scalar : bool) (q : quantity).
(** _smoothing_radii: [None], an array, or a number *)
Inductive radii := NoSmoothing | Radii (l : list R) | OneRadius (r : R).

(** Arguments of Genus *)
Record gargs := mk_ga { a_min : option R; a_max : option R; a_low : R; a_high : R; a_numpts : nat; a_thresholds : option (list R); a_smoothing : bool; a_radii : option radii_arg }.
Definition defaults : gargs := mk_ga None None 0 100 100 None true None.
(** Arguments of make_genus_curve; [k_conv] stands for the keywords of convolve_fft *)
Record curve_args := mk_k { k_removal : bool; k_beam : bool; k_size : size_arg; k_connectivity : Z; k_keep : bool; k_match : bool; k_conv : nat }.
Definition curve_defaults : curve_args := mk_k true false (SizePix 4) 2 false false 0.

(** A Genus object: the image, the header and distance, the beam in pixels; attributes that are
    set by make_genus_curve are None before *)
Record gobj := mk_g { g_image : image; g_stat : stat; g_beam : option (R * R); g_smoothing : bool; g_thresholds : list fl; g_radii : radii;
  g_stats : option (list (list fl)); g_means : option (list fl); g_stds : option (list fl); g_images : option (list image) }.
Definition outcome := (gobj * option exn)%type.

Definition with_radii (o : gobj) (r : radii) : gobj :=
  mk_g (g_image o) (g_stat o) (g_beam o) (g_smoothing o) (g_thresholds o) r (g_stats o) (g_means o) (g_stds o) (g_images o).
Definition with_images (o : gobj) (l : option (list image)) : gobj :=
  mk_g (g_image o) (g_stat o) (g_beam o) (g_smoothing o) (g_thresholds o) (g_radii o) (g_stats o) (g_means o) (g_stds o) l.
Definition with_curves (o : gobj) (st : list (list fl)) (means stds : list fl) : gobj :=
  mk_g (g_image o) (g_stat o) (g_beam o) (g_smoothing o) (g_thresholds o) (g_radii o) (Some st) (Some means) (Some stds) (g_images o).

(** genus.py:184-203, the setter of smoothing_radii.  A list cannot be compared with 1.0; a
    Quantity in pixels cannot either. *)
Definition checked (n0 n1 : nat) (l : list R) (r : radii) : result radii :=
  if existsb (fun v => Rltb v 1) l then Err ValueError
  else if existsb (fun v => Rltb (1 / 2 * INR (Nat.min n0 n1)) v) l then Err ValueError
  else Ok r.
Definition radii_of (smoothing : bool) (n0 n1 : nat) (a : radii_arg) : result radii :=
  if smoothing then
    match a with
    | RadList _ => Err TypeError
    | RadArray l => checked n0 n1 l (Radii l)
    | RadNumber r => checked n0 n1 [r] (OneRadius r)
    | RadQuantity _ _ => Err UnitConversionError
    end
  else Ok NoSmoothing.
Definition set_radii (o : gobj) (a : radii_arg) : outcome :=
  match radii_of (g_smoothing o) (i_n0 (g_image o)) (i_n1 (g_image o)) a with
  | Err e => (o, Some e)
  | Ok r => (with_radii o r, None)
  end.

(** np.linspace of two values of the data; both are NaN when the image is blank *)
Definition flinspace (a b : fl) (n : nat) : list fl :=
  match a, b with Fin x, Fin y => map Fin (linspace x y n) | _, _ => repeat NaN n end.

(** An option of Genus_Distance: one for both images, or a list *)
Inductive option_of (A : Type) := Both (a : A) | Each (l : list A).
Arguments Both {A} a. Arguments Each {A} l.

Section Outside.
(** np.nanpercentile; the convolution of an image with a Gaussian kernel of some width, for some
    keywords, with or without a kernel of the shape of the data, which may raise; the values of
    np.empty *)
Variable percentile : list fl -> R -> fl.
Variable smooth : nat -> bool -> R -> image -> result image.
Variable memory : fl.

(** genus.py:74-168 [Genus.__init__]; [st] and [beam] come from the header, which is dropped for
    an array *)
Definition thresholds_fl (im : image) (a : gargs) : list fl :=
  match a_thresholds a with
  | Some t => map Fin t
  | None =>
      let lo := match a_min a with Some v => Fin v | None => if Reqb (a_low a) 0 then nanmin (values im) else percentile (values im) (a_low a) end in
      let hi := match a_max a with Some v => Fin v | None => if Reqb (a_high a) 100 then nanmax (values im) else percentile (values im) (a_high a) end in
      flinspace lo hi (a_numpts a)
  end.
Definition genus_init (im : image) (st : stat) (beam : option (R * R)) (a : gargs) : result gobj :=
  r <- (if a_smoothing a then
          match a_radii a with
          | None => radii_of true (i_n0 im) (i_n1 im) (RadArray [1])
          | Some (RadQuantity scalar q) =>
              p <- to_pixel st q ;;
              radii_of true (i_n0 im) (i_n1 im) (if scalar then RadNumber (hd 0 (q_vals p)) else RadArray (q_vals p))
          | Some v => radii_of true (i_n0 im) (i_n1 im) v
          end
        else radii_of false (i_n0 im) (i_n1 im) (RadList [])) ;;
  Ok (mk_g im st beam (a_smoothing a) (thresholds_fl im a) r None None None None).

(** A loop that stops at the first exception, with what was done before *)
Fixpoint until_raised {A B} (f : A -> result B) (l : list A) : list B * option exn :=
  match l with
  | [] => ([], None)
  | a :: r => match f a with Err e => ([], Some e) | Ok b => let done := until_raised f r in (b :: fst done, snd done) end
  end.

(** genus.py:299-340, for one radius: the image, and the curve, mean and standard deviation *)
Definition smoothed (im : image) (k : curve_args) (w : option R) : result image :=
  match w with None => Ok im | Some r => smooth (k_conv k) (k_match k) r im end.
Definition at_radius (o : gobj) (k : curve_args) (m : Z) (w : option R) : result (list fl * (fl * fl) * image) :=
  s <- smoothed (g_image o) k w ;;
  Ok (map (fun t => Fin (IZR (genus_at (i_n0 s) (i_n1 s) (i_pix s) t (k_removal k) m (k_connectivity k)))) (g_thresholds o),
      (nanmean (values s), nanstd (values s)), s).
Definition widths (r : radii) : list (option R) := match r with NoSmoothing => [None] | Radii l => map Some l | OneRadius x => [Some x] end.
(** genus.py:237-340 [make_genus_curve]: the arrays are made by np.empty before the loop *)
Definition make_curve (o : gobj) (k : curve_args) : outcome :=
  let o1 := if k_keep k then with_images o (Some []) else o in
  match min_size_of (g_stat o) (g_beam o) (k_beam k) (k_size k) with
  | Err e => (o1, Some e)
  | Ok m =>
      match g_radii o with
      | OneRadius _ => (o1, Some TypeError)   (* len() of a number *)
      | r =>
          let loop := until_raised (at_radius o k m) (widths r) in
          let left_over {A} (x : A) := repeat x (length (widths r) - length (fst loop)) in
          let o2 := with_curves o1 (map (fun d => fst (fst d)) (fst loop) ++ left_over (map (fun _ => memory) (g_thresholds o)))
                                (map (fun d => fst (snd (fst d))) (fst loop) ++ left_over memory)
                                (map (fun d => snd (snd (fst d))) (fst loop) ++ left_over memory) in
          (if k_keep k then with_images o2 (Some (map snd (fst loop))) else o2, snd loop)
      end
  end.

(** Calls on an object: runs (genus.py:456-478) and assignments to smoothing_radii *)
Inductive call := Run (k : curve_args) | SetRadii (a : radii_arg).
Definition do_call (o : gobj) (c : call) : outcome := match c with Run k => make_curve o k | SetRadii a => set_radii o a end.
Definition history (o : gobj) (l : list call) : gobj := fold_left (fun o c => fst (do_call o c)) l o.
(** genus.py:200-209, 342-347: the properties *)
Definition smoothed_images (o : gobj) : result (list image) := match g_images o with Some l => Ok l | None => Err ValueError end.
Definition genus_stats (o : gobj) : result (list (list fl)) := match g_stats o with Some l => Ok l | None => Err AttributeError end.

(** stats_utils.py:32-36 [standardize] of an image *)
Definition standardized (im : image) : image :=
  mk_im (i_n0 im) (i_n1 im) (fun p => fdiv (fsub (i_pix im p) (nanmean (values im))) (nanstd (values im))).

Definition pick {A} (o : option_of A) (i : nat) : result A :=
  match o with Both a => Ok a | Each l => match nth_error l i with Some a => Ok a | None => Err IndexError end end.
Record dargs := mk_d { d_radii : option radii_arg; d_numpts : nat; d_min : option_of (option R); d_max : option_of (option R); d_low : option_of R; d_high : option_of R;
  d_kwargs : curve_args; d_kwargs2 : option curve_args }.
(** genus.py:525-566 [Genus_Distance.__init__], for the image number i: the standardized array is
    given to Genus, without the header; numpts is not passed on *)
Definition one_genus (a : dargs) (i : nat) (im : image) : result gobj :=
  mn <- pick (d_min a) i ;; mx <- pick (d_max a) i ;; lo <- pick (d_low a) i ;; hi <- pick (d_high a) i ;;
  o <- genus_init (standardized im) (mk_stat None None) None (mk_ga mn mx lo hi 100 None true (d_radii a)) ;;
  let k := match i, d_kwargs2 a with S _, Some k2 => k2 | _, _ => d_kwargs a end in
  match make_curve o k with (_, Some e) => Err e | (o, None) => Ok o end.
(** genus.py:555-571: the two objects and the scale.  [tol] is the tolerance of common_scale *)
Definition genus_pair (tol : R) (a : dargs) (im1 im2 : image) (h1 h2 : grid) : result (gobj * gobj * R) :=
  o1 <- one_genus a 0 im1 ;; o2 <- one_genus a 1 im2 ;; s <- common_scale h1 h2 tol ;; Ok (o1, o2, s).
(** genus.py:597-623 [distance_metric]; [interp] is the spline; thresholds that do not increase
    are refused by it *)
Fixpoint climbing (l : list R) : bool := match l with a :: (b :: _) as r => Rltb a b && climbing r | _ => true end.
Definition finite_thresholds (l : list fl) : result (list R) :=
  if Nat.eqb (length (fins l)) (length l) && climbing (fins l) then Ok (fins l) else Err ValueError.
Definition first_curve (o : gobj) : result (list R) :=
  st <- genus_stats o ;; match st with [] => Err IndexError | row :: _ => Ok (fins row) end.
Definition distance_metric (interp : list R -> list R -> R -> R) (d : gobj * gobj * R) : result R :=
  let '(o1, o2, scale) := d in
  c1 <- first_curve o1 ;; c2 <- first_curve o2 ;;
  t1 <- finite_thresholds (g_thresholds o1) ;; t2 <- finite_thresholds (g_thresholds o2) ;;
  Ok (genus_distance interp scale t1 c1 (i_n0 (g_image o1) * i_n1 (g_image o1)) t2 c2 (i_n0 (g_image o2) * i_n1 (g_image o2))).
Definition genus_distance_of (interp : list R -> list R -> R -> R) (tol : R) (a : dargs) (im1 im2 : image) (h1 h2 : grid) : result R :=
  d <- genus_pair tol a im1 im2 h1 h2 ;; distance_metric interp d.
End Outside.
