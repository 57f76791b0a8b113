(** Model of turbustat/statistics/tsallis/tsallis.py.  An image is a list of rows. *)
From Coq Require Import Reals List Bool ZArith Arith.
From Verif Require Import Lib.PyBase Lib.PySlice Lib.RSum Lib.Fl Lib.Arr Lib.Hist Model.Units Model.StatsUtils.
Import ListNotations.
Local Open Scope R_scope.

(** tsallis.py:44-48: [n] is the smaller side; np.floor(np.log2(n / 2.)).astype(int) *)
Definition default_lags (n : nat) : list R :=
  let max_power := Int_part (ln (INR n / 2) / ln 2) in
  map (fun i => 2 ^ i) (seq 0 (Z.to_nat (max_power + 1))).

(** tsallis.py:59-85: the lags setter; [None] is a value without units *)
Definition set_lags (s : stat) (n : nat) (values : option quantity) : result quantity :=
  match values with
  | None => Err TypeError
  | Some q =>
      pix_rad <- to_pixel s q ;;
      if existsb (fun r => Rltb r 1) (q_vals pix_rad) then Err ValueError
      else if existsb (fun r => Rltb (1 / 10 ^ 10) (IZR (Int_part r) - INR n / 2)) (q_vals pix_rad) then Err ValueError
      else Ok q
  end.

(** tsallis.py:37-50 [__init__]: the lags of an object with a 2D image of smaller
    side [n]; [lags] is the argument, if given *)
Definition init_lags (s : stat) (n : nat) (lags : option (option quantity)) : result quantity :=
  match lags with
  | None => set_lags s n (Some (mk_q (default_lags n) pix))
  | Some v => set_lags s n v
  end.

(** np.roll(img, s, axis=0) and np.roll(img, s, axis=1) *)
Definition roll0 {A} (img : list (list A)) (s : Z) : list (list A) := roll img s.
Definition roll1 {A} (img : list (list A)) (s : Z) : list (list A) := map (fun row => roll row s) img.
(** element-wise operations on images of one shape *)
Definition im2 {A B C} (f : A -> B -> C) (a : list (list A)) (b : list (list B)) : list (list C) := map2 (map2 f) a b.

(** np.pad(img, lag, padwithzeros): the image in the middle of a larger array,
    then [padwithzeros] on all columns and on all rows (stats_utils.py:605-611) *)
Definition pad_rows (lag : nat) (cols : nat) (img : list (list fl)) : list (list fl) :=
  let blank := repeat (Fin 0) (cols + 2 * lag) in
  padwith blank (repeat blank lag ++ map (fun row => padwith (Fin 0) (repeat (Fin 0) lag ++ row ++ repeat (Fin 0) lag) lag lag) img ++ repeat blank lag) lag lag.

(** [img[lag:-lag, lag:-lag]] *)
Definition crop {A} (lag : nat) (img : list (list A)) : list (list A) :=
  let cut {B} (l : list B) := slice (Some (Z.of_nat lag)) (Some (- Z.of_nat lag)%Z) 1 l in
  map cut (cut img).

(** tsallis.py:121-139: the differences of the image with the mean of its four
    shifted copies.  [lag] is a whole number of pixels; [cols] is the length of the rows *)
Definition lag_difference (periodic : bool) (cols : nat) (img : list (list fl)) (lag : nat) : list (list fl) :=
  let pad_img := if periodic then img else pad_rows lag cols img in
  let l := Z.of_nat lag in
  let rolls := im2 fadd (im2 fadd (im2 fadd (roll0 pad_img l) (roll0 pad_img (- l))) (roll1 pad_img l)) (roll1 pad_img (- l)) in
  if periodic then im2 (fun r p => fsub (fdiv r (Fin 4)) p) rolls pad_img
  else im2 (fun r p => fsub (fdiv r (Fin 4)) p) (crop lag rolls) (crop lag pad_img).

(** np.log10 *)
Definition flog10 (x : fl) : fl :=
  match x with
  | Fin r => if Rltb 0 r then Fin (ln r / ln 10) else if Rltb r 0 then NaN else NInf
  | PInf => PInf
  | NInf | NaN => NaN
  end.

(** standardize (stats_utils.py:32-36) of an image, element by element *)
Definition standardize2 (img : list (list fl)) : list (list fl) :=
  let x := concat img in
  map (map (fun v => fdiv (fsub v (nanmean x)) (nanstd x))) img.

(** np.histogram(data, bins=num_bins): counts and edges; a range that is not
    finite raises ValueError, as do no bins (Lib.Hist) *)
Definition counts_edges (data : list fl) (num_bins : nat) : result (list R * list R) :=
  if forallb is_fin data then edges <- bin_edges (fins data) (NumBins num_bins) ;; Ok (counts (fins data) edges, edges)
  else Err ValueError.

(** tsallis.py:141-153: the array and the distribution (bin centres, log10 of the
    shares) at one lag *)
Definition distribution (num_bins : nat) (arr : list (list fl)) : result (list (list fl) * (list R * list fl)) :=
  let data := standardize2 arr in
  he <- counts_edges (filter (fun v => negb (is_nan v)) (concat data)) num_bins ;;
  let '(hist, edges) := he in
  Ok (data, (mid edges, map (fun h => flog10 (fdiv (Fin h) (Fin (lsum hist)))) hist)).

(** tsallis.py:106-108: np.ceil(np.sqrt(np.isfinite(self.data).sum())) *)
Definition default_bins (img : list (list fl)) : nat :=
  let n := length (filter is_fin (concat img)) in
  if Nat.eqb (Nat.sqrt n * Nat.sqrt n) n then Nat.sqrt n else S (Nat.sqrt n).

Fixpoint each {A B} (f : A -> result B) (l : list A) : result (list B) :=
  match l with [] => Ok [] | a :: r => b <- f a ;; bs <- each f r ;; Ok (b :: bs) end.

(** tsallis.py:85-144 [make_tsallis] *)
Definition make_tsallis (s : stat) (cols : nat) (img : list (list fl)) (lags : quantity) (periodic : bool) (num_bins : option nat) :
  result (list (list (list fl) * (list R * list fl))) :=
  let nb := match num_bins with None => default_bins img | Some n => n end in
  p <- to_pixel s lags ;;
  each (fun r => distribution nb (lag_difference periodic cols img (Z.to_nat (Int_part r)))) (q_vals p).

(** tsallis.py:445-460 [tsallis_function], for parameters for which the divisions
    are defined (q <> 1, wsquare <> 0) *)
Definition tsallis_function (x : fl) (loga wsquare q : R) : fl :=
  fmul (Fin (-1 / (q - 1))) (fadd (flog10 (fadd (Fin 1) (fmul (Fin (q - 1)) (fdiv (fsqr x) (Fin wsquare))))) (Fin loga)).

(** tsallis.py:461-481 [clip_to_sigma] *)
Definition clip_to_sigma (x : list R) (y : list fl) (sigma : R) : list (R * fl) :=
  filter (fun p => fltb (snd p) (Fin sigma) && fltb (Fin (- sigma)) (snd p) && is_fin (snd p)) (combine x y).

(** tsallis.py:186-195: the points used for the fit *)
Definition fit_points (sigma_clip : option R) (dist : list R * list fl) : list (R * fl) :=
  match sigma_clip with
  | None => filter (fun p => is_fin (snd p)) (combine (fst dist) (snd dist))
  | Some s => clip_to_sigma (fst dist) (snd dist) s
  end.

(** tsallis.py:197-206: [curve_fit] is scipy's; it gets the points, the initial
    guess and the maximal number of evaluations.  np.max of no points raises
    ValueError.  The result are the parameters and the value stored as
    tsallis_chisq (of finite points). *)
Definition fit_one (curve_fit : list (R * R) -> R * R * R -> nat -> result (R * R * R)) (sigma_clip : option R) (dist : list R * list fl) :
  result ((R * R * R) * fl) :=
  let clipped := map (fun p => (fst p, match snd p with Fin r => r | _ => 0 end)) (fit_points sigma_clip dist) in
  match clipped with
  | [] => Err ValueError
  | (x0, y0) :: r =>
      params <- curve_fit clipped (- lmax y0 (map snd r), 1, 2) (100 * length (fst dist))%nat ;;
      let '(loga, w2, q) := params in
      let term p := match tsallis_function (Fin (fst p)) loga w2 q with
                    | Fin v => Fin ((exp v - exp (snd p)) ^ 2 / exp (snd p))
                    | PInf => PInf
                    | NInf => Fin (exp (snd p))
                    | NaN => NaN
                    end in
      Ok (params, fsum (map term clipped))
  end.
(** tsallis.py:161-198 [fit_tsallis], all lags *)
Definition fit_tsallis curve_fit (sigma_clip : option R) (dists : list (list R * list fl)) : result (list ((R * R * R) * fl)) :=
  each (fit_one curve_fit sigma_clip) dists.
