(** Model of what the statistics read from the header of an image or a cube: _wcs, _ang_size,
    _has_spectral and _spectral_size of turbustat/statistics/base_statistic.py, the grids of
    common_scale in stats_utils.py, and the constructor of PCA in pca/pca.py. *)
From Coq Require Import Reals List Arith Bool.
From Verif Require Import Lib.PyBase Lib.Fl Model.BaseStat.
From Verif Require Model.StatsUtils.
Import ListNotations.
Local Open Scope R_scope.

(** An axis of astropy.wcs.WCS(header): longitude, latitude, spectral (of velocity, in m/s, or
    of another kind), or another one *)
Inductive axis := Lon | Lat | Spectral (velocity : bool) | OtherAxis.
Definition is_lon (a : axis) : bool := match a with Lon => true | _ => false end.
Definition is_lat (a : axis) : bool := match a with Lat => true | _ => false end.
Definition is_spectral (a : axis) : bool := match a with Spectral _ => true | _ => false end.
(** The axes, in the order of FITS; the matrix pixel_scale_matrix, from pixels to the
    intermediate coordinates in degrees and m/s (or Hz, m); and whether the header has distortion tables or
    polynomials *)
Record wcs := mk_wcs { w_axes : list axis; w_matrix : nat -> nat -> R; w_distortion : bool }.

(** The place of the first axis of a kind *)
Fixpoint place (f : axis -> bool) (l : list axis) : option nat :=
  match l with
  | [] => None
  | a :: l' => if f a then Some 0%nat else match place f l' with Some n => Some (S n) | None => None end
  end.
(** wcs.celestial.pixel_scale_matrix: the rows and columns of longitude and latitude, in the
    order of the header.  A header without both raises ValueError. *)
Record mat2 := mk_mat2 { m00 : R; m01 : R; m10 : R; m11 : R }.
Definition celestial (w : wcs) : result mat2 :=
  match place is_lon (w_axes w), place is_lat (w_axes w) with
  | Some lon, Some lat =>
      let i := Nat.min lon lat in let j := Nat.max lon lat in
      Ok (mk_mat2 (w_matrix w i i) (w_matrix w i j) (w_matrix w j i) (w_matrix w j j))
  | _, _ => Err ValueError
  end.
(** astropy.wcs.utils: _is_cd_orthogonal(cd, maxerr=1e-5): cd cd^T / |det cd| is the unit matrix
    up to 1e-5 in each entry; ValueError when cd is singular *)
Definition orthogonal (m : mat2) : result bool :=
  let pixarea := Rabs (m00 m * m11 m - m01 m * m10 m) in
  if Reqb pixarea 0 then Err ValueError
  else let close x := Rltb (Rabs x) (1 / 100000) in
       Ok (close ((m00 m * m00 m + m01 m * m01 m) / pixarea - 1) && close ((m00 m * m10 m + m01 m * m11 m) / pixarea) &&
           close ((m10 m * m10 m + m11 m * m11 m) / pixarea - 1)).
(** astropy.wcs.utils.is_proj_plane_distorted *)
Definition distorted (w : wcs) : result bool :=
  m <- celestial w ;; o <- orthogonal m ;; Ok (negb o || w_distortion w).
(** base_statistic.py:75-87 [_wcs]; None: no header was given *)
Definition get_wcs (header : option wcs) : result wcs :=
  match header with
  | None => Err AttributeError
  | Some w => d <- distorted w ;; if d then Err ValueError else Ok w
  end.

(** The sum of f 0, ..., f (n - 1) *)
Fixpoint total (f : nat -> R) (n : nat) : R := match n with O => 0 | S n' => total f n' + f n' end.
(** astropy.wcs.utils.proj_plane_pixel_scales: the lengths of the columns of the matrix *)
Definition column_length (w : wcs) (j : nat) : R := sqrt (total (fun i => w_matrix w i j * w_matrix w i j) (length (w_axes w))).
(** base_statistic.py:188-195 [_ang_size], in degrees; the unit is that of axis 1, degrees when
    the celestial axes come first *)
Definition ang_size (header : option wcs) : result R :=
  w <- get_wcs header ;; Ok (Rabs (column_length w 0)).

(** base_statistic.py:318-331 [_has_spectral] with raise_error, 333-342 [_spectral_size]: the
    size of a channel, and whether its unit is that of a velocity *)
Definition spectral_size (header : option wcs) : result (R * bool) :=
  w <- get_wcs header ;;
  match place is_spectral (w_axes w) with
  | None => Err ValueError
  | Some s => Ok (Rabs (w_matrix w s s), match nth s (w_axes w) OtherAxis with Spectral v => v | _ => false end)
  end.

(** The grid that common_scale (stats_utils.py:515-522) sees: the lengths of the columns of the
    celestial matrix *)
Definition grid_of (w : wcs) : result StatsUtils.grid :=
  m <- celestial w ;; o <- orthogonal m ;;
  Ok (StatsUtils.Build_grid (negb o || w_distortion w)
        (sqrt (m00 m * m00 m + m10 m * m10 m)) (sqrt (m01 m * m01 m + m11 m * m11 m))).

(** pca.py:47-67 [PCA.__init__] on an array of the given shape: the attribute spectral_shape.
    [distance]: whether a distance is given and whether the setter accepts it.  The exceptions
    Warning and DeprecationWarning are OtherError; data[0] of an array without axes raises IndexError
    (self.data.shape[0]). *)
Definition new_pca (header : option wcs) (data : ndarray) (n_eigs_given : bool) (distance : option (result unit)) : result nat :=
  s <- spectral_size header ;;
  if negb (snd s) then Err OtherError
  else match a_shape (squeeze data) with
       | [] => Err IndexError
       | n :: _ => if n_eigs_given then Err OtherError
                   else match distance with
                        | Some (Err e) => Err e
                        | _ => Ok n
                        end
       end.
