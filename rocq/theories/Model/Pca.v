(** Model of turbustat/statistics/pca/pca.py (decomposition, eigenimages,
    autocorrelations, distance), pca/width_estimate.py (walk-down width, beam
    correction) and var_cov_cube of threeD_to_twoD.py. *)
From Coq Require Import String Reals List ZArith Arith Bool.
From Coquelicot Require Import Complex.
From Verif Require Import Lib.PyBase Lib.Fl Lib.RSum Lib.PySlice Lib.Arr Lib.DFT Lib.DFT2
  Model.StatsUtils Model.Psds.
Import ListNotations.
Local Open Scope R_scope.

(** np.cumsum *)
Fixpoint cumsum_from (acc : fl) (l : list fl) : list fl :=
  match l with [] => [] | x :: r => let s := fadd acc x in s :: cumsum_from s r end.
Definition cumsum (l : list fl) : list fl := cumsum_from (Fin 0) l.

(** pca.py:1260-1302 *)
Definition set_n_eigs (eigenvalues : list R) (min_eigval : R) (method : string) : result nat :=
  if String.eqb method "value" then
    Ok (length (filter (fun v => Rleb min_eigval v) eigenvalues))
  else if String.eqb method "proportion" then
    let cumulative := cumsum (map (fun v => fdiv (Fin v) (Fin (lsum eigenvalues))) eigenvalues) in
    let above := filter (fun c => fleb c (Fin min_eigval)) cumulative in
    if Nat.eqb (length above) 0 then Ok 1%nat else Ok (length above)
  else Err ValueError.

Inductive n_eigs_arg := Auto | Count (n : Z).

(** pca.py:73-78, the n_eigs setter *)
Definition n_eigs_setter (value : Z) : result Z :=
  if (value <=? 0)%Z then Err ValueError else Ok value.

(** pca.py:120-144, the choice of n_eigs; [raise Warning] is OtherError.  The
    eigenvalues are those of np.linalg.eigh, sorted (an oracle). *)
Definition choose_n_eigs (spectral_shape : nat) (n_eigs : n_eigs_arg) (min_eigval : option R)
    (eigen_cut_method : string) (all_eigvals : list R) : result Z :=
  match n_eigs, min_eigval with
  | Auto, None => Err ValueError
  | Auto, Some m =>
      k <- set_n_eigs all_eigvals m eigen_cut_method ;;
      n_eigs_setter (Z.of_nat k)
  | Count n, _ =>
      if (n =? -1)%Z then n_eigs_setter (Z.of_nat spectral_shape)
      else if (n <? -1)%Z || (Z.of_nat spectral_shape <? n)%Z || (n =? 0)%Z then Err OtherError
      else n_eigs_setter n
  end.

(** pca.py:146-153: total variance and proportion of variance *)
Definition variance_summary (mean_sub : bool) (n_eigs : Z) (all_eigvals : list R) : fl * fl :=
  let first := if mean_sub then None else Some 1%Z in
  let total := lsum (slice first None 1 all_eigvals) in
  (Fin total, fdiv (Fin (lsum (slice first (Some n_eigs) 1 all_eigvals))) (Fin total)).

(** pca.py:1135-1146: the distance.  np.linalg.norm of a vector is the root of the
    sum of squares; numpy broadcasts a vector of length one and raises ValueError
    for other different lengths. *)
Definition pca_distance (mean_sub : bool) (n_eigs : Z) (eigs1 eigs2 : list R) : result fl :=
  let first := if mean_sub then 0%Z else 1%Z in
  let slicer := slice (Some first) (Some n_eigs) 1 in
  let normed l := map (fun v => fdiv (Fin v) (Fin (lsum (slicer l)))) (slicer l) in
  let e1 := normed eigs1 in
  let e2 := normed eigs2 in
  let norm a b := fsqrt (fsum (map2 (fun x y => fsqr (fsub x y)) a b)) in
  if Nat.eqb (length e1) (length e2) then Ok (norm e1 e2)
  else if Nat.eqb (length e1) 1 then Ok (norm (repeat (hd NaN e1) (length e2)) e2)
  else if Nat.eqb (length e2) 1 then Ok (norm e1 (repeat (hd NaN e2) (length e1)))
  else Err ValueError.

(** What is passed as cube1/cube2: a cube (the sorted eigenvalues of its
    covariance matrix, one per channel), or a PCA object whose decomposition was
    computed; [stored] is its current n_eigs. *)
Inductive pca_input := Cube (eigs : list R) | Precomputed (eigs : list R) (stored : Z).

(** pca.py:1073-1120, one of the two data sets: the eigenvalues used, and the
    object's n_eigs afterwards (also when an error is raised). *)
Definition pca_load (inp : pca_input) (n_eigs : Z) : result (list R) * option Z :=
  match inp with
  | Precomputed eigs stored =>
      match n_eigs_setter n_eigs with
      | Err e => (Err e, Some stored)
      | Ok n => if (Z.of_nat (length eigs) <=? n)%Z then (Err ValueError, Some n) else (Ok eigs, Some n)
      end
  | Cube eigs =>
      match choose_n_eigs (length eigs) (Count n_eigs) None "value" eigs with
      | Err e => (Err e, None)
      | Ok n => (Ok eigs, Some n)
      end
  end.

(** pca.py:1060-1146, PCA_Distance(...).distance_metric().distance *)
Definition pca_distance_run (inp1 inp2 : pca_input) (mean_sub : bool) (n_eigs : Z) : result fl :=
  e1 <- fst (pca_load inp1 n_eigs) ;;
  e2 <- fst (pca_load inp2 n_eigs) ;;
  pca_distance mean_sub n_eigs e1 e2.

(** ** Eigenimages and autocorrelations *)

(** np.nan_to_num for data without infinities *)
Definition nan_to_num (v : fl) : R := match v with Fin r => r | _ => 0 end.

(** pca.py:226-236: one eigenimage.  [vec] is the eigenvector (oracle). *)
Definition eigimage (nz ny nx : nat) (data : nat -> nat -> nat -> fl) (mean_sub : bool)
    (vec : nat -> R) (y x : nat) : R :=
  rsum nz (fun channel =>
    let chan := concat (tab2 ny nx (data channel)) in
    let v := if mean_sub then fsub (data channel y x) (nanmean chan) else data channel y x in
    nan_to_num (fmul v (Fin (vec channel)))).

(** The array returned by eigimages: a single image is 2D; several images are
    stacked with their two axes swapped (np.dstack then swapaxes(0, 2)). *)
Inductive img_stack := Single (img : nat -> nat -> R) | Stack (imgs : list (nat -> nat -> R)).

(** pca.py:187-195 *)
Definition valid_eigenvectors (eps : R) (eigvals : list R) : list nat :=
  filter (fun i => Rleb eps (nth i eigvals 0)) (seq 0 (length eigvals)).

(** pca.py:197-245.  [eigvecs channel idx]; indices of missing eigenvectors raise
    IndexError. *)
Definition eigimages (nz ny nx : nat) (data : nat -> nat -> nat -> fl) (mean_sub : bool)
    (eps : R) (eigvals : list R) (eigvecs : nat -> nat -> R) (n_eigs : Z) : result img_stack :=
  let iterat :=
    if (0 <? n_eigs)%Z then Ok (seq 0 (Z.to_nat n_eigs))
    else if (n_eigs <? 0)%Z then Ok (slice (Some n_eigs) None 1 (valid_eigenvectors eps eigvals))
    else Err UnboundLocalError in
  idxs <- iterat ;;
  if existsb (fun i => Nat.leb nz i) idxs then Err IndexError
  else
    let img idx := eigimage nz ny nx data mean_sub (fun channel => eigvecs channel idx) in
    match idxs with
    | [] => Err UnboundLocalError
    | [idx] => Ok (Single (img idx))
    | _ => Ok (Stack (map (fun idx => fun x y => img idx y x) idxs))
    end.

(** pca.py:271-274: autocorrelation of one image of shape (n0, n1) *)
Definition autocorr_image (n0 n1 : nat) (image : nat -> nat -> R) : list (list R) :=
  let fftx := dft2 n0 n1 (fun i j => RtoC (image i j)) in
  let fftxs i j := Cconj (fftx i j) in
  let mean (X : nat -> nat -> C) :=
    Cmult (RtoC (/ (INR n0 * INR n1))) (csum n0 (fun i => csum n1 (fun j => X i j))) in
  let acor := idft2 n0 n1 (fun i j => Cmult (Cminus (fftx i j) (mean fftx)) (Cminus (fftxs i j) (mean fftxs))) in
  fftshift2 (tab2 n0 n1 (fun i j => fst (acor i j))).

Definition transpose (ny nx : nat) (a : list (list R)) : list (list R) := tab2 ny nx (fun y x => at2 0 a x y).

(** pca.py:247-284.  A single eigenimage is iterated over its rows, and np.fft.fft2
    of a row raises IndexError (no rows: acors is unbound). *)
Definition autocorr_images (nz ny nx : nat) (data : nat -> nat -> nat -> fl) (mean_sub : bool)
    (eps : R) (eigvals : list R) (eigvecs : nat -> nat -> R) (n_eigs : Z) : result (list (list (list R))) :=
  imgs <- eigimages nz ny nx data mean_sub eps eigvals eigvecs n_eigs ;;
  match imgs with
  | Single _ => if Nat.eqb ny 0 then Err UnboundLocalError else Err IndexError
  | Stack l => Ok (map (fun img => transpose ny nx (autocorr_image nx ny img)) l)
  end.

(** pca.py:316-336 *)
Definition noise_acf_of (ny nx : nat) (acors : list (list (list R))) (n_eigs : Z) : list (list fl) :=
  tab2 ny nx (fun y x => fdiv (Fin (lsum (map (fun a => at2 0 a y x) acors))) (Fin (IZR n_eigs))).
Definition noise_ACF (nz ny nx : nat) (data : nat -> nat -> nat -> fl) (mean_sub : bool)
    (eps : R) (eigvals : list R) (eigvecs : nat -> nat -> R) (n_eigs : Z) : result (list (list fl)) :=
  acors <- autocorr_images nz ny nx data mean_sub eps eigvals eigvecs n_eigs ;;
  Ok (noise_acf_of ny nx acors n_eigs).

(** ** Widths *)

Definition fmax_list (y : list R) : R := fold_right Rmax (hd 0 y) y.

(** width_estimate.py:355-374 [method='walk-down'] for one vector (not empty): the
    vector as left behind, the width and its error. *)
Fixpoint walk_loop (n : nat) (y : list fl) (i : nat) (rest : list fl) : fl * fl :=
  match rest with
  | [] => (Fin 0, Fin 0)
  | val :: rest' =>
      if fltb val (Fin (exp (-1))) then
        let prev := if Nat.eqb i 0 then (n - 1)%nat else (i - 1)%nat in
        let diff := fsub val (nth prev y NaN) in
        (fadd (Fin (fftfreq n prev * INR n))
              (fdiv (fsub (Fin (exp (-1))) (nth prev y NaN)) diff), Fin (1 / 2))
      else if Nat.eqb i (n - 1) then (NaN, NaN)
      else walk_loop n y (S i) rest'
  end.
Definition walk_down (y : list R) : list fl * (fl * fl) :=
  let y := map (fun v => fdiv (Fin v) (Fin (fmax_list y))) y in
  (y, walk_loop (length y) y 0 y).

(** width_estimate.py:212-262: beam correction of the two axis widths and the
    resulting scale.  [beam] is the beam FWHM and [cdelt] the pixel size in
    degrees (None: not given). *)
Definition brunt_term2 (beam cdelt : R) : R :=
  let kappa := 1 in
  let pix_per_beam := beam / Rabs cdelt / sqrt (8 * ln 2) / sqrt 2 in
  let e := 3 / ((kappa + 2) * (kappa + 3)) in
  e * pix_per_beam.
Definition beam_corrected_scale (brunt_beamcorrect : bool) (beam cdelt : option R) (y_scale x_scale : R) : result R :=
  if brunt_beamcorrect then
    match beam, cdelt with
    | Some b, Some c =>
        let y := y_scale - brunt_term2 b c in
        let x := x_scale - brunt_term2 b c in
        Ok (sqrt (y * y + x * x))
    | _, _ => Err ValueError
    end
  else Ok (sqrt (y_scale * y_scale + x_scale * x_scale)).

(** ** Covariance *)

(** threeD_to_twoD.py:106-170 [var_cov_cube].  Channels are flattened to lists;
    [eps] is np.finfo(dtype).eps and [big] the value nan_to_num gives infinities. *)
Definition nan_to_num_big (big : R) (v : fl) : R :=
  match v with Fin r => r | NaN => 0 | PInf => big | NInf => - big end.
Definition sub_mean (mean_sub : bool) (chan : list fl) : list fl :=
  if mean_sub then map (fun v => fsub v (nanmean chan)) chan else chan.
Definition cov_lower (eps : R) (mean_sub : bool) (chan_i chan_j : list fl) : fl :=
  let chan := map (fun v => if is_nan v then Fin eps else v) chan_i in
  let prod := map2 fmul (sub_mean mean_sub chan) (sub_mean mean_sub chan_j) in
  let divisor := INR (length (filter is_fin prod)) - (if mean_sub then 1 else 0) in
  fdiv (nansum prod) (Fin divisor).
Definition half_variance (eps : R) (mean_sub : bool) (chan_i : list fl) : fl :=
  let chan := map (fun v => if is_nan v then Fin eps else v) chan_i in
  let norm := sub_mean mean_sub chan in
  let var_divis := INR (length (filter is_fin norm)) - (if mean_sub then 1 else 0) in
  fdiv (fmul (Fin (1 / 2)) (nansum (map2 fmul norm norm))) (Fin var_divis).
Definition var_cov_cube (eps big : R) (cube : list (list fl)) (mean_sub : bool) : list (list R) :=
  let entry i j :=
    if Nat.ltb j i then cov_lower eps mean_sub (nth i cube []) (nth j cube [])
    else if Nat.eqb i j then half_variance eps mean_sub (nth i cube [])
    else Fin 0 in
  let n := length cube in
  tab2 n n (fun i j => nan_to_num_big big (fadd (entry i j) (entry j i))).
