(** Model of the class Cramer_Distance (turbustat/statistics/cramer/cramer.py:35-247): from two
    cubes to their distance.  The loading of the cubes (input_data, InputData.v) and the plots
    are not modelled; data_format is 'intensity', the other format is in Formats.v. *)
From Coq Require Import Reals List Arith Bool ZArith.
From Verif Require Import Lib.PyBase Lib.Fl Model.Psds Model.Formats Model.Cramer.
Import ListNotations.
Local Open Scope R_scope.

(** A data matrix: its rows and its number of columns *)
Record data_matrix := mk_dm { dm_rows : list (list fl); dm_cols : nat }.

Section Distance.
(** np.linalg.norm(matrix, ord=2): the largest singular value; may raise *)
Variable norm2 : list (list fl) -> result fl.
(** numpy's global random state: np.random.seed and np.random.choice(row, n, replace=False) *)
Variable random : Type.
Variable seeded : Z -> random.
Variable choice : random -> list fl -> nat -> list fl * random.

(** threeD_to_twoD.py:65-103 [_format_data] with data_format='intensity': a cube is its list of
    flattened channels of [npix] pixels; intensity_data is called without norm, so with its
    default True.  threeD_to_twoD.py:32 for the number of columns. *)
Definition format_one (npix : nat) (cube : list (list fl)) (noise_lim : option R) (p : R) (normalize : bool) : result data_matrix :=
  let vec_length := Z.to_nat (np_round (p * INR npix)) in
  let m := intensity_data cube vec_length noise_lim true in
  if normalize
  then n <- norm2 m ;; Ok (mk_dm (map (map (fun v => fdiv v n)) m) vec_length)
  else Ok (mk_dm m vec_length).

(** cramer.py:102-106, 112-116: one draw for each row, in the order of the rows *)
Fixpoint sample_rows (st : random) (rows : list (list fl)) (n : nat) : list (list fl) * random :=
  match rows with
  | [] => ([], st)
  | r :: rest => let '(new, st) := choice st r n in
                 let '(others, st) := sample_rows st rest n in
                 (new :: others, st)
  end.
(** A cube, the number of pixels of its channels and its noise level *)
Record cube_in := mk_cube { ci_npix : nat; ci_chans : list (list fl); ci_noise : option R }.
(** cramer.py:62-120 [format_data] *)
Definition format_data (c1 c2 : cube_in) (p : R) (seed : Z) (normalize : bool) (st : random) : result (data_matrix * data_matrix * random) :=
  m1 <- format_one (ci_npix c1) (ci_chans c1) (ci_noise c1) p normalize ;;
  m2 <- format_one (ci_npix c2) (ci_chans c2) (ci_noise c2) p normalize ;;
  if Nat.eqb (dm_cols m1) (dm_cols m2) then Ok (m1, m2, st)
  else if Nat.ltb (dm_cols m1) (dm_cols m2)
       then let '(rows, st) := sample_rows (seeded seed) (dm_rows m2) (dm_cols m1) in
            Ok (m1, mk_dm rows (dm_cols m1), st)
       else let '(rows, st) := sample_rows (seeded seed) (dm_rows m1) (dm_cols m2) in
            Ok (mk_dm rows (dm_cols m2), m2, st).
(** The entries of a matrix of numbers; pairwise_distances raises ValueError for others *)
Definition entry (m : data_matrix) : matrix := fun i k => match nth k (nth i (dm_rows m) []) NaN with Fin v => v | _ => 0 end.
Definition all_finite (m : data_matrix) : bool := forallb (forallb is_fin) (dm_rows m).
(** cramer.py:122-179 on the two data matrices *)
Definition statistic (m1 m2 : data_matrix) : result R :=
  if all_finite m1 && all_finite m2
  then cramer_statistic (length (dm_rows m1)) (dm_cols m1) (entry m1) (length (dm_rows m2)) (dm_cols m2) (entry m2)
  else Err ValueError.
(** cramer.py:188-211 [distance_metric]: the distance and the random state afterwards *)
Definition distance_metric (c1 c2 : cube_in) (normalize : bool) (st : random) : result (R * random) :=
  mm <- format_data c1 c2 (2 / 10) 13024%Z normalize st ;;
  d <- statistic (fst (fst mm)) (snd (fst mm)) ;;
  Ok (d, snd mm).
End Distance.
