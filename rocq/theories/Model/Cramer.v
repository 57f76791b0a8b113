(** Model of turbustat/statistics/cramer/cramer.py: the Cramer statistic. *)
From Coq Require Import Reals List Arith Bool.
From Verif Require Import Lib.PyBase Lib.RSum.
Local Open Scope R_scope.

(** A data matrix: number of rows and its entries (row, column). *)
Definition matrix := nat -> nat -> R.

(** sklearn's pairwise_distances(metric="euclidean") followed by np.sqrt
    (cramer.py:143-157), entry (i, j), for rows with d columns *)
Definition root_dist (d : nat) (x y : nat -> R) : R :=
  sqrt (sqrt (rsum d (fun k => (x k - y k) * (x k - y k)))).

(** cramer.py:159-177, the loops over a matrix [larger] with m rows and a matrix
    [smaller] with n rows *)
Definition cramer_loops (d m n : nat) (larger smaller : matrix) : R :=
  let term1 := rsum m (fun i => rsum n (fun j => root_dist d (larger i) (smaller j))) in
  let term2 := rsum m (fun i => rsum m (fun ii => root_dist d (larger i) (larger ii))) in
  let term3 := rsum m (fun i => if Nat.ltb i n
                                then rsum n (fun jj => root_dist d (smaller i) (smaller jj)) else 0) in
  let m := INR m in
  let n := INR n in
  let term1 := term1 * (1 / (m * n)) in
  let term2 := term2 * (1 / (2 * m ^ 2)) in
  let term3 := term3 * (1 / (2 * n ^ 2)) in
  (m * n / (m + n)) * (term1 - term2 - term3).

(** cramer.py:122-179.  [d1], [d2] are the numbers of columns; an empty matrix or
    different numbers of columns make pairwise_distances raise ValueError. *)
Definition cramer_statistic (m1 d1 : nat) (data1 : matrix) (m2 d2 : nat) (data2 : matrix) : result R :=
  if (Nat.eqb m1 0 || Nat.eqb m2 0 || negb (Nat.eqb d1 d2))%bool then Err ValueError
  else if Nat.leb m2 m1 then Ok (cramer_loops d1 m1 m2 data1 data2)
  else Ok (cramer_loops d1 m2 m1 data2 data1).
