(** np.histogram and statsmodels' ECDF on finite data. *)
From Coq Require Import Reals List Bool Arith.
From Verif Require Import Lib.PyBase Lib.RSum Lib.Fl Lib.Arr.
Import ListNotations.
Local Open Scope R_scope.

Definition count_lt (data : list R) (e : R) : nat := length (filter (fun x => Rltb x e) data).
Definition count_le (data : list R) (e : R) : nat := length (filter (fun x => Rleb x e) data).

(** The [bins] argument: a number of bins or the edges. *)
Inductive bins_arg := NumBins (n : nat) | Edges (l : list R).

Fixpoint lmin (x : R) (l : list R) : R := match l with [] => x | y :: r => lmin (Rmin x y) r end.
Fixpoint lmax (x : R) (l : list R) : R := match l with [] => x | y :: r => lmax (Rmax x y) r end.
Fixpoint nondecreasing (l : list R) : bool :=
  match l with a :: ((b :: _) as r) => Rleb a b && nondecreasing r | _ => true end.

(** numpy/lib/histograms.py (_get_outer_edges, _get_bin_edges): the range of
    the data, widened by 1/2 on each side if it is empty, (0, 1) without data;
    no bins or decreasing edges raise ValueError *)
Definition outer_edges (data : list R) : R * R :=
  match data with
  | [] => (0, 1)
  | x :: r => let a := lmin x r in let b := lmax x r in if Reqb a b then (a - 1 / 2, b + 1 / 2) else (a, b)
  end.
Definition bin_edges (data : list R) (bins : bins_arg) : result (list R) :=
  match bins with
  | NumBins 0 => Err ValueError
  | NumBins n => let '(a, b) := outer_edges data in Ok (tab1 (n + 1) (fun k => a + INR k * ((b - a) / INR n)))
  | Edges l => if nondecreasing l then Ok l else Err ValueError
  end.
(** cum_n: searchsorted 'left' at all edges but the last, 'right' at the last;
    the counts are its differences *)
Definition cum_n (data : list R) (edges : list R) (i : nat) : R :=
  if Nat.eqb (S i) (length edges) then INR (count_le data (nth i edges 0)) else INR (count_lt data (nth i edges 0)).
Definition counts (data edges : list R) : list R :=
  tab1 (length edges - 1) (fun i => cum_n data edges (S i) - cum_n data edges i).
(** density=True: n / db / n.sum() *)
Definition density (data edges : list R) : list fl :=
  let n := counts data edges in
  tab1 (length edges - 1) (fun i =>
    fdiv (fdiv (Fin (nth i n 0)) (Fin (nth (S i) edges 0 - nth i edges 0))) (Fin (lsum n))).
(** np.histogram(data, bins, density=True) *)
Definition histogram (data : list R) (bins : bins_arg) : result (list fl * list R) :=
  edges <- bin_edges data bins ;; Ok (density data edges, edges).

(** ... of data with special values: a number of bins needs a finite range;
    between given edges only the finite values are counted *)
Definition histogram_fl (data : list fl) (bins : bins_arg) : result (list fl * list R) :=
  match bins with
  | NumBins _ => if forallb is_fin data then histogram (fins data) bins else Err ValueError
  | Edges _ => histogram (fins data) bins
  end.
(** (edges[:-1] + edges[1:]) / 2 *)
Definition mid (edges : list R) : list R := tab1 (length edges - 1) (fun k => (nth k edges 0 + nth (S k) edges 0) / 2).

(** statsmodels ECDF(data)(x), side='right': the share of the data not above x *)
Definition ecdf (data : list R) (x : R) : fl := fdiv (Fin (INR (count_le data x))) (Fin (INR (length data))).
