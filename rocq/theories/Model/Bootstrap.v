(** Model of the bootstrapped uncertainties of pspec (turbustat/statistics/psds.py). *)
From Coq Require Import Reals List ZArith Arith Bool.
From Verif Require Import Lib.PyBase Lib.Fl Lib.RSum Lib.Arr Lib.Bins.
Import ListNotations.
Local Open Scope R_scope.

(** np.std of a non-empty array of numbers *)
Definition np_std (l : list R) : R :=
  let m := lsum l / INR (length l) in
  sqrt (lsum (map (fun x => (x - m) * (x - m)) l) / INR (length l)).

Section Errors.
(** t_dist.ppf(alpha, c - 1), any value *)
Variable tppf : nat -> fl.
(** np.random.randint(0, n, n), in iteration [b] of bin [i]: the indices that are drawn *)
Variable draw : nat -> nat -> list nat.

(** astropy.stats.bootstrap(data, bootnum, bootfunc=np.std), from its documentation: fewer than one
    iteration is a ValueError *)
Definition bootstrap (bin : nat) (data : list R) (bootnum : Z) : result (list R) :=
  if Z.ltb bootnum 1 then Err ValueError
  else Ok (map (fun b => np_std (map (fun i => nth i data 0) (draw bin b))) (seq 0 (Z.to_nat bootnum))).
(** psds.py:155-158, the statistic of one bin *)
Definition boot_std (boot_iter : Z) (bin : nat) (data : list R) : result R :=
  l <- bootstrap bin data boot_iter ;; Ok (lsum l / INR (length l)).

(** psds.py:160-186: the uncertainties of the bins.  The values are numbers (finite_mask, 132-134).
    binned_statistic does not call the statistic for an empty bin, beyond a trial whose exception it
    catches; such a bin is masked. *)
Fixpoint boot_bins (boot_iter : Z) (i : nat) (bins : list (list R)) : result (list fl) :=
  match bins with
  | [] => Ok []
  | data :: rest =>
      s <- match data with [] => Ok NaN | _ => r <- boot_std boot_iter i data ;; Ok (Fin r) end ;;
      others <- boot_bins boot_iter (S i) rest ;;
      let c := length data in
      let A := fdiv (tppf c) (fsqrt (Fin (INR c))) in
      let s := if fltb (Fin 1) A then fmul s A else s in
      Ok ((if Nat.leb c 1 then NaN else s) :: others)
  end.
Definition boot_errors (boot_iter : Z) (edges sample values : list R) : result (list fl) :=
  boot_bins boot_iter 0 (binned_statistic (fun l => l) edges sample values).
End Errors.
