(** Vocabulary for bootstrapped uncertainties (C323). *)
From Coq Require Import Reals List Arith.
From Verif Require Import Lib.PyBase Lib.Fl Lib.RSum Spec.Bins.
Import ListNotations.
Local Open Scope R_scope.

(** n indices below n *)
Definition drawn_indices (n : nat) (l : list nat) : Prop := length l = n /\ forall i, In i l -> (i < n)%nat.
(** All lists of k indices below n *)
Fixpoint all_lists (n k : nat) : list (list nat) :=
  match k with O => [[]] | S k => flat_map (fun t => map (fun i => i :: t) (seq 0 n)) (all_lists n k) end.
Definition average (l : list R) : R := lsum l / INR (length l).
(** The values drawn from data *)
Definition resample (data : list R) (l : list nat) : list R := map (fun i => nth i data 0) l.
(** The standard deviation with n - 1 degrees of freedom *)
Definition sample_std (l : list R) : R := sqrt (lsum (map (fun x => (x - average l) * (x - average l)) l) / INR (length l - 1)).
(** The factor for the number of values in a bin: t / sqrt n where it is above 1 *)
Definition t_factor (tppf : nat -> fl) (n : nat) (s : R) : fl :=
  if fltb (Fin 1) (fdiv (tppf n) (fsqrt (Fin (INR n)))) then fmul (Fin s) (fdiv (tppf n) (fsqrt (Fin (INR n)))) else Fin s.
(** The values of the points (place, value) that lie in bin j, in order *)
Inductive values_in (edges : list R) (j : nat) : list (R * R) -> list R -> Prop :=
| v_none : values_in edges j [] []
| v_in : forall x v ps d, in_bin edges j x -> values_in edges j ps d -> values_in edges j ((x, v) :: ps) (v :: d)
| v_out : forall x v ps d, ~ in_bin edges j x -> values_in edges j ps d -> values_in edges j ((x, v) :: ps) d.
