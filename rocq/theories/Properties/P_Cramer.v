(** Properties C21, C22: the Cramer statistic. *)
From Coq Require Import Reals List Arith.
From Verif Require Import Lib.PyBase Lib.RSum Spec.Energy Model.Cramer Proofs.Cramer_Proofs.
Local Open Scope R_scope.

(** C21.  For any two non-empty data matrices with the same number of columns the
    result is the energy statistic. *)
Theorem C21_formula : forall m n d X Y, (1 <= m)%nat -> (1 <= n)%nat ->
  cramer_statistic m d X n d Y = Ok (energy_statistic d m n X Y).
Proof. exact cramer_formula. Qed.
Print Assumptions C21_formula.

(** C21.  Only empty matrices or different numbers of columns are rejected. *)
Theorem C21_rejects : forall m1 d1 X m2 d2 Y,
  cramer_statistic m1 d1 X m2 d2 Y = Err ValueError <-> m1 = 0%nat \/ m2 = 0%nat \/ d1 <> d2.
Proof. exact cramer_rejects. Qed.
Print Assumptions C21_rejects.

(** C21.  Swapping the two matrices changes nothing. *)
Theorem C21_symmetric : forall m1 d1 X m2 d2 Y,
  cramer_statistic m1 d1 X m2 d2 Y = cramer_statistic m2 d2 Y m1 d1 X.
Proof. exact cramer_sym. Qed.
Print Assumptions C21_symmetric.

(** C21.  Identical matrices are at distance 0. *)
Theorem C21_identical : forall m d X, (1 <= m)%nat -> cramer_statistic m d X m d X = Ok 0.
Proof. exact cramer_self. Qed.
Print Assumptions C21_identical.

(** C21.  The order of the rows does not matter. *)
Theorem C21_row_order : forall m1 d1 X m2 d2 Y p q, rearranges m1 p -> rearranges m2 q ->
  cramer_statistic m1 d1 (fun i => X (p i)) m2 d2 (fun i => Y (q i)) = cramer_statistic m1 d1 X m2 d2 Y.
Proof. exact cramer_rows. Qed.
Print Assumptions C21_row_order.

(** C21.  Adding the same vector to all rows of both changes nothing. *)
Theorem C21_translation : forall m1 d1 X m2 d2 Y v,
  cramer_statistic m1 d1 (fun i k => X i k + v k) m2 d2 (fun i k => Y i k + v k) = cramer_statistic m1 d1 X m2 d2 Y.
Proof. exact cramer_translated. Qed.
Print Assumptions C21_translation.

Example C21_nonvacuous : exists r, cramer_statistic 2 1 ex_larger 1 1 ex_smaller = Ok r /\ 2 < r.
Proof. exact ex_cramer. Qed.

(** C22.  The statistic is never negative. *)
Theorem C22_nonnegative : forall m1 d1 X m2 d2 Y r, cramer_statistic m1 d1 X m2 d2 Y = Ok r -> 0 <= r.
Proof. exact cramer_nonneg. Qed.
Print Assumptions C22_nonnegative.

Example C22_nonvacuous : exists r, cramer_statistic 2 1 ex_larger 1 1 ex_smaller = Ok r /\ 2 < r.
Proof. exact ex_cramer. Qed.
