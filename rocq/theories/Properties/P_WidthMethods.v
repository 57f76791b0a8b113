(** Theorems about the three ways to measure spectral widths (C286) *)
From Coq Require Import String Reals List Bool Arith Lia Lra.
From Verif Require Import Lib.PyBase Lib.Fl Model.WidthMethods Spec.WidthMethods Proofs.WidthMethods_Proofs Proofs.WidthMethods2_Proofs.
Import ListNotations.
Local Open Scope R_scope.

(** ** C286 *)
(** Curves of an even number of channels that pass 1/e before their largest lag: interpolation and
    walking down give the point where the joined samples pass 1/e *)
Theorem C286_agree_partial : forall fit y m k, curve y -> length y = (2 * m)%nat -> (1 < m)%nat -> (S k < m)%nat -> crosses y k ->
  width_1D fit "interpolate" y = Ok (Fin (crossing y k), Fin 0) /\ width_1D fit "walk-down" y = Ok (Fin (crossing y k), Fin (1 / 2)).
Proof. exact agree_partial. Qed.
Print Assumptions C286_agree_partial.
Example C286_agree_case : curve six /\ length six = (2 * 3)%nat /\ crosses six 0.
Proof. exact (conj (proj1 six_curve) (conj eq_refl (proj2 six_curve))). Qed.
(** In the same way for any vector up to its first minimum, within half of the channels *)
Theorem C286_minimum_partial : forall fit y m k, local_minimum y m -> (1 < m)%nat -> falling y m -> (k < m)%nat -> (2 * S k < length y)%nat -> crosses y k ->
  width_1D fit "interpolate" y = Ok (Fin (crossing y k), Fin 0).
Proof. exact interpolate_minimum. Qed.
Print Assumptions C286_minimum_partial.
(** Both other methods raise IndexError for any vector without a minimum *)
Theorem C286_no_minimum_refuted : forall fit y, (forall i, ~ local_minimum y i) ->
  width_1D fit "interpolate" y = Err IndexError /\ width_1D fit "fit" y = Err IndexError.
Proof. exact no_minimum. Qed.
Print Assumptions C286_no_minimum_refuted.
Example C286_no_minimum_case : forall i, ~ local_minimum [1; 1 / 2; -1] i.
Proof. intros [|[|i]] (A & B & C & D); cbn in *; try lia; lra. Qed.
(** Walking down does so for any number of channels and any lag *)
Theorem C286_walk_down : forall fit y k, curve y -> (S k <= length y / 2)%nat -> crosses y k -> width_1D fit "walk-down" y = Ok (Fin (crossing y k), Fin (1 / 2)).
Proof. exact walk_down_curve. Qed.
Print Assumptions C286_walk_down.
(** A curve that stays above 1/e has no width *)
Theorem C286_never_reached : forall fit y m, curve y -> length y = (2 * m)%nat -> (1 < m)%nat -> exp (-1) < nth m y 0 ->
  width_1D fit "interpolate" y = Ok (NaN, Fin 0) /\ width_1D fit "walk-down" y = Ok (NaN, NaN).
Proof. exact never_reached. Qed.
Print Assumptions C286_never_reached.
Example C286_never_reached_case : curve high /\ exp (-1) < nth 2 high 0.
Proof. exact high_curve. Qed.

(** In the last step, to the largest lag of an even number of channels, interpolation counts that
    lag as negative: the width falls below the lag before it, by up to the whole range *)
Theorem C286_largest_lag_refuted : forall fit y m, curve y -> length y = (2 * S m)%nat -> (1 <= m)%nat -> nth (S m) y 0 < exp (-1) < nth m y 0 ->
  let f := (nth m y 0 - exp (-1)) / (nth m y 0 - nth (S m) y 0) in
  width_1D fit "walk-down" y = Ok (Fin (INR m + f), Fin (1 / 2)) /\ width_1D fit "interpolate" y = Ok (Fin (INR m - (2 * INR m + 1) * f), Fin 0) /\
  INR m - (2 * INR m + 1) * f < INR m < INR m + f.
Proof. exact middle. Qed.
Print Assumptions C286_largest_lag_refuted.
Example C286_largest_lag_case : curve four /\ nth 2 four 0 < exp (-1) < nth 1 four 0.
Proof. exact four_curve. Qed.
(** With an odd number of channels the two samples at the largest lag are equal, there is no
    minimum, and both other methods raise IndexError *)
Theorem C286_odd_refuted : forall fit y k, length y = (2 * k + 1)%nat -> symmetric y -> falling y k ->
  width_1D fit "interpolate" y = Err IndexError /\ width_1D fit "fit" y = Err IndexError.
Proof. exact odd_refused. Qed.
Print Assumptions C286_odd_refuted.
Example C286_odd_case : curve five /\ crosses five 1.
Proof. exact five_curve. Qed.

(** The fit finds the width of a Gaussian, where it has fallen to 1/e *)
Theorem C286_fit_partial : forall fit A s m, best_fits fit -> 0 < A -> 0 < s -> (1 < m)%nat ->
  (forall pts, (forall p, In p pts -> snd p = gauss A s (fst p)) -> fit A pts <> None) ->
  exists e, width_1D fit "fit" (gauss_curve A s (2 * m)) = Ok (Fin (s * sqrt 2), Fin e).
Proof. exact fitted_gauss. Qed.
Print Assumptions C286_fit_partial.
Theorem C286_fit_level : forall A s, 0 < s -> gauss A s (s * sqrt 2) = A * exp (-1).
Proof. exact gauss_width. Qed.
Print Assumptions C286_fit_level.
Example C286_fit_case : best_fits fit2 /\ forall A pts, (forall p, In p pts -> snd p = gauss A 2 (fst p)) -> fit2 A pts <> None.
Proof. exact fit2_best. Qed.
