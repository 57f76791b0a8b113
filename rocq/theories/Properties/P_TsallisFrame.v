(** C316: Tsallis statistics of images with blank surroundings. *)
From Coq Require Import Reals List Bool ZArith Arith Permutation.
From Verif Require Import Lib.PyBase Lib.Fl Lib.Arr Spec.Lag Spec.TsallisFrame Model.Units Model.Tsallis Model.TsallisRun Proofs.TsallisFrame_Proofs.
Import ListNotations.
Local Open Scope R_scope.

(** The differences that count are those of the pixels of the image that are at least the lag away from its
    border, with either boundary: no pixel of the surroundings, no copy of the image and no zero assumed
    beyond the border takes part. *)
Theorem C316_differences : forall periodic n0 n1 N0 N1 o0 o1 lag img, (1 <= lag)%nat -> wide_enough periodic n0 N0 o0 lag -> wide_enough periodic n1 N1 o1 lag ->
  Permutation (nonnan (concat (lag_difference periodic N1 (in_blanks n0 n1 N0 N1 o0 o1 img) lag))) (inner_differences n0 n1 img lag).
Proof. exact frame_differences. Qed.
Print Assumptions C316_differences.

(** Runs on the image in two surroundings, each with its own boundary and on any objects with the same lags: the same
    exception, or the same distributions, parameters and chi-squares. *)
Theorem C316_run : forall s n0 n1 img N0 N1 o0 o1 N0' N1' o0' o1' curve_fit old_dist old_dist' old_row old_row' o o' p p' num_bins sigma_clip q,
  shape n0 n1 img -> o_lags o' = o_lags o -> to_pixel s (o_lags o) = Ok q ->
  (forall r, In r (q_vals q) -> 1 <= r) ->
  (o0 + n0 <= N0)%nat -> (o1 + n1 <= N1)%nat -> (o0' + n0 <= N0')%nat -> (o1' + n1 <= N1')%nat ->
  (forall r, In r (q_vals q) -> let lag := Z.to_nat (Int_part r) in
    wide_enough p n0 N0 o0 lag /\ wide_enough p n1 N1 o1 lag /\ wide_enough p' n0 N0' o0' lag /\ wide_enough p' n1 N1' o1' lag) ->
  same_statistics (run s N1' (in_blanks n0 n1 N0' N1' o0' o1' img) curve_fit old_dist' old_row' o' p' num_bins sigma_clip)
    (run s N1 (in_blanks n0 n1 N0 N1 o0 o1 img) curve_fit old_dist old_row o p num_bins sigma_clip).
Proof. exact frame_run. Qed.
Print Assumptions C316_run.

(** An image of 3 x 4 pixels, in 4 x 5 with periodic boundaries and in 5 x 6 without, at a lag of one pixel *)
Example C316_case : inner_differences 3 4 bright_image 1 = [Fin (-7); Fin (-2)] /\ inner_differences 3 4 pair_image 1 = [Fin (-7)].
Proof. exact bright_inner. Qed.
Example C316_surroundings_case : (wide_enough true 3 4 0 1 /\ wide_enough true 4 5 1 1 /\ wide_enough false 3 5 1 1 /\ wide_enough false 4 6 1 1) /\
  to_pixel (mk_stat None None) (mk_q [1] pix) = Ok (mk_q [1] pix) /\ (forall r, In r (q_vals (mk_q [1] pix)) -> 1 <= r /\ Z.to_nat (Int_part r) = 1%nat).
Proof. exact (conj bright_wide (conj eq_refl bright_lag)). Qed.
