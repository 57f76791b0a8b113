(** C322: blank surroundings of cubes in the Cramer distance. *)
From Coq Require Import Reals List Arith ZArith Lia Lra Permutation.
From Verif Require Import Lib.PyBase Lib.Fl Spec.Blank Spec.CramerCubes Spec.CramerFrame Model.Psds Model.CramerDistance Proofs.CramerDistance_Proofs Proofs.CramerFrame_Proofs.
Import ListNotations.
Local Open Scope R_scope.

(** The distance changes with the number of blank pixels around both cubes, of one shape: a fifth of
    all pixels is kept of each channel, and blank ones count, *)
Theorem C322_blanks_refuted : forall norm2 random seeded choice (st : random), ~ (forall n c1 c1' c2 c2' nm, in_blanks n c1 c1' -> in_blanks n c2 c2' -> proper_cube c1 -> proper_cube c2 -> ci_npix c1 = ci_npix c2 -> 
  distance_metric norm2 random seeded choice c1' c2' nm st = distance_metric norm2 random seeded choice c1 c2 nm st).
Proof. exact blanks_matter. Qed.
Print Assumptions C322_blanks_refuted.
(** from no difference to any: two cubes that differ in their second brightest pixel. *)
Theorem C322_unseen_refuted : forall norm2 random seeded choice st x y, 0 <= x <= 4 -> 0 <= y <= 4 ->
  distance_metric norm2 random seeded choice (pair_of x) (pair_of y) false st = Ok (0, st) /\
  distance_metric norm2 random seeded choice (pair_in x) (pair_in y) false st = Ok (1 / 2 * sqrt (sqrt ((x / 4 - y / 4) * (x / 4 - y / 4))), st).
Proof. exact pair_dist. Qed.
Print Assumptions C322_unseen_refuted.
(** What holds: without normalization the rows are longer in the larger field, and start with those in
    the smaller one; *)
Theorem C322_rows_partial : forall norm2 n c c', in_blanks n c c' -> proper_cube c -> exists M M',
  format_one norm2 (ci_npix c) (ci_chans c) (ci_noise c) (2 / 10) false = Ok M /\ format_one norm2 (ci_npix c') (ci_chans c') (ci_noise c') (2 / 10) false = Ok M' /\
  dm_cols M = kept (ci_npix c) /\ dm_cols M' = kept (ci_npix c + n) /\ dm_rows M = map (firstn (dm_cols M)) (dm_rows M').
Proof. exact rows_start. Qed.
Print Assumptions C322_rows_partial.
(** blanks too few to change the number of pixels kept change nothing; *)
Theorem C322_few_partial : forall norm2 random seeded choice n1 n2 c1 c1' c2 c2' nm st, in_blanks n1 c1 c1' -> in_blanks n2 c2 c2' -> proper_cube c1 -> proper_cube c2 ->
  kept (ci_npix c1 + n1) = kept (ci_npix c1) -> kept (ci_npix c2 + n2) = kept (ci_npix c2) ->
  distance_metric norm2 random seeded choice c1' c2' nm st = distance_metric norm2 random seeded choice c1 c2 nm st.
Proof. exact few_blanks. Qed.
Print Assumptions C322_few_partial.
(** and cubes of one shape whose pixels above the noise are all kept have the distance of larger fields. *)
Theorem C322_sparse_partial : forall norm2 random seeded choice n c1 c1' c2 c2' nm st r, (nm = true -> zeros_free norm2) -> in_blanks n c1 c1' -> in_blanks n c2 c2' -> proper_cube c1 -> proper_cube c2 ->
  ci_npix c2 = ci_npix c1 -> (3 <= ci_npix c1)%nat -> sparse c1 -> sparse c2 ->
  distance_metric norm2 random seeded choice c1 c2 nm st = Ok r -> distance_metric norm2 random seeded choice c1' c2' nm st = Ok r.
Proof. exact sparse_cubes. Qed.
Print Assumptions C322_sparse_partial.
Example C322_case : (in_blanks 5 (pair_of 1) (pair_in 1) /\ proper_cube (pair_of 1)) /\ kept (10 + 1) = kept 10 /\
  (in_blanks 10 (spot 1) (spot_in 1) /\ sparse (spot 1) /\ zeros_free ex_norm) /\
  forall nm, exists r, distance_metric ex_norm unit (fun _ => tt) ex_choice (spot 1) (spot 3) nm tt = Ok r.
Proof.
  split; [split; [apply pair_field|apply pair_proper]|]. split; [now rewrite kept10, kept11|]. split; [split; [apply spot_field|split; [apply spot_sparse|intros M k; reflexivity]]|].
  intros nm. apply (dist_defined _ _ _ _ _ _ 4 4 nm tt (fun _ => ex_norm_like) ex_choice_draws); apply spot_bright; lra.
Qed.
