(** Properties C241-C243: the Cramer distance of two cubes. *)
From Coq Require Import Reals List Arith ZArith Lia Lra Permutation.
From Verif Require Import Lib.PyBase Lib.Fl Spec.Blank Spec.CramerCubes Model.Psds Model.Formats Model.CramerDistance Proofs.CramerDistance_Proofs Proofs.CramerDistance2_Proofs.
Import ListNotations.
Local Open Scope R_scope.

(** ** C241: what the distance of two cubes depends on *)
Theorem C241_defined : forall norm2 random seeded choice c1 c2 a b normalize st,
  (normalize = true -> like_norm norm2) -> (forall s row n, (n <= length row)%nat -> drawn row n (fst (choice s row n))) ->
  bright_cube c1 a -> bright_cube c2 b -> exists r, distance_metric norm2 random seeded choice c1 c2 normalize st = Ok r.
Proof. exact dist_defined. Qed.
Print Assumptions C241_defined.
Example C241_defined_case : like_norm ex_norm /\ (forall s row n, (n <= length row)%nat -> drawn row n (fst (ex_choice s row n))) /\
  bright_cube ex_small 4 /\ bright_cube ex_large 3.
Proof. split; [exact ex_norm_like|]. split; [exact ex_choice_draws|]. split; [exact ex_small_bright|exact ex_large_bright]. Qed.
Example C241_case : forall nm, exists r, distance_metric ex_norm unit (fun _ => tt) ex_choice ex_small ex_large nm tt = Ok r.
Proof. intros nm. exact (dist_defined _ _ _ _ _ _ _ _ nm tt (fun _ => ex_norm_like) ex_choice_draws ex_small_bright ex_large_bright). Qed.
Theorem C241_symmetric : forall norm2 random seeded choice c1 c2 normalize st r,
  distance_metric norm2 random seeded choice c1 c2 normalize st = Ok r -> distance_metric norm2 random seeded choice c2 c1 normalize st = Ok r.
Proof. exact dist_sym. Qed.
Print Assumptions C241_symmetric.
Theorem C241_same : forall norm2 random seeded choice c normalize st r,
  distance_metric norm2 random seeded choice c c normalize st = Ok r -> r = (0, st).
Proof. exact dist_same. Qed.
Print Assumptions C241_same.
Theorem C241_nonnegative : forall norm2 random seeded choice c1 c2 normalize st r,
  distance_metric norm2 random seeded choice c1 c2 normalize st = Ok r -> 0 <= fst r.
Proof. exact dist_nonneg. Qed.
Print Assumptions C241_nonnegative.
Theorem C241_pixel_order : forall norm2 random seeded choice c1 c1' c2 c2' normalize st,
  proper_cube c1 -> proper_cube c2 -> rearranged c1 c1' -> rearranged c2 c2' ->
  distance_metric norm2 random seeded choice c1' c2' normalize st = distance_metric norm2 random seeded choice c1 c2 normalize st.
Proof. exact dist_rearranged. Qed.
Print Assumptions C241_pixel_order.
Definition ex_small_turned : cube_in := mk_cube 10 [repeat (Fin 2) 5 ++ repeat (Fin 4) 5; repeat (Fin 1) 10] None.
Example C241_pixel_order_case : rearranged ex_small ex_small_turned.
Proof. split; [reflexivity|]. split; [|reflexivity]. constructor; [apply Permutation_app_comm|]. constructor; [apply Permutation_refl|constructor]. Qed.
(** The order of the channels, for channels of equal sizes *)
Theorem C241_channel_order_partial : forall norm2 random seeded choice c1 c1' c2 c2' normalize st r,
  (forall M M', Permutation M M' -> norm2 M' = norm2 M) ->
  proper_cube c1 -> proper_cube c2 -> reordered c1 c1' -> reordered c2 c2' -> ci_npix c1 = ci_npix c2 ->
  distance_metric norm2 random seeded choice c1 c2 normalize st = Ok r -> distance_metric norm2 random seeded choice c1' c2' normalize st = Ok r.
Proof. exact dist_reordered. Qed.
Print Assumptions C241_channel_order_partial.
Definition ex_small_swapped : cube_in := mk_cube 10 [repeat (Fin 1) 10; repeat (Fin 4) 5 ++ repeat (Fin 2) 5] None.
Example C241_channel_order_case : reordered ex_small ex_small_swapped /\
  exists r, distance_metric ex_norm unit (fun _ => tt) ex_choice ex_small ex_small true tt = Ok r.
Proof.
  split.
  - split; [reflexivity|]. split; [|reflexivity]. constructor.
  - exact (dist_defined _ _ _ _ _ _ _ _ true tt (fun _ => ex_norm_like) ex_choice_draws ex_small_bright ex_small_bright).
Qed.
(** The channels of a cube with fewer pixels than the other are never drawn from *)
Theorem C241_smaller_order_partial : forall norm2 random seeded choice c1 c1' c2 normalize st r,
  (forall M M', Permutation M M' -> norm2 M' = norm2 M) -> proper_cube c1 -> reordered c1 c1' -> (ci_npix c1 <= ci_npix c2)%nat ->
  distance_metric norm2 random seeded choice c1 c2 normalize st = Ok r -> distance_metric norm2 random seeded choice c1' c2 normalize st = Ok r.
Proof. exact dist_reordered_smaller. Qed.
Print Assumptions C241_smaller_order_partial.
Example C241_smaller_order_case : reordered ex_small ex_small_swapped /\ (ci_npix ex_small <= ci_npix ex_large)%nat.
Proof. split; [|cbn; lia]. split; [reflexivity|]. split; [|reflexivity]. constructor. Qed.
(** The order of the channels of the cube with more pixels decides which pixels of a channel
    are drawn, and the distance with it *)
Theorem C241_channel_order_refuted : exists random seeded choice c1 c2 c2' st,
  (forall s row n, (n <= length row)%nat -> drawn row n (fst (choice s row n))) /\ bright_cube c1 4 /\ bright_cube c2 4 /\ reordered c2 c2' /\
  forall norm2, exists d d' s s', distance_metric norm2 random seeded choice c1 c2 false st = Ok (d, s) /\
    distance_metric norm2 random seeded choice c1 c2' false st = Ok (d', s') /\ d' < d.
Proof.
  exists nat, (fun _ => 0%nat), alt_choice, five, ten, ten', 0%nat. split; [exact alt_draws|]. destruct (channel_order_matters ex_norm) as (_ & _ & R & B5 & B10 & _).
  split; [exact B5|]. split; [exact B10|]. split; [exact R|]. intro norm2. exact (proj2 (proj2 (proj2 (proj2 (proj2 (channel_order_matters norm2)))))).
Qed.
Print Assumptions C241_channel_order_refuted.
(** The unit of brightness of either cube *)
Theorem C241_brightness_unit : forall norm2 random seeded choice c1 c2 a1 a2 st, 0 < a1 -> 0 < a2 ->
  distance_metric norm2 random seeded choice (brighter a1 c1) (brighter a2 c2) true st = distance_metric norm2 random seeded choice c1 c2 true st.
Proof. intros norm2 random seeded choice c1 c2 a1 a2 st. exact (dist_scale norm2 random seeded choice c1 c2 a1 a2 true st). Qed.
Print Assumptions C241_brightness_unit.

(** ** C242: without normalisation the brightness ranges still make no difference: a cube and
    a copy of it, however much brighter, have the same distance to any cube, and distance 0 *)
Theorem C242_ranges_refuted : forall norm2 random seeded choice c1 c2 a1 a2 st, 0 < a1 -> 0 < a2 ->
  distance_metric norm2 random seeded choice (brighter a1 c1) (brighter a2 c2) false st = distance_metric norm2 random seeded choice c1 c2 false st.
Proof. intros norm2 random seeded choice c1 c2 a1 a2 st. exact (dist_scale norm2 random seeded choice c1 c2 a1 a2 false st). Qed.
Print Assumptions C242_ranges_refuted.
Theorem C242_brighter_copy_refuted : forall norm2 random seeded choice c m a st,
  (forall s row n, (n <= length row)%nat -> drawn row n (fst (choice s row n))) -> bright_cube c m -> 0 < a ->
  distance_metric norm2 random seeded choice c (brighter a c) false st = Ok (0, st).
Proof. exact brighter_copy. Qed.
Print Assumptions C242_brighter_copy_refuted.
Example C242_case : bright_cube ex_small 4 /\ ci_chans (brighter 100 ex_small) <> ci_chans ex_small.
Proof. split; [exact ex_small_bright|]. cbn. intros H. injection H as H. lra. Qed.

(** ** C243: cubes with different numbers of pixels *)
(** Both data matrices get the smaller number of columns; rows of the wider one are drawn from
    without replacement, the narrower one is kept; equal sizes draw nothing *)
Theorem C243_sampling : forall norm2 random seeded choice c1 c2 p seed normalize st m1 m2 m1' m2' st',
  (forall s row n, (n <= length row)%nat -> drawn row n (fst (choice s row n))) ->
  format_one norm2 (ci_npix c1) (ci_chans c1) (ci_noise c1) p normalize = Ok m1 ->
  format_one norm2 (ci_npix c2) (ci_chans c2) (ci_noise c2) p normalize = Ok m2 ->
  format_data norm2 random seeded choice c1 c2 p seed normalize st = Ok (m1', m2', st') ->
  dm_cols m1' = Nat.min (dm_cols m1) (dm_cols m2) /\ dm_cols m2' = Nat.min (dm_cols m1) (dm_cols m2) /\
  Forall2 (fun row new => drawn row (dm_cols m1') new) (dm_rows m1) (dm_rows m1') /\
  Forall2 (fun row new => drawn row (dm_cols m2') new) (dm_rows m2) (dm_rows m2') /\
  ((dm_cols m1 <= dm_cols m2)%nat -> m1' = m1) /\ ((dm_cols m2 <= dm_cols m1)%nat -> m2' = m2) /\
  (dm_cols m1 = dm_cols m2 -> st' = st).
Proof. exact sampling. Qed.
Print Assumptions C243_sampling.
Example C243_sampling_case : exists m1 m2 m1' m2' st', format_one ex_norm 10 (ci_chans ex_small) None (2 / 10) true = Ok m1 /\
  format_one ex_norm 20 (ci_chans ex_large) (Some 2) (2 / 10) true = Ok m2 /\
  format_data ex_norm unit (fun _ => tt) ex_choice ex_small ex_large (2 / 10) 13024%Z true tt = Ok (m1', m2', st') /\ dm_cols m1 = 2%nat /\ dm_cols m2 = 4%nat.
Proof. exact ex_sampling. Qed.
(** The distance does not depend on the caller's random state *)
Theorem C243_reproducible : forall norm2 random seeded choice c1 c2 normalize st1 st2 d st1',
  distance_metric norm2 random seeded choice c1 c2 normalize st1 = Ok (d, st1') ->
  exists st2', distance_metric norm2 random seeded choice c1 c2 normalize st2 = Ok (d, st2').
Proof. exact reproducible. Qed.
Print Assumptions C243_reproducible.
(** The caller's random state is lost when sizes differ: afterwards it is the same whatever it
    was before *)
Theorem C243_random_state_refuted : forall norm2 random seeded choice c1 c2 normalize st1 st2 r1,
  Z.to_nat (np_round (2 / 10 * INR (ci_npix c1))) <> Z.to_nat (np_round (2 / 10 * INR (ci_npix c2))) ->
  distance_metric norm2 random seeded choice c1 c2 normalize st1 = Ok r1 -> distance_metric norm2 random seeded choice c1 c2 normalize st2 = Ok r1.
Proof. exact reseeded. Qed.
Print Assumptions C243_random_state_refuted.
Example C243_case : Z.to_nat (np_round (2 / 10 * INR 10)) <> Z.to_nat (np_round (2 / 10 * INR 20)).
Proof. rewrite ex_round10, ex_round20. lia. Qed.
