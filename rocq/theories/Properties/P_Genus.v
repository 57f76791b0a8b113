(** Properties of the genus statistic. *)
From Coq Require Import Reals List Bool ZArith Arith Lia Lra.
From Verif Require Import Lib.PyBase Lib.RSum Lib.Fl Spec.Regions Spec.GenusSpec Model.Distances Model.Units Model.Genus Proofs.Regions_Proofs Proofs.Genus_Proofs.
Import ListNotations.
Local Open Scope R_scope.

(** ** C33 *)
Theorem C33_genus_odd : forall n0 n1 img t rm m c,
  genus_at n0 n1 (fun p => fneg (img p)) (fneg t) rm m c = (- genus_at n0 n1 img t rm m c)%Z.
Proof. exact genus_odd. Qed.
Print Assumptions C33_genus_odd.
(** With smoothing by any operation that commutes with the sign. *)
Theorem C33_curve_odd : forall smooth n0 n1 img thr radii rm m c,
  (forall w i, smooth w (fun p => fneg (i p)) = fun p => fneg (smooth w i p)) ->
  make_genus_curve smooth n0 n1 (fun p => fneg (img p)) (map fneg thr) radii rm m c =
  map (map Z.opp) (make_genus_curve smooth n0 n1 img thr radii rm m c).
Proof. exact curve_odd. Qed.
Print Assumptions C33_curve_odd.
Theorem C33_at_or_above_the_maximum : forall n0 n1 img t rm m c,
  (forall p, in_image n0 n1 p -> img p = NaN \/ exists v, img p = Fin v /\ v <= t) ->
  exists kl, regions (adjacent c) (below n0 n1 img t) (counted c (below n0 n1 img t) rm m) kl /\ genus_at n0 n1 img (Fin t) rm m c = (- Z.of_nat kl)%Z.
Proof. exact genus_top. Qed.
Print Assumptions C33_at_or_above_the_maximum.
Theorem C33_at_or_below_the_minimum : forall n0 n1 img t rm m c,
  (forall p, in_image n0 n1 p -> img p = NaN \/ exists v, img p = Fin v /\ t <= v) ->
  exists kh, regions (adjacent c) (above n0 n1 img t) (counted c (above n0 n1 img t) rm m) kh /\ genus_at n0 n1 img (Fin t) rm m c = Z.of_nat kh.
Proof. exact genus_bottom. Qed.
Print Assumptions C33_at_or_below_the_minimum.
Example C33_instance : genus_at 2 2 diag_img (Fin 0) true 1 1 = 2%Z /\ genus_at 2 2 (fun p => fneg (diag_img p)) (fneg (Fin 0)) true 1 1 = (-2)%Z.
Proof. exact diag_odd. Qed.

(** ** C34 *)
Theorem C34_keeps_the_large_regions : forall c n0 n1 mask m p, in_image n0 n1 p ->
  (remove_small_objects n0 n1 mask m c p = true <-> mask p = true /\ region_ge (adjacent c) (fun q => in_image n0 n1 q /\ mask q = true) m p).
Proof. exact remove_keeps. Qed.
Print Assumptions C34_keeps_the_large_regions.
Theorem C34_never_adds_pixels : forall c n0 n1 mask m p, remove_small_objects n0 n1 mask m c p = true -> mask p = true.
Proof. exact remove_subset. Qed.
Print Assumptions C34_never_adds_pixels.
Theorem C34_idempotent : forall c n0 n1 mask m p, in_image n0 n1 p ->
  remove_small_objects n0 n1 (remove_small_objects n0 n1 mask m c) m c p = remove_small_objects n0 n1 mask m c p.
Proof. exact remove_idempotent. Qed.
Print Assumptions C34_idempotent.
Example C34_instance :
  let mask p := match p with (0, 0) | (1, 1) | (0, 3) => true | _ => false end%nat in
  map (remove_small_objects 2 4 mask 2 2) (pixels 2 4) = [true; false; false; false; false; true; false; false] /\
  map (remove_small_objects 2 4 mask 2 1) (pixels 2 4) = repeat false 8.
Proof. split; reflexivity. Qed.

(** ** C35 *)
Theorem C35_beam_area_refuted : ~ (forall s major minor sz, 0 < minor <= major ->
  min_size_of s (Some (major, minor)) true sz = Ok (Int_part (beam_area major minor))).
Proof. exact beam_refuted. Qed.
Print Assumptions C35_beam_area_refuted.
(** What is used is sqrt(8 ln 2) = 2.35 times the area of the beam. *)
Theorem C35_beam_area_partial : forall s major minor sz,
  min_size_of s (Some (major, minor)) true sz = Ok (Int_part (sqrt (8 * ln 2) * beam_area major minor)).
Proof. exact beam_size. Qed.
Print Assumptions C35_beam_area_partial.
Example C35_instance : 2 < sqrt (8 * ln 2).
Proof. exact sqrt8_gt2. Qed.

(** ** C116 *)
Theorem C116_genus_counts_regions : forall n0 n1 img t rm m c kh kl,
  regions (adjacent c) (above n0 n1 img t) (counted c (above n0 n1 img t) rm m) kh ->
  regions (adjacent c) (below n0 n1 img t) (counted c (below n0 n1 img t) rm m) kl ->
  genus_at n0 n1 img (Fin t) rm m c = (Z.of_nat kh - Z.of_nat kl)%Z.
Proof. exact genus_is. Qed.
Print Assumptions C116_genus_counts_regions.
Theorem C116_counts_exist : forall n0 n1 img t rm m c, exists kh kl,
  regions (adjacent c) (above n0 n1 img t) (counted c (above n0 n1 img t) rm m) kh /\
  regions (adjacent c) (below n0 n1 img t) (counted c (below n0 n1 img t) rm m) kl /\
  genus_at n0 n1 img (Fin t) rm m c = (Z.of_nat kh - Z.of_nat kl)%Z.
Proof. exact counts_exist. Qed.
Print Assumptions C116_counts_exist.
Theorem C116_curve : forall smooth n0 n1 img thr radii rm m c j i, (j < length radii)%nat -> (i < length thr)%nat ->
  nth i (nth j (make_genus_curve smooth n0 n1 img thr radii rm m c) []) 0%Z =
  genus_at n0 n1 (match nth j radii None with None => img | Some w => smooth w img end) (nth i thr NaN) rm m c.
Proof. exact curve_nth. Qed.
Print Assumptions C116_curve.
Example C116_instance : genus_at 2 2 diag_img (Fin 0) true 1 1 = 2%Z.
Proof. exact diag_genus4. Qed.

(** ** C117 *)
Theorem C117_transpose : forall n0 n1 img t rm m c, genus_at n1 n0 (fun p => img (snd p, fst p)) (Fin t) rm m c = genus_at n0 n1 img (Fin t) rm m c.
Proof. exact genus_transpose. Qed.
Print Assumptions C117_transpose.
Theorem C117_flip_rows : forall n0 n1 img t rm m c, genus_at n0 n1 (fun p => img ((n0 - 1 - fst p)%nat, snd p)) (Fin t) rm m c = genus_at n0 n1 img (Fin t) rm m c.
Proof. exact genus_flip_rows. Qed.
Print Assumptions C117_flip_rows.
Theorem C117_flip_columns : forall n0 n1 img t rm m c, genus_at n0 n1 (fun p => img (fst p, (n1 - 1 - snd p)%nat)) (Fin t) rm m c = genus_at n0 n1 img (Fin t) rm m c.
Proof. exact genus_flip_cols. Qed.
Print Assumptions C117_flip_columns.
Theorem C117_blank_border : forall n0 n1 n0' n1' b0 b1 img img' t rm m c, (b0 + n0 <= n0')%nat -> (b1 + n1 <= n1')%nat ->
  (forall p, in_image n0 n1 p -> img' ((fst p + b0)%nat, (snd p + b1)%nat) = img p) ->
  (forall p, ~ (b0 <= fst p < b0 + n0 /\ b1 <= snd p < b1 + n1)%nat -> img' p = NaN) ->
  genus_at n0' n1' img' (Fin t) rm m c = genus_at n0 n1 img (Fin t) rm m c.
Proof. exact genus_border. Qed.
Print Assumptions C117_blank_border.
Theorem C117_increasing_scale : forall n0 n1 img t rm m c (phi : R -> R), (forall a b, a < b -> phi a < phi b) ->
  genus_at n0 n1 (fun p => fmap phi (img p)) (Fin (phi t)) rm m c = genus_at n0 n1 img (Fin t) rm m c.
Proof. exact genus_increasing. Qed.
Print Assumptions C117_increasing_scale.
Example C117_instance : genus_at 2 2 (fun p => fmap (fun x => 3 * x + 1) (diag_img p)) (Fin (3 * 0 + 1)) true 1 1 = 2%Z.
Proof. exact diag_scaled. Qed.

(** ** C118 *)
Theorem C118_percentile_overrides_refuted : ~ (forall data_min data_max pct lo hi pl ph numpts, (2 <= numpts)%nat ->
  nth 0 (thresholds_of None data_min data_max pct (Some lo) hi pl ph numpts) 0 = Rmax lo (pct pl)).
Proof. exact percentile_refuted. Qed.
Print Assumptions C118_percentile_overrides_refuted.
(** Percentiles are used only where no value is given. *)
Theorem C118_thresholds_partial : forall data_min data_max pct lo hi numpts, (2 <= numpts)%nat ->
  evenly_spaced (match lo with Some v => v | None => data_min end) (match hi with Some v => v | None => data_max end) numpts
    (thresholds_of None data_min data_max pct lo hi 0 100 numpts) /\
  (forall pl ph, pl <> 0 -> ph <> 100 -> evenly_spaced (pct pl) (pct ph) numpts (thresholds_of None data_min data_max pct None None pl ph numpts)) /\
  (forall t pl ph, thresholds_of (Some t) data_min data_max pct lo hi pl ph numpts = t).
Proof. exact thresholds_spec. Qed.
Print Assumptions C118_thresholds_partial.
Example C118_instance : evenly_spaced 1 9 5 (thresholds_of None 0 10 (fun q => q / 10) (Some 1) (Some 9) 0 100 5).
Proof. exact (proj1 (thresholds_spec 0 10 (fun q => q / 10) (Some 1) (Some 9) 5 ltac:(lia))). Qed.

(** ** C119 *)
Theorem C119_distance_numpts_refuted : ~ (forall data_min data_max pct lo hi pl ph numpts,
  length (distance_thresholds data_min data_max pct lo hi pl ph numpts) = numpts).
Proof. exact numpts_refuted. Qed.
Print Assumptions C119_distance_numpts_refuted.
Theorem C119_distance_numpts_partial : forall data_min data_max pct lo hi pl ph numpts,
  length (distance_thresholds data_min data_max pct lo hi pl ph numpts) = 100%nat.
Proof. exact numpts_partial. Qed.
Print Assumptions C119_distance_numpts_partial.
Example C119_instance : length (distance_thresholds 0 1 (fun q => q) None None 0 100 7) = 100%nat.
Proof. exact (numpts_partial 0 1 (fun q => q) None None 0 100 7). Qed.

(** ** C120 *)
Theorem C120_one_table_per_image_refuted : ~ (forall thresholds genus_stats means stds radii,
  length (make_genus_stats_table thresholds genus_stats means stds radii) = length radii).
Proof. exact tables_refuted. Qed.
Print Assumptions C120_one_table_per_image_refuted.
(** Every table appears twice, with the right columns. *)
Theorem C120_tables_partial : forall thresholds genus_stats means stds radii,
  let tabs := make_genus_stats_table thresholds genus_stats means stds radii in
  length tabs = (2 * length radii)%nat /\
  forall ii, (ii < length radii)%nat ->
    let t := (thresholds, nth ii genus_stats [], repeat (nth ii means NaN) (length thresholds), repeat (nth ii stds NaN) (length thresholds), repeat (nth ii radii None) (length thresholds)) in
    nth (2 * ii) tabs ([], [], [], [], []) = t /\ nth (2 * ii + 1) tabs ([], [], [], [], []) = t.
Proof. exact tables_partial. Qed.
Print Assumptions C120_tables_partial.
Example C120_instance : length (make_genus_stats_table [0; 1] [[1%Z; 2%Z]; [3%Z; 4%Z]] [Fin 0; Fin 1] [Fin 0; Fin 1] [Some 1; Some 2]) = 4%nat.
Proof. reflexivity. Qed.

(** ** C121 *)
Theorem C121_default_radii_refuted : ~ (forall n0 n1, (20 <= Nat.min n0 n1)%nat ->
  exists l, smoothing_radii_of true None n0 n1 = Ok (map Some l) /\ evenly_spaced 1 (INR (Nat.min n0 n1) / 10) 5 l).
Proof. exact radii_default_refuted. Qed.
Print Assumptions C121_default_radii_refuted.
Theorem C121_default_radii_partial : forall n0 n1, (2 <= Nat.min n0 n1)%nat -> smoothing_radii_of true None n0 n1 = Ok [Some 1].
Proof. exact radii_default. Qed.
Print Assumptions C121_default_radii_partial.
Theorem C121_accepted_radii : forall l n0 n1,
  (forall v, In v l -> 1 <= v <= INR (Nat.min n0 n1) / 2) <-> smoothing_radii_of true (Some l) n0 n1 = Ok (map Some l).
Proof. exact radii_accept. Qed.
Print Assumptions C121_accepted_radii.
Example C121_instance : smoothing_radii_of true None 20 20 = Ok [Some 1].
Proof. exact (radii_default 20 20 ltac:(cbn; lia)). Qed.

(** ** C122 *)
Theorem C122_counted_with_eight_connectivity_refuted : ~ (forall n0 n1 img t m c, exists kh kl,
  regions adj8 (above n0 n1 img t) (region_ge (adjacent c) (above n0 n1 img t) m) kh /\
  regions adj8 (below n0 n1 img t) (region_ge (adjacent c) (below n0 n1 img t) m) kl /\
  genus_at n0 n1 img (Fin t) true m c = (Z.of_nat kh - Z.of_nat kl)%Z).
Proof. exact eight_refuted. Qed.
Print Assumptions C122_counted_with_eight_connectivity_refuted.
(** Regions are removed and counted with the same connectivity. *)
Theorem C122_same_connectivity_partial : forall n0 n1 img t m c, exists kh kl,
  regions (adjacent c) (above n0 n1 img t) (region_ge (adjacent c) (above n0 n1 img t) m) kh /\
  regions (adjacent c) (below n0 n1 img t) (region_ge (adjacent c) (below n0 n1 img t) m) kl /\
  genus_at n0 n1 img (Fin t) true m c = (Z.of_nat kh - Z.of_nat kl)%Z.
Proof. exact genus_counts. Qed.
Print Assumptions C122_same_connectivity_partial.
Example C122_instance : genus_at 2 2 diag_img (Fin 0) true 1 1 = 2%Z.
Proof. exact diag_genus4. Qed.

(** ** C123 *)
Theorem C123_gaussian_odd : forall x A theta, model_gaussian_genus (- x) A theta = - model_gaussian_genus x A theta.
Proof. exact gg_odd. Qed.
Print Assumptions C123_gaussian_odd.
Theorem C123_gaussian_sign : forall x A theta, 0 < A -> theta <> 0 ->
  (0 < model_gaussian_genus x A theta <-> 0 < x) /\ (model_gaussian_genus x A theta = 0 <-> x = 0).
Proof. exact gg_sign. Qed.
Print Assumptions C123_gaussian_sign.
Theorem C123_gaussian_peak : forall x A theta, 0 < A -> theta <> 0 -> x <> 1 -> model_gaussian_genus x A theta < model_gaussian_genus 1 A theta.
Proof. exact gg_peak. Qed.
Print Assumptions C123_gaussian_peak.
Example C123_instance : model_gaussian_genus 2 1 1 < model_gaussian_genus 1 1 1.
Proof. exact (gg_peak 2 1 1 ltac:(lra) ltac:(lra) ltac:(lra)). Qed.
