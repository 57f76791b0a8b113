(** Properties of the statistical moments and of the PDF. *)
From Coq Require Import String Reals List Bool ZArith Arith Lia Lra Permutation.
From Verif Require Import Lib.PyBase Lib.RSum Lib.Fl Lib.Arr Lib.Hist Spec.Bins Spec.Blank Spec.Distrib Model.Units Model.StatMoments Model.Pdf Proofs.Moments_Proofs Proofs.Moments2_Proofs Proofs.Pdf_Proofs.
Import ListNotations.
Local Open Scope R_scope.

(** ** C36 *)
(** [xs_of l] and [ws_of l] are the image and the weights of the (value, weight) pairs l. *)
Theorem C36_laws_of_moments_partial : forall l, (forall p, In p l -> 0 <= snd p) -> 0 < total l -> exists m v s k,
  compute_moments (xs_of l) (ws_of l) = (Fin m, Fin v, Fin s, Fin k) /\
  (forall lo hi, (forall p, In p l -> lo <= fst p <= hi) -> lo <= m <= hi) /\ 0 <= v /\ (0 < v -> s ^ 2 + 1 <= k + 3).
Proof. exact moments_laws. Qed.
Print Assumptions C36_laws_of_moments_partial.
(** For a constant image the skewness is 0 and the kurtosis -3. *)
Theorem C36_pearson_refuted : ~ (forall l, l <> [] -> (forall p, In p l -> 0 <= snd p) -> 0 < total l -> forall m v s k,
  compute_moments (xs_of l) (ws_of l) = (Fin m, Fin v, Fin s, Fin k) -> s ^ 2 + 1 <= k + 3).
Proof. exact pearson_refuted. Qed.
Print Assumptions C36_pearson_refuted.
Theorem C36_affine : forall l a b m v s k, (forall p, In p l -> 0 <= snd p) -> 0 < total l -> a <> 0 ->
  compute_moments (xs_of l) (ws_of l) = (Fin m, Fin v, Fin s, Fin k) ->
  compute_moments (xs_of (map (fun p => (a * fst p + b, snd p)) l)) (ws_of (map (fun p => (a * fst p + b, snd p)) l)) =
  (Fin (a * m + b), Fin (a ^ 2 * v), Fin (sign a * s), Fin k).
Proof. exact moments_affine. Qed.
Print Assumptions C36_affine.
Theorem C36_are_the_weighted_moments : forall l, (forall p, In p l -> 0 <= snd p) -> 0 < total l -> 0 < wvar l ->
  compute_moments (xs_of l) (ws_of l) = (Fin (wmean l), Fin (wvar l), Fin (wskew l), Fin (wkurt l)).
Proof. exact moments_meaning. Qed.
Print Assumptions C36_are_the_weighted_moments.
Example C36_instance : (forall p, In p two -> 0 <= snd p) /\ 0 < total two /\ wmean two = 1 /\ wvar two = 1.
Proof. exact two_example. Qed.

(** ** C37 *)
Theorem C37_blanks_refuted : ~ (forall n0 n1 (data : image) (valid : list R),
  fins (flat n0 n1 data) = valid -> Forall blankable (flat n0 n1 data) -> valid <> [] ->
  fst (fst (fst (array_moments n0 n1 data None))) = Fin (rmean valid)).
Proof. exact blanks_refuted. Qed.
Print Assumptions C37_blanks_refuted.
(** Where blanks have blank weights they do not influence the moments. *)
Theorem C37_blanks_partial : forall l, (forall x w, In (x, w) l -> x = NaN -> w = NaN) ->
  compute_moments (map fst l) (map snd l) =
  compute_moments (map fst (filter (fun p => negb (is_nan (fst p)) && negb (is_nan (snd p))) l))
                  (map snd (filter (fun p => negb (is_nan (fst p)) && negb (is_nan (snd p))) l)).
Proof. exact blanks_dropped. Qed.
Print Assumptions C37_blanks_partial.
(** Otherwise the mean is too small by the share of the weights that belongs to blanks. *)
Theorem C37_bias_partial : forall l : list (option R * R),
  let valid := flat_map (fun p => match fst p with Some x => [(x, snd p)] | None => [] end) l in
  lsum (map snd l) <> 0 -> total valid <> 0 ->
  fst (fst (fst (compute_moments (map (fun p => match fst p with Some x => Fin x | None => NaN end) l) (map (fun p => Fin (snd p)) l)))) =
  Fin (wmean valid * (total valid / lsum (map snd l))).
Proof. exact blank_bias. Qed.
Print Assumptions C37_bias_partial.
Example C37_instance : filter (fun p => negb (is_nan (fst p)) && negb (is_nan (snd p))) [(Fin 1, Fin 1); (NaN, NaN); (Fin 2, NaN)] = [(Fin 1, Fin 1)].
Proof. reflexivity. Qed.

(** ** C38 *)
Theorem C38_window : forall n0 n1 r periodic mf data weights y x,
  local_moments n0 n1 r periodic mf data weights y x =
  if Rltb (finite_share (map (at_offset periodic n0 n1 data y x) (square r))) mf || Rltb (finite_share (map (at_offset periodic n0 n1 weights y x) (square r))) mf
  then (NaN, NaN, NaN, NaN)
  else compute_moments (map (at_offset periodic n0 n1 data y x) (disc r)) (map (at_offset periodic n0 n1 weights y x) (disc r)).
Proof. exact window. Qed.
Print Assumptions C38_window.
Theorem C38_periodic_window : forall n0 n1 r mf data weights y x, (0 < n0)%nat -> (0 < n1)%nat -> mf <= 1 ->
  (forall i j, (i < n0)%nat -> (j < n1)%nat -> is_fin (data i j) = true) -> (forall i j, (i < n0)%nat -> (j < n1)%nat -> is_fin (weights i j) = true) ->
  local_moments n0 n1 r true mf data weights y x = compute_moments (map (wrapped n0 n1 data y x) (disc r)) (map (wrapped n0 n1 weights y x) (disc r)).
Proof. exact window_periodic. Qed.
Print Assumptions C38_periodic_window.
Example C38_instance : local_moments 5 5 2 true 1 (fun i j => Fin (INR i + 5 * INR j)) ones 0 4 =
  compute_moments (map (wrapped 5 5 (fun i j => Fin (INR i + 5 * INR j)) 0 4) (disc 2)) (map (wrapped 5 5 ones 0 4) (disc 2)).
Proof. exact wrap_example. Qed.
Example C38_disc : disc 2 = [(-1, -1); (-1, 0); (-1, 1); (0, -1); (0, 0); (0, 1); (1, -1); (1, 0); (1, 1)]%Z.
Proof. reflexivity. Qed.

(** ** C124 *)
Theorem C124_circular_share_refuted : ~ (forall n0 n1 r periodic mf data weights y x, 0 < mf <= 1 ->
  mf <= finite_share (map (at_offset periodic n0 n1 data y x) (disc r)) -> mf <= finite_share (map (at_offset periodic n0 n1 weights y x) (disc r)) ->
  local_moments n0 n1 r periodic mf data weights y x =
  compute_moments (map (at_offset periodic n0 n1 data y x) (disc r)) (map (at_offset periodic n0 n1 weights y x) (disc r))).
Proof. exact circle_refuted. Qed.
Print Assumptions C124_circular_share_refuted.
Theorem C124_full_square_partial : forall n0 n1 r periodic mf data weights y x, mf <= 1 ->
  (forall d, In d (square r) -> is_fin (at_offset periodic n0 n1 data y x d) = true) -> (forall d, In d (square r) -> is_fin (at_offset periodic n0 n1 weights y x d) = true) ->
  local_moments n0 n1 r periodic mf data weights y x =
  compute_moments (map (at_offset periodic n0 n1 data y x) (disc r)) (map (at_offset periodic n0 n1 weights y x) (disc r)).
Proof. exact full_square. Qed.
Print Assumptions C124_full_square_partial.
Example C124_instance : exists m v s k, local_moments 10 10 2 false 1 ones ones 2 2 = (Fin m, Fin v, Fin s, Fin k).
Proof. exact window_fin_2. Qed.

(** ** C125 *)
Theorem C125_run_min_frac_refuted : ~ (forall s n0 n1 data weights self_radius radius periodic mf,
  run_maps s n0 n1 data weights self_radius radius periodic mf = compute_spatial_distrib s n0 n1 data weights self_radius radius periodic mf).
Proof. exact run_refuted. Qed.
Print Assumptions C125_run_min_frac_refuted.
Theorem C125_run_default_partial : forall s n0 n1 data weights self_radius radius periodic mf,
  run_maps s n0 n1 data weights self_radius radius periodic mf = compute_spatial_distrib s n0 n1 data weights self_radius radius periodic (8 / 10).
Proof. exact run_default. Qed.
Print Assumptions C125_run_default_partial.

(** ** C126 *)
Theorem C126_rounded_down_refuted : ~ (forall s n0 n1 v data weights self_radius periodic mf, 0 < mf <= 1 -> 2 <= v <= INR (Nat.min n0 n1) / 2 ->
  compute_spatial_distrib s n0 n1 data weights self_radius (Some (mk_q [v] pix)) periodic mf = Ok (local_moments n0 n1 (Z.to_nat (Int_part v)) periodic mf data weights)).
Proof. exact radius_refuted. Qed.
Print Assumptions C126_rounded_down_refuted.
(** It is rounded up, and accepted between two pixels and half of the smaller axis. *)
Theorem C126_rounded_up_partial : forall s n0 n1 q v k p, to_pixel s q = Ok p -> hd 0 (q_vals p) = v -> INR k - 1 < v <= INR k ->
  forall data weights self_radius periodic mf, 0 < mf <= 1 ->
  compute_spatial_distrib s n0 n1 data weights self_radius (Some q) periodic mf =
  if Rleb 2 v && Rleb v (INR (Nat.min n0 n1) / 2) then Ok (local_moments n0 n1 k periodic mf data weights) else Err ValueError.
Proof. exact radius_rule. Qed.
Print Assumptions C126_rounded_up_partial.
Example C126_instance : local_moments 10 10 3 false 1 ones ones 2 2 = (NaN, NaN, NaN, NaN).
Proof. exact window_nan_3. Qed.

(** ** C127 *)
Theorem C127_shifted_maps : forall n0 n1 r mf data weights s t y x, (0 < n0)%nat -> (0 < n1)%nat ->
  local_moments n0 n1 r true mf (shifted n0 n1 s t data) (shifted n0 n1 s t weights) y x =
  local_moments n0 n1 r true mf data weights ((y + s) mod n0)%nat ((x + t) mod n1)%nat.
Proof. exact maps_shift. Qed.
Print Assumptions C127_shifted_maps.
Example C127_instance : shifted 2 2 1 0 (fun i j => Fin (INR i)) 1 0 = Fin 0.
Proof. reflexivity. Qed.

(** ** C128 *)
(** [s1] and [s2] are the pixel sizes; the scale is s2 / s1. *)
Theorem C128_common_angular_radius : forall s1 s2 radius, 0 < s1 -> 0 < s2 ->
  let '(r1, r2) := distance_radii (s2 / s1) radius in
  r1 * s1 = r2 * s2 /\ (s2 <= s1 -> r1 = radius) /\ (s1 <= s2 -> r2 = radius).
Proof. exact radii_common. Qed.
Print Assumptions C128_common_angular_radius.

(** ** C129 *)
Theorem C129_precomputed_refuted : ~ (forall nbins auto pre1 pre2 mean1 mean2, (0 < auto)%nat -> (forall n, nbins = Some n -> (0 < n)%nat) ->
  (forall n d, pre1 = Some (n, d) -> (0 < n)%nat) -> (forall n d, pre2 = Some (n, d) -> (0 < n)%nat) -> Forall blankable mean1 -> Forall blankable mean2 ->
  is_ok (distance_mean_hists nbins auto pre1 pre2 mean1 mean2) = true).
Proof. exact precomputed_refuted. Qed.
Print Assumptions C129_precomputed_refuted.
(** It fails exactly when image1 is a StatMoments of another radius and nbins is not given. *)
Theorem C129_precomputed_partial : forall nbins auto pre1 pre2 mean1 mean2, (0 < auto)%nat -> (forall n, nbins = Some n -> (0 < n)%nat) ->
  (forall n d, pre1 = Some (n, d) -> (0 < n)%nat) -> (forall n d, pre2 = Some (n, d) -> (0 < n)%nat) -> Forall blankable mean1 -> Forall blankable mean2 ->
  is_ok (distance_mean_hists nbins auto pre1 pre2 mean1 mean2) = true <-> ~ (nbins = None /\ exists n, pre1 = Some (n, true)).
Proof. exact precomputed_works. Qed.
Print Assumptions C129_precomputed_partial.

(** ** C130 *)
Theorem C130_moment_histograms : forall arr n c h, (0 < n)%nat -> fins arr <> [] -> spatial_histogram arr None (Some (NumBins n)) = Ok (c, h) ->
  exists edges, is_pdf edges h /\ c = mid edges /\ length c = n /\ (forall x, In (Fin x) arr -> in_range edges x).
Proof. exact spatial_pdf. Qed.
Print Assumptions C130_moment_histograms.
Theorem C130_works_with_blanks : forall arr n, (0 < n)%nat -> Forall blankable arr -> is_ok (spatial_histogram arr None (Some (NumBins n))) = true.
Proof. exact spatial_works. Qed.
Print Assumptions C130_works_with_blanks.
Example C130_instance : is_ok (spatial_histogram [Fin 1; NaN; Fin 2] None (Some (NumBins 3))) = true.
Proof. exact spatial_example. Qed.

(** ** C39 *)
Theorem C39_accepted_data : forall img m, init_data img (Fin m) None None = Ok (map Fin (filter (fun x => Rltb m x) (fins img))).
Proof. exact init_plain. Qed.
Print Assumptions C39_accepted_data.
Theorem C39_accepted_by_default : forall img, init_data img NInf None None = Ok (map Fin (fins img)).
Proof. exact init_default. Qed.
Print Assumptions C39_accepted_by_default.
Theorem C39_weighted_data : forall img w m, init_data img (Fin m) (Some w) None = Ok (map Fin (accepted m (combine img w))).
Proof. exact init_weighted. Qed.
Print Assumptions C39_weighted_data.
Theorem C39_pdf_with_automatic_bins : forall data st, data <> [] -> p_data st = map Fin data -> p_bins st = None -> exists st' edges,
  make_pdf st None = Ok st' /\ is_pdf edges (pdf_values st') /\ pdf_bins st' = mid edges /\ increasing edges /\
  length (pdf_bins st') = Z.to_nat (np_round (sqrt (INR (length data)))) /\ (forall x, In x data -> in_range edges x).
Proof. exact pdf_auto. Qed.
Print Assumptions C39_pdf_with_automatic_bins.
Theorem C39_pdf_with_given_bins : forall data st edges x, p_data st = map Fin data -> increasing edges -> (2 <= length edges)%nat -> In x data -> in_range edges x -> exists st',
  make_pdf st (Some (Edges edges)) = Ok st' /\ is_pdf edges (pdf_values st') /\ pdf_bins st' = mid edges /\
  forall i, (S i < length edges)%nat -> exists c, 0 < c /\
    nth i (pdf_values st') NaN = Fin (INR (length (filter (in_binb edges i) data)) / (nth (S i) edges 0 - nth i edges 0) / c).
Proof. exact pdf_edges. Qed.
Print Assumptions C39_pdf_with_given_bins.
Theorem C39_ecdf_partial : forall data st st' e, data <> [] -> p_data st = map Fin data -> make_ecdf st = Ok (st', e) -> exists v,
  e = map Fin v /\ length v = length (pdf_bins st') /\ (forall y, In y v -> 0 <= y <= 1) /\
  (forall i, (i < length v)%nat -> nth i v 0 = share_le data (nth i (pdf_bins st') 0)) /\
  (increasing (pdf_bins st') -> forall i j, (i <= j < length v)%nat -> nth i v 0 <= nth j v 0).
Proof. exact ecdf_laws. Qed.
Print Assumptions C39_ecdf_partial.
(** The ECDF is evaluated at the centres of the bins: it need not reach 1. *)
Theorem C39_ecdf_ends_at_1_refuted : ~ (forall data st' e, data <> [] -> make_ecdf (mk_pdf (map Fin data) None None) = Ok (st', e) -> last e NaN = Fin 1).
Proof. exact ecdf_end_refuted. Qed.
Print Assumptions C39_ecdf_ends_at_1_refuted.
Theorem C39_ecdf_at_the_maximum_partial : forall data x, data <> [] -> (forall y, In y data -> y <= x) -> ecdf data x = Fin 1 /\ find_percentile data x = Fin 100.
Proof. exact ecdf_end_partial. Qed.
Print Assumptions C39_ecdf_at_the_maximum_partial.
Example C39_instance : exists st, make_pdf (mk_pdf (map Fin [0; 1; 2; 3]) None None) None = Ok st.
Proof. exact auto_example. Qed.
Example C39_instance_edges : increasing [0; 1; 3] /\ in_range [0; 1; 3] 2 /\ accepted 0 [(Fin 2, Fin 3); (Fin (-1), Fin 1); (NaN, Fin 1); (Fin 5, NaN)] = [2 * 3].
Proof. exact edges_example. Qed.

(** ** C40 *)
Theorem C40_again_refuted : ~ (forall data st1 st2, data <> [] -> make_pdf (mk_pdf (map Fin data) None None) None = Ok st1 -> make_pdf st1 None = Ok st2 ->
  pdf_bins st2 = pdf_bins st1 /\ pdf_values st2 = pdf_values st1).
Proof. exact again_refuted. Qed.
Print Assumptions C40_again_refuted.
(** The centres are taken for edges: each call loses a bin. *)
Theorem C40_loses_a_bin_partial : forall st c, p_bins st = Some (Edges c) -> increasing c -> exists st',
  make_pdf st None = Ok st' /\ pdf_bins st' = mid c /\ length (pdf_bins st') = (length c - 1)%nat.
Proof. exact pdf_again. Qed.
Print Assumptions C40_loses_a_bin_partial.
(** With given bins the history does not matter. *)
Theorem C40_given_bins_partial : forall st1 st2 b, p_data st1 = p_data st2 -> make_pdf st1 (Some b) = make_pdf st2 (Some b).
Proof. exact pdf_history. Qed.
Print Assumptions C40_given_bins_partial.

(** ** C131 *)
(** The KS distance is the largest difference of the two distribution functions at any real number. *)
Theorem C131_ks_is_the_supremum : forall d1 d2, d1 <> [] -> d2 <> [] -> exists D, ks_distance d1 d2 = Ok D /\
  (forall x, Rabs (share_le d1 x - share_le d2 x) <= D) /\ (exists x, D = Rabs (share_le d1 x - share_le d2 x)).
Proof. exact ks_sup. Qed.
Print Assumptions C131_ks_is_the_supremum.
Theorem C131_ks_range : forall d1 d2, d1 <> [] -> d2 <> [] -> exists D, ks_distance d1 d2 = Ok D /\ 0 <= D <= 1.
Proof. exact ks_range. Qed.
Print Assumptions C131_ks_range.
Theorem C131_ks_symmetric : forall d1 d2, d1 <> [] -> d2 <> [] -> ks_distance d1 d2 = ks_distance d2 d1.
Proof. exact ks_sym. Qed.
Print Assumptions C131_ks_symmetric.
Theorem C131_ks_zero : forall d1 d2, d1 <> [] -> d2 <> [] -> Permutation d1 d2 -> ks_distance d1 d2 = Ok 0.
Proof. exact ks_zero. Qed.
Print Assumptions C131_ks_zero.
Theorem C131_ks_separated : forall d1 d2, d1 <> [] -> d2 <> [] -> (forall a b, In a d1 -> In b d2 -> a < b) -> ks_distance d1 d2 = Ok 1.
Proof. exact ks_separated. Qed.
Print Assumptions C131_ks_separated.
Theorem C131_ks_triangle : forall d1 d2 d3, d1 <> [] -> d2 <> [] -> d3 <> [] -> exists D12 D23 D13,
  ks_distance d1 d2 = Ok D12 /\ ks_distance d2 d3 = Ok D23 /\ ks_distance d1 d3 = Ok D13 /\ D13 <= D12 + D23.
Proof. exact ks_triangle. Qed.
Print Assumptions C131_ks_triangle.
Theorem C131_ks_increasing_maps : forall g d1 d2, d1 <> [] -> d2 <> [] -> (forall a b, a < b -> g a < g b) -> ks_distance (map g d1) (map g d2) = ks_distance d1 d2.
Proof. exact ks_monotone. Qed.
Print Assumptions C131_ks_increasing_maps.
Example C131_instance : ks_distance [0; 1] [2; 3] = Ok 1 /\ ks_distance [0; 1] [1; 0] = Ok 0.
Proof. exact ks_example. Qed.

(** ** C132 *)
Theorem C132_hellinger_of_pdfs : forall p q, length p = length q -> 0 < lsum p -> 0 < lsum q -> (forall v, In v p -> 0 <= v) -> (forall v, In v q -> 0 <= v) ->
  hellinger_distance (map Fin p) (map Fin q) = hellinger_distance (map Fin q) (map Fin p) /\
  exists d, hellinger_distance (map Fin p) (map Fin q) = Fin d /\ 0 <= d <= 1 /\ (d = 0 <-> unit_sum p = unit_sum q).
Proof. exact hell_laws. Qed.
Print Assumptions C132_hellinger_of_pdfs.
Theorem C132_hellinger_scale : forall p q c, 0 < c -> 0 < lsum p -> hellinger_distance (map Fin (map (fun v => c * v) p)) q = hellinger_distance (map Fin p) q.
Proof. exact hell_scale. Qed.
Print Assumptions C132_hellinger_scale.

(** ** C133 *)
Theorem C133_percentiles : forall data ps, data <> [] -> (forall p, In p ps -> 0 <= p <= 100) -> exists vs, find_at_percentile data ps = Ok vs /\ length vs = length ps /\
  (forall i j, (i < length ps)%nat -> (j < length ps)%nat -> nth i ps 0 <= nth j ps 0 -> nth i vs 0 <= nth j vs 0) /\
  (forall i, (i < length ps)%nat -> nth i ps 0 = 0 -> is_min (nth i vs 0) data) /\
  (forall i, (i < length ps)%nat -> nth i ps 0 = 100 -> is_max (nth i vs 0) data) /\
  (forall i lo hi, (i < length ps)%nat -> is_min lo data -> is_max hi data -> lo <= nth i vs 0 <= hi).
Proof. exact percentiles_ok. Qed.
Print Assumptions C133_percentiles.
Theorem C133_percentiles_out_of_range : forall data ps, (exists p, In p ps /\ (p < 0 \/ 100 < p)) -> find_at_percentile data ps = Err ValueError.
Proof. exact percentiles_err. Qed.
Print Assumptions C133_percentiles_out_of_range.
Example C133_instance : exists vs, find_at_percentile [3; 1; 2] [0; 100] = Ok vs /\ nth 0 vs 0 <= nth 1 vs 0.
Proof. exact percentile_example. Qed.

(** ** C134 *)
Theorem C134_fit_refuted : ~ (forall logpdf floc loc fscale scale params, is_ok (loglike logpdf floc loc fscale scale params) = true).
Proof. exact fit_refuted. Qed.
Print Assumptions C134_fit_refuted.
(** With at most one fixed parameter the likelihood at the start is that of the shapes,
    location and scale, the fixed one having its fixed value. *)
Theorem C134_fit_partial : forall logpdf floc loc0 fscale scale0 shapes loc scale lg, floc && fscale = false ->
  (floc = true -> loc = loc0) -> (fscale = true -> scale = scale0) -> logpdf shapes loc scale = map Fin lg ->
  loglike logpdf floc loc0 fscale scale0 (init_params (shapes ++ [loc; scale]) floc fscale) = Ok (Fin (lsum lg)).
Proof. exact fit_partial. Qed.
Print Assumptions C134_fit_partial.
Theorem C134_fit_out_of_support_partial : forall logpdf floc loc0 fscale scale0 shapes loc scale, floc && fscale = false ->
  (floc = true -> loc = loc0) -> (fscale = true -> scale = scale0) -> forallb is_fin (logpdf shapes loc scale) = false ->
  loglike logpdf floc loc0 fscale scale0 (init_params (shapes ++ [loc; scale]) floc fscale) = Ok NInf.
Proof. exact fit_infinite. Qed.
Print Assumptions C134_fit_out_of_support_partial.
Example C134_instance : init_params [5; 0; 2] true false = [5; 2].
Proof. reflexivity. Qed.
