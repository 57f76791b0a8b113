(** Tsallis statistics (C62-C64, C158-C163).

    An image is a list of rows; [px img i j] is a pixel, [four] are the four pixels at distance [lag]
    (periodically continued, or zero outside). *)
From Coq Require Import Reals List Bool ZArith Arith Lia Lra Sorted.
From Verif Require Import Lib.PyBase Lib.RSum Lib.Fl Lib.Arr Spec.Lag Spec.Blank Spec.Bins Spec.Distrib Model.Units Model.Tsallis
  Proofs.Tsallis_Proofs Proofs.Tsallis2_Proofs Proofs.Tsallis3_Proofs Proofs.Tsallis4_Proofs Proofs.Tsallis5_Proofs.
Import ListNotations.
Local Open Scope R_scope.

(** ** C62 *)
Theorem C62_default_lags : forall n, (1 <= n)%nat ->
  (forall x, In x (default_lags n) <-> exists k, x = 2 ^ k /\ 2 * x <= INR n) /\ StronglySorted Rlt (default_lags n).
Proof. exact default_lags_spec. Qed.
Print Assumptions C62_default_lags.
Theorem C62_default_accepted : forall s n, (1 <= n)%nat -> init_lags s n None = Ok (mk_q (default_lags n) pix).
Proof. exact default_lags_accepted. Qed.
Print Assumptions C62_default_accepted.
Theorem C62_sum_zero : forall n0 n1 img lag, shape n0 n1 img -> all_finite img -> fsum (concat (lag_difference true n1 img lag)) = Fin 0.
Proof. exact difference_sum. Qed.
Print Assumptions C62_sum_zero.
Theorem C62_constant : forall n0 n1 img lag c, shape n0 n1 img -> numbers img ->
  lag_difference true n1 (map (map (fun v => fadd v (Fin c))) img) lag = lag_difference true n1 img lag.
Proof. exact difference_offset. Qed.
Print Assumptions C62_constant.
Example C62_case : shape 2 2 [[Fin 1; Fin 0]; [Fin 0; Fin 0]] /\ all_finite [[Fin 1; Fin 0]; [Fin 0; Fin 0]] /\
  lag_difference true 2 [[Fin 1; Fin 0]; [Fin 0; Fin 0]] 1 = [[Fin (-1); Fin (1 / 2)]; [Fin (1 / 2); Fin 0]].
Proof.
  split; [split; [reflexivity |]; intros row [<-|[<-|[]]]; reflexivity |]. split; [| exact point2_diff].
  intros v H. cbn in H. destruct H as [<-|[<-|[<-|[<-|[]]]]]; reflexivity.
Qed.
Example C62_lags_case : default_lags 5 = [1; 2].
Proof.
  destruct (default_lags_spec 5 ltac:(lia)) as [H S]. assert (I1 : In 1 (default_lags 5)) by (apply H; exists 0%nat; cbn; lra). assert (I2 : In 2 (default_lags 5)) by (apply H; exists 1%nat; cbn; lra).
  assert (A : forall x, In x (default_lags 5) -> x = 1 \/ x = 2).
  { intros x X. apply H in X. destruct X as [k [-> X]]. destruct k as [|[|k]]; [left; cbn; lra | right; cbn; lra | exfalso]. cbn [pow] in X. pose proof (pow2_ge k). replace (INR 5) with 5 in X by (cbn; lra). lra. }
  destruct (default_lags 5) as [|a [|b [|c l]]].
  - destruct I1.
  - destruct I1 as [I1|[]], I2 as [I2|[]]; lra.
  - inversion S as [|? ? S1 F1]; subst. inversion F1; subst. destruct (A a (or_introl eq_refl)), (A b (or_intror (or_introl eq_refl))); subst; try lra. reflexivity.
  - inversion S as [|? ? S1 F1]; subst. inversion F1 as [|? ? L1 F2]; subst. inversion S1 as [|? ? S2 F3]; subst. inversion F3; subst.
    destruct (A a (or_introl eq_refl)), (A b (or_intror (or_introl eq_refl))), (A c (or_intror (or_intror (or_introl eq_refl)))); subst; lra.
Qed.

(** ** C63 *)
Theorem C63_even_peaked : forall loga w q, 1 < q -> 0 < w -> exists f,
  (forall x, tsallis_function (Fin x) loga w q = Fin (f x)) /\
  (forall x, f (- x) = f x) /\ (forall x, f x <= f 0) /\ (forall x, f x = f 0 -> x = 0) /\
  (forall x y, 0 <= x < y -> f y < f x).
Proof. exact tsallis_even_peaked. Qed.
Print Assumptions C63_even_peaked.
Example C63_case : tsallis_function (Fin 3) 0 1 2 = Fin (- (ln (1 + 3 * 3) / ln 10)).
Proof. apply f210. Qed.

(** ** C64 *)
(** What is used: the points with a finite histogram value below s. *)
Theorem C64_points_partial : forall s dist x y,
  In (x, y) (fit_points (Some s) dist) <-> In (x, y) (combine (fst dist) (snd dist)) /\ exists v, y = Fin v /\ Rabs v < s.
Proof. exact fit_points_clipped. Qed.
Print Assumptions C64_points_partial.
Theorem C64_none : forall dist x y, In (x, y) (fit_points None dist) <-> In (x, y) (combine (fst dist) (snd dist)) /\ is_fin y = true.
Proof. exact fit_points_all. Qed.
Print Assumptions C64_none.
(** The 2x2 image with one bright pixel, with sigma_clip=1: a point with |x| > 1 is used. *)
Theorem C64_clip_refuted : exists arr dist x y, shape 2 2 point2 /\ distribution (default_bins point2) (lag_difference true 2 point2 1) = Ok (arr, dist) /\
  In (x, y) (fit_points (Some 1) dist) /\ 1 < Rabs x.
Proof. exact clip_refuted. Qed.
Print Assumptions C64_clip_refuted.
(** Up to 10^5 pixels the default sigma_clip=5 drops no point at all. *)
Theorem C64_default_refuted : forall nb arr data dist, numbers arr -> distribution nb arr = Ok (data, dist) -> INR (length (concat arr)) < 10 ^ 5 ->
  fit_points (Some 5) dist = fit_points None dist.
Proof. exact default_clip_useless. Qed.
Print Assumptions C64_default_refuted.

(** ** C158: values of the lag differences *)
Theorem C158_values : forall periodic n0 n1 img lag i j, shape n0 n1 img -> numbers img -> (1 <= lag)%nat -> (i < n0)%nat -> (j < n1)%nat ->
  shape n0 n1 (lag_difference periodic n1 img lag) /\
  (forall a b c d v, four periodic n0 n1 img lag i j = [Fin a; Fin b; Fin c; Fin d] -> px img i j = Fin v ->
     px (lag_difference periodic n1 img lag) i j = Fin ((a + b + c + d) / 4 - v)) /\
  (px (lag_difference periodic n1 img lag) i j = NaN <-> In NaN (px img i j :: four periodic n0 n1 img lag i j)).
Proof. exact difference_values. Qed.
Print Assumptions C158_values.
Example C158_case : four false 2 2 [[Fin 1; Fin 2]; [Fin 3; Fin 4]] 1 0 0 = [Fin 0; Fin 3; Fin 0; Fin 2] /\
  four true 2 2 [[Fin 1; Fin 2]; [Fin 3; Fin 4]] 1 0 0 = [Fin 3; Fin 3; Fin 2; Fin 2].
Proof. split; reflexivity. Qed.

(** ** C159: lag validation *)
Theorem C159_lags : forall s n q p, to_pixel s q = Ok p ->
  ((forall r, In r (q_vals p) -> lag_ok n r) -> set_lags s n (Some q) = Ok q) /\
  ((exists r, In r (q_vals p) /\ ~ lag_ok n r) -> set_lags s n (Some q) = Err ValueError).
Proof. exact set_lags_spec. Qed.
Print Assumptions C159_lags.
Example C159_case : to_pixel (mk_stat None None) (mk_q [1; 5 / 2] pix) = Ok (mk_q [1; 5 / 2] pix) /\ lag_ok 5 (5 / 2) /\ ~ lag_ok 5 3 /\ ~ lag_ok 5 (1 / 2).
Proof.
  split; [reflexivity |]. split; [split; [lra |]; exists 2%Z; cbn; lra |]. split.
  - intros [_ [z [A B]]]. assert (z = 3)%Z. { assert (L : IZR z <= 3) by lra. apply le_IZR in L. assert (G : 3 < IZR (z + 1)) by (rewrite plus_IZR; lra). apply lt_IZR in G. lia. } subst. cbn in B. lra.
  - intros [A _]. lra.
Qed.

(** ** C160: brightness scale and offset *)
Theorem C160_affine : forall s n0 n1 img lags a b nb, shape n0 n1 img -> numbers img -> set_lags s (Nat.min n0 n1) (Some lags) = Ok lags -> 0 < a ->
  make_tsallis s n1 (scale_offset a b img) lags true nb = make_tsallis s n1 img lags true nb.
Proof. exact make_affine. Qed.
Print Assumptions C160_affine.
Theorem C160_negative : forall n0 n1 img lag a b, shape n0 n1 img -> numbers img -> (1 <= lag)%nat -> a < 0 ->
  standardize2 (lag_difference true n1 (scale_offset a b img) lag) = map (map fneg) (standardize2 (lag_difference true n1 img lag)).
Proof. exact arrays_negative. Qed.
Print Assumptions C160_negative.
(** Without periodic boundaries only the pixels farther than the lag from the border ignore an offset. *)
Theorem C160_interior_partial : forall n0 n1 img lag c i j, shape n0 n1 img -> numbers img -> (1 <= lag)%nat -> (lag <= i)%nat -> (i + lag < n0)%nat -> (lag <= j)%nat -> (j + lag < n1)%nat ->
  px (lag_difference false n1 (scale_offset 1 c img) lag) i j = px (lag_difference false n1 img lag) i j.
Proof. exact offset_interior. Qed.
Print Assumptions C160_interior_partial.
Theorem C160_border_refuted : forall c n0 n1 lag, c <> 0 -> (1 <= n0)%nat -> (1 <= n1)%nat -> (1 <= lag)%nat ->
  px (lag_difference false n1 (zeros n0 n1) lag) 0 0 = Fin 0 /\
  exists v, px (lag_difference false n1 (scale_offset 1 c (zeros n0 n1)) lag) 0 0 = Fin v /\ v <> 0.
Proof. exact offset_border. Qed.
Print Assumptions C160_border_refuted.
Example C160_case : set_lags (mk_stat None None) 2 (Some (mk_q [1] pix)) = Ok (mk_q [1] pix) /\ shape 2 2 point2 /\ numbers point2.
Proof.
  split; [apply (proj1 (set_lags_spec (mk_stat None None) 2 (mk_q [1] pix) (mk_q [1] pix) eq_refl)); intros r [<-|[]]; split; [lra |]; exists 1%Z; cbn; lra |].
  split; [split; [reflexivity |]; intros row [<-|[<-|[]]]; reflexivity | repeat constructor].
Qed.

(** ** C161: lag arrays are standardised and the histograms are their distributions *)
Theorem C161_standardised : forall periodic n0 n1 img lag nb arr d, shape n0 n1 img -> numbers img -> (1 <= lag)%nat ->
  let diff := fins (concat (lag_difference periodic n1 img lag)) in diff <> [] -> 0 < rvar diff ->
  distribution nb (lag_difference periodic n1 img lag) = Ok (arr, d) ->
  rmean (fins (concat arr)) = 0 /\ rvar (fins (concat arr)) = 1 /\ numbers arr /\ map is_nan (concat arr) = map is_nan (concat (lag_difference periodic n1 img lag)).
Proof. exact arrays_standard. Qed.
Print Assumptions C161_standardised.
Theorem C161_histogram : forall nb arr, numbers arr -> (1 <= nb)%nat ->
  exists data edges xs ys, distribution nb arr = Ok (data, (xs, ys)) /\
    length edges = (nb + 1)%nat /\ increasing edges /\ length xs = nb /\ length ys = nb /\
    (forall v, In v (fins (concat data)) -> in_range edges v) /\
    (forall k, (k < nb)%nat -> nth k xs 0 = (nth k edges 0 + nth (S k) edges 0) / 2) /\
    (fins (concat data) <> [] -> forall k, (k < nb)%nat ->
       let c := length (filter (in_binb edges k) (fins (concat data))) in
       (c = 0%nat -> nth k ys NaN = NInf) /\
       ((0 < c)%nat -> exists y, nth k ys NaN = Fin y /\ y <= 0 /\ Rpower 10 y = INR c / INR (length (fins (concat data))))).
Proof. exact distribution_hist. Qed.
Print Assumptions C161_histogram.
Theorem C161_default_bins : forall img, let n := length (fins (concat img)) in
  (n <= default_bins img * default_bins img)%nat /\ forall m, (n <= m * m)%nat -> (default_bins img <= m)%nat.
Proof. exact default_bins_spec. Qed.
Print Assumptions C161_default_bins.
Example C161_case : numbers point2 /\ numbers (lag_difference true 2 point2 1) /\ fins (concat (lag_difference true 2 point2 1)) = [-1; 1 / 2; 1 / 2; 0] /\ default_bins point2 = 2%nat.
Proof. rewrite point2_diff. repeat split; repeat constructor. Qed.

(** ** C162: the parameters of the Tsallis function *)
Theorem C162_identifiable : forall loga w q loga' w' q', 1 < q -> 0 < w -> 1 < q' -> 0 < w' ->
  (forall x, tsallis_function (Fin x) loga w q = tsallis_function (Fin x) loga' w' q') -> loga = loga' /\ w = w' /\ q = q'.
Proof. exact tsallis_identifiable. Qed.
Print Assumptions C162_identifiable.
Theorem C162_peak_partial : forall loga w q, 1 < q -> 0 < w -> tsallis_function (Fin 0) loga w q = Fin (- loga / (q - 1)).
Proof. exact tsallis_peak. Qed.
Print Assumptions C162_peak_partial.
Theorem C162_amplitude_refuted : exists loga w q v, 1 < q /\ 0 < w /\ tsallis_function (Fin 0) loga w q = Fin v /\ v <> loga /\ v <> - loga.
Proof. exists 1, 1, 3, (- 1 / (3 - 1)). split; [lra |]. split; [lra |]. split; [apply tsallis_peak; lra |]. split; lra. Qed.
Print Assumptions C162_amplitude_refuted.
(** C162.  The fit starts from a curve whose peak is the highest point of the clipped distribution. *)
Theorem C162_start : forall sigma_clip dist, fit_points sigma_clip dist <> [] -> (forall p, In p (fit_points sigma_clip dist) -> is_fin (snd p) = true) ->
  exists l p0 n top, is_max top (fins (map snd (fit_points sigma_clip dist))) /\
    (let '(loga, w, q) := p0 in 0 < w /\ 1 < q /\ tsallis_function (Fin 0) loga w q = Fin top) /\
    forall curve_fit, match curve_fit l p0 n with
                      | Err x => fit_one curve_fit sigma_clip dist = Err x
                      | Ok p => exists c, fit_one curve_fit sigma_clip dist = Ok (p, c)
                      end.
Proof. exact fit_start. Qed.
Print Assumptions C162_start.
Example C162_case : fit_points None ([0; 1], [Fin 1; Fin 2]) = [(0, Fin 1); (1, Fin 2)] /\ tsallis_function (Fin 0) (-2) 1 2 = Fin 2.
Proof. split; [reflexivity|]. rewrite tsallis_peak by lra. f_equal. field. Qed.

(** ** C163: the stored chi-square *)
Theorem C163_zero_partial : forall curve_fit sigma_clip dist loga w q, fit_points sigma_clip dist <> [] -> 1 < q -> 0 < w ->
  (forall l p0 n, curve_fit l p0 n = Ok (loga, w, q)) ->
  exists c, fit_one curve_fit sigma_clip dist = Ok ((loga, w, q), Fin c) /\ 0 <= c /\
    (c = 0 <-> forall x y, In (x, y) (fit_points sigma_clip dist) -> tsallis_function (Fin x) loga w q = y).
Proof. exact chisq_zero. Qed.
Print Assumptions C163_zero_partial.
Theorem C163_reduced_refuted : exists cf pts c f, length pts = 4%nat /\ fit_points (Some 5) (map fst pts, map Fin (map snd pts)) = map (fun p => (fst p, Fin (snd p))) pts /\
  fit_one cf (Some 5) (map fst pts, map Fin (map snd pts)) = Ok ((0, 1, 2), Fin c) /\ (forall x, tsallis_function (Fin x) 0 1 2 = Fin (f x)) /\ c < reduced_chisq f pts.
Proof. exact chisq_refuted. Qed.
Print Assumptions C163_reduced_refuted.
