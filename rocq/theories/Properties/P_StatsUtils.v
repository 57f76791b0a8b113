(** Properties C05-C11: histogram distances, normalisation, bins, scales, padding. *)
From Coq Require Import String Reals List ZArith Lia Lra.
From Verif Require Import Lib.PyBase Lib.Fl Lib.RSum Model.StatsUtils Spec.Blank Spec.Grid
  Proofs.StatsUtils_Proofs Proofs.StatsUtils2_Proofs Proofs.StatsUtils3_Proofs.
Import ListNotations.
Local Open Scope R_scope.

(** ** C05 *)
Theorem C05_hellinger_symmetric : forall p q w,
  Forall hist_value p -> Forall hist_value q -> length p = length q ->
  hellinger p q w = hellinger q p w.
Proof. exact hellinger_sym. Qed.
Print Assumptions C05_hellinger_symmetric.

Theorem C05_hellinger_nonneg_zero_iff : forall p q w, 0 < w ->
  Forall hist_value p -> Forall hist_value q -> length p = length q ->
  exists d, hellinger p q w = Fin d /\ 0 <= d /\
    (d = 0 <-> forall a b, In (a, b) (valid_pairs p q) -> a = b).
Proof. exact hellinger_zero. Qed.
Print Assumptions C05_hellinger_nonneg_zero_iff.

(** Triangle inequality, when the middle histogram is blank only where one of the
    outer ones is. *)
Theorem C05_hellinger_triangle : forall p q r w, 0 <= w ->
  Forall hist_value p -> Forall hist_value q -> Forall hist_value r ->
  length p = length q -> length q = length r ->
  (forall i, nth i q NaN = NaN -> nth i p NaN = NaN \/ nth i r NaN = NaN) ->
  exists dpr dpq dqr, hellinger p r w = Fin dpr /\ hellinger p q w = Fin dpq /\
    hellinger q r w = Fin dqr /\ dpr <= dpq + dqr.
Proof. exact hellinger_triangle. Qed.
Print Assumptions C05_hellinger_triangle.

(** That restriction is needed. *)
Theorem C05_hellinger_triangle_blank_middle : exists p q r dpr dpq dqr,
  Forall hist_value p /\ Forall hist_value q /\ Forall hist_value r /\
  length p = length q /\ length q = length r /\
  hellinger p r 1 = Fin dpr /\ hellinger p q 1 = Fin dpq /\ hellinger q r 1 = Fin dqr /\ dpq + dqr < dpr.
Proof. exact hellinger_triangle_blank. Qed.
Print Assumptions C05_hellinger_triangle_blank_middle.

(** Blank bins are ignored: only the pairs of numbers matter. *)
Theorem C05_hellinger_ignores_blanks : forall p q w,
  Forall hist_value p -> Forall hist_value q -> length p = length q ->
  hellinger p q w =
  hellinger (map Fin (map fst (valid_pairs p q))) (map Fin (map snd (valid_pairs p q))) w.
Proof. exact hellinger_valid. Qed.
Print Assumptions C05_hellinger_ignores_blanks.

Theorem C05_hellinger_le_1 : forall p q,
  Forall hist_value p -> Forall hist_value q -> length p = length q ->
  lsum (fins p) <= 1 -> lsum (fins q) <= 1 ->
  exists d, hellinger p q 1 = Fin d /\ d <= 1.
Proof. exact hellinger_le_1. Qed.
Print Assumptions C05_hellinger_le_1.

Example C05_example : Forall hist_value [Fin (1/2); NaN; Fin (1/2)] /\
  Forall hist_value [Fin 1; Fin 0; NaN] /\
  valid_pairs [Fin (1/2); NaN; Fin (1/2)] [Fin 1; Fin 0; NaN] = [(1/2, 1)] /\
  hellinger [Fin 1; Fin 0] [Fin 0; Fin 1] 1 = Fin 1.
Proof. exact hellinger_example. Qed.

(** ** C06 *)
(** What the code does: the distance of the bin probabilities times sqrt w. *)
Theorem C06_hellinger_bin_width_partial : forall p q w, 0 < w ->
  Forall hist_value p -> Forall hist_value q -> length p = length q ->
  exists d, hellinger (map (fun v => fmul (Fin w) v) p) (map (fun v => fmul (Fin w) v) q) 1 = Fin d /\
            hellinger p q w = Fin (sqrt w * d).
Proof. exact hellinger_width. Qed.
Print Assumptions C06_hellinger_bin_width_partial.

(** So for w > 1 the distance of two densities can exceed 1. *)
Theorem C06_hellinger_bin_width_refuted : exists p q w d,
  0 < w /\ Forall hist_value p /\ Forall hist_value q /\ length p = length q /\
  lsum (fins p) * w = 1 /\ lsum (fins q) * w = 1 /\
  hellinger p q w = Fin d /\ 1 < d.
Proof. exact hellinger_width_refuted. Qed.
Print Assumptions C06_hellinger_bin_width_refuted.

(** ** C07 *)
Theorem C07_center : forall x, Forall blankable x -> fins x <> [] ->
  exists y, data_normalization x "center" = Ok y /\ Forall blankable y /\
    rmean (fins y) = 0 /\ map is_nan y = map is_nan x.
Proof. exact norm_center. Qed.
Print Assumptions C07_center.

Theorem C07_standardize : forall x, Forall blankable x -> fins x <> [] -> 0 < rvar (fins x) ->
  exists y, data_normalization x "standardize" = Ok y /\ Forall blankable y /\
    rmean (fins y) = 0 /\ rvar (fins y) = 1 /\ map is_nan y = map is_nan x.
Proof. exact norm_standardize. Qed.
Print Assumptions C07_standardize.

Theorem C07_normalize_by_mean : forall x, Forall blankable x -> fins x <> [] -> rmean (fins x) <> 0 ->
  exists y, data_normalization x "normalize_by_mean" = Ok y /\ Forall blankable y /\
    rmean (fins y) = 1 /\ map is_nan y = map is_nan x.
Proof. exact norm_by_mean. Qed.
Print Assumptions C07_normalize_by_mean.

Theorem C07_normalize : forall x a b, Forall blankable x ->
  In (Fin a) x -> In (Fin b) x -> a <> b ->
  exists y, data_normalization x "normalize" = Ok y /\ Forall blankable y /\
    is_min 0 (fins y) /\ is_max 1 (fins y) /\ map is_nan y = map is_nan x.
Proof. exact norm_normalize. Qed.
Print Assumptions C07_normalize.

Theorem C07_unknown_scheme : forall x s,
  data_normalization x s = Err ValueError <->
  ~ In s ["standardize"; "center"; "normalize"; "normalize_by_mean"]%string.
Proof. exact data_normalization_err. Qed.
Print Assumptions C07_unknown_scheme.

Example C07_example : Forall blankable [Fin 1; NaN; Fin 3] /\ fins [Fin 1; NaN; Fin 3] = [1; 3] /\
  rmean [1; 3] = 2 /\ rvar [1; 3] = 1 /\
  data_normalization [Fin 1; NaN; Fin 3] "center" = Ok [Fin (-1); NaN; Fin 1].
Proof. exact norm_example. Qed.

(** ** C08 *)
Theorem C08_kl_nonneg_zero_iff_partial : forall P Q, length P = length Q ->
  (forall p, In p P -> 0 < p) -> (forall q, In q Q -> 0 < q) -> lsum P = 1 -> lsum Q = 1 ->
  exists d, kl_divergence (map Fin P) (map Fin Q) = Ok (Fin d) /\ 0 <= d /\ (d = 0 <-> P = Q).
Proof. exact kl_nonneg. Qed.
Print Assumptions C08_kl_nonneg_zero_iff_partial.

(** Blanks are removed from each argument separately, so bins are mispaired. *)
Theorem C08_kl_blanks_refuted : exists p q,
  Forall hist_value p /\ Forall hist_value q /\ length p = length q /\
  kl_divergence p q <>
  kl_divergence (map Fin (map fst (valid_pairs p q))) (map Fin (map snd (valid_pairs p q))).
Proof. exact kl_blanks_refuted. Qed.
Print Assumptions C08_kl_blanks_refuted.

(** It is right when both are blank in the same bins. *)
Theorem C08_kl_same_blanks_partial : forall p q,
  Forall hist_value p -> Forall hist_value q -> map is_nan p = map is_nan q ->
  kl_divergence p q =
  kl_divergence (map Fin (map fst (valid_pairs p q))) (map Fin (map snd (valid_pairs p q))).
Proof. exact kl_same_blanks. Qed.
Print Assumptions C08_kl_same_blanks_partial.

Example C08_example : lsum [1/4; 3/4] = 1 /\ lsum [1/2; 1/2] = 1 /\
  (forall p, In p [1/4; 3/4] -> 0 < p).
Proof. exact kl_example. Qed.

(** ** C09 *)
Theorem C09_bins_linear : forall n1 n2 d1 d2 k mn mx,
  (n1 <= 1)%nat -> (n2 <= 1)%nat -> (2 <= k)%nat ->
  Forall blankable d1 -> Forall blankable d2 -> fins d1 <> [] -> fins d2 <> [] ->
  exists lo hi bins cents,
    is_min lo (fins d1 ++ fins d2) /\ is_max hi (fins d1 ++ fins d2) /\
    common_histogram_bins n1 n2 d1 d2 (Some k) false mn mx = Ok (Some (bins, cents)) /\
    length bins = k /\ length cents = (k - 1)%nat /\
    nth 0 bins 0 = clip_lo mn lo /\ nth (k - 1) bins 0 = clip_hi mx hi /\
    (forall i, (S i < k)%nat ->
       nth (S i) bins 0 - nth i bins 0 = (clip_hi mx hi - clip_lo mn lo) / INR (k - 1) /\
       nth i cents 0 = (nth i bins 0 + nth (S i) bins 0) / 2).
Proof. exact common_bins_linear. Qed.
Print Assumptions C09_bins_linear.

Theorem C09_bins_log : forall n1 n2 d1 d2 k mn mx,
  (n1 <= 1)%nat -> (n2 <= 1)%nat -> (2 <= k)%nat ->
  Forall blankable d1 -> Forall blankable d2 -> fins d1 <> [] -> fins d2 <> [] ->
  (forall lo hi, is_min lo (fins d1 ++ fins d2) -> is_max hi (fins d1 ++ fins d2) ->
     0 < clip_lo mn lo /\ 0 < clip_hi mx hi) ->
  exists lo hi bins cents,
    is_min lo (fins d1 ++ fins d2) /\ is_max hi (fins d1 ++ fins d2) /\
    common_histogram_bins n1 n2 d1 d2 (Some k) true mn mx = Ok (Some (bins, cents)) /\
    length bins = k /\ length cents = (k - 1)%nat /\
    nth 0 bins 0 = clip_lo mn lo /\ nth (k - 1) bins 0 = clip_hi mx hi /\
    (forall i, (S i < k)%nat ->
       nth (S i) bins 0 = nth i bins 0 * exp (ln (clip_hi mx hi / clip_lo mn lo) / INR (k - 1)) /\
       nth i cents 0 = (nth i bins 0 + nth (S i) bins 0) / 2).
Proof. exact common_bins_log. Qed.
Print Assumptions C09_bins_log.

(** By default there are k edges with k = floor(sqrt((n1+n2)/2)). *)
Theorem C09_bins_default : forall n1 n2 d1 d2 ls mn mx,
  (1 <= length d1 + length d2)%nat ->
  exists k, common_histogram_bins n1 n2 d1 d2 None ls mn mx =
            common_histogram_bins n1 n2 d1 d2 (Some k) ls mn mx /\
    (2 * (k * k) <= length d1 + length d2)%nat /\ (length d1 + length d2 < 2 * (S k * S k))%nat.
Proof. exact common_bins_default. Qed.
Print Assumptions C09_bins_default.

Theorem C09_bins_dims : forall n1 n2 d1 d2 nb ls mn mx,
  common_histogram_bins n1 n2 d1 d2 nb ls mn mx = Err ValueError <-> (1 < n1)%nat \/ (1 < n2)%nat.
Proof. exact common_bins_dims. Qed.
Print Assumptions C09_bins_dims.

Example C09_example :
  common_histogram_bins 1 1 [Fin 0; NaN; Fin 2] [Fin 4; Fin 1] (Some 3%nat) false None (Some 2)
  = Ok (Some ([0; 1; 2], [1/2; 3/2])).
Proof. exact bins_example. Qed.

(** ** C10 *)
Theorem C10_common_scale_laws : forall a b c tol, square tol a -> square tol b -> square tol c ->
  scale0 a <> 0 -> scale0 b <> 0 -> scale0 c <> 0 ->
  exists ab ba bc ac, common_scale a b tol = Ok ab /\ common_scale b a tol = Ok ba /\
    common_scale b c tol = Ok bc /\ common_scale a c tol = Ok ac /\
    common_scale a a tol = Ok 1 /\ ab * ba = 1 /\ ac = ab * bc /\ 0 < ab.
Proof. exact common_scale_laws. Qed.
Print Assumptions C10_common_scale_laws.

Theorem C10_common_scale_defined : forall a b tol,
  (exists s, common_scale a b tol = Ok s) <-> square tol a /\ square tol b.
Proof. exact common_scale_defined. Qed.
Print Assumptions C10_common_scale_defined.

Theorem C10_common_scale_value : forall a b tol s, common_scale a b tol = Ok s ->
  s = Rabs (scale0 b) / Rabs (scale0 a).
Proof. exact common_scale_value. Qed.
Print Assumptions C10_common_scale_value.

Example C10_example : square (1/100000) {| distorted := false; scale0 := -2; scale1 := 2 |} /\
  common_scale {| distorted := false; scale0 := -2; scale1 := 2 |}
               {| distorted := false; scale0 := -1; scale1 := 1 |} (1/100000) = Ok (1/2).
Proof. exact common_scale_example. Qed.

(** ** C11 *)
Theorem C11_pad_only_padding_partial : forall (A : Type) (v : A) vec pad0 pad1,
  (1 <= pad1)%nat ->
  length (padwith v vec pad0 pad1) = length vec /\
  forall j d, (j < length vec)%nat ->
    nth j (padwith v vec pad0 pad1) d =
    if (Nat.ltb j pad0 || Nat.leb (length vec - pad1) j)%bool then v else nth j vec d.
Proof. exact (@padwith_spec). Qed.
Print Assumptions C11_pad_only_padding_partial.

(** With a zero right pad every entry is overwritten. *)
Theorem C11_pad_zero_right_refuted : forall (A : Type) (v : A) vec pad0,
  padwith v vec pad0 0 = repeat v (length vec).
Proof. exact (@padwith_zero_right). Qed.
Print Assumptions C11_pad_zero_right_refuted.

Example C11_example : padwith 0%nat [7; 1; 2; 9; 9]%nat 1 2 = [0; 1; 2; 0; 0]%nat /\
  padwith 0%nat [7; 1; 2]%nat 1 0 = [0; 0; 0]%nat.
Proof. split; reflexivity. Qed.
