(** The bispectrum (C60, C61, C153-C157).

    [angles k1 k2] are the pairs of angles drawn for a cell, [ms] is mean_subtract, [img] an image
    with [None] for blanks. *)
From Coq Require Import Reals List ZArith Arith Bool Lia Lra.
From Coquelicot Require Import Complex.
From Verif Require Import Lib.PyBase Lib.RSum Lib.Fl Lib.Trig2 Spec.Bins Spec.Waves Model.Bispec Proofs.Bispec_Proofs Proofs.Bispec2_Proofs Proofs.Bispec3_Proofs Proofs.Bispec4_Proofs.
Import ListNotations.
Local Open Scope R_scope.

(** ** C60 *)
(** The value of a cell is the sum over its samples of F(k1) F(k2) F(k3)*; the bicoherence is
    blank when all of them vanish, and otherwise lies in [0,1]: for any shape and any draws. *)
Theorem C60_bicoherence : forall ny nx img ms angles r, compute_bispectrum ny nx img ms angles = Ok r ->
  forall k1 k2 w1 w2 w3 data, (k1 < ny / 2)%nat -> (k2 < nx / 2)%nat ->
    (forall phi, In phi (angles k1 k2) -> draws k1 k2 phi (w1 phi) (w2 phi) (w3 phi)) ->
    (forall i j, data i j = analysed ny nx ms img i j) ->
    let samps := map (fun phi => triple (mode ny nx data) (w1 phi) (w2 phi) (w3 phi)) (angles k1 k2) in
    s_bispectrum r k1 k2 = csum_list samps /\
    ((forall c, In c samps -> c = RtoC 0) -> s_bicoherence r k1 k2 = NaN) /\
    ((exists c, In c samps /\ c <> RtoC 0) -> exists v, s_bicoherence r k1 k2 = Fin v /\ 0 <= v <= 1 /\ v * lsum (map Cmod samps) = Cmod (csum_list samps)).
Proof. exact returned_value. Qed.
Print Assumptions C60_bicoherence.
(** Shapes whose sampling stays inside always give a result *)
Theorem C60_fitting_shapes : forall ny nx img ms angles, fits ny nx -> (forall k1 k2, (k1 < ny / 2)%nat -> (k2 < nx / 2)%nat -> angles k1 k2 <> []) ->
  exists r, compute_bispectrum ny nx img ms angles = Ok r /\
    forall k1 k2 w1 w2 w3 data, (k1 < ny / 2)%nat -> (k2 < nx / 2)%nat ->
      (forall phi, In phi (angles k1 k2) -> draws k1 k2 phi (w1 phi) (w2 phi) (w3 phi)) ->
      (forall i j, data i j = analysed ny nx ms img i j) ->
      let samps := map (fun phi => triple (mode ny nx data) (w1 phi) (w2 phi) (w3 phi)) (angles k1 k2) in
      s_bispectrum r k1 k2 = csum_list samps /\
      ((forall c, In c samps -> c = RtoC 0) -> s_bicoherence r k1 k2 = NaN) /\
      ((exists c, In c samps /\ c <> RtoC 0) -> exists v, s_bicoherence r k1 k2 = Fin v /\ 0 <= v <= 1 /\ v * lsum (map Cmod samps) = Cmod (csum_list samps)).
Proof. exact bispectrum_value. Qed.
Print Assumptions C60_fitting_shapes.

Example C60_case : fits 5 5 /\ fits 8 9 /\ draws 1 1 (PI / 4, PI / 4) (0, 0)%Z (0, 0)%Z (1, 1)%Z /\ draws 1 1 (0, 0) (1, 0)%Z (1, 0)%Z (2, 0)%Z.
Proof.
  split; [apply fits_square |]. split; [unfold fits; cbn; lia |]. destruct skewed_waves as [<- [H2 [<- [<- [H5 <-]]]]].
  split; [rewrite <- H2 at 1 | rewrite <- H5 at 1]; apply draws_waves.
Qed.

(** ** C61 *)
(** Sampling stays inside for every draw exactly when ny//2 + nx//2 <= min(ny, nx) + 1. *)
Theorem C61_shapes : forall ny nx img ms, (2 <= ny)%nat -> (2 <= nx)%nat ->
  ((forall angles, (forall k1 k2, (k1 < ny / 2)%nat -> (k2 < nx / 2)%nat -> angles k1 k2 <> []) -> is_ok (compute_bispectrum ny nx img ms angles) = true)
   <-> fits ny nx).
Proof. exact sampling_valid. Qed.
Print Assumptions C61_shapes.
Theorem C61_square_partial : forall n img ms angles, (forall k1 k2, (k1 < n / 2)%nat -> (k2 < n / 2)%nat -> angles k1 k2 <> []) ->
  is_ok (compute_bispectrum n n img ms angles) = true.
Proof. exact sampling_square. Qed.
Print Assumptions C61_square_partial.
Theorem C61_rectangle_refuted : forall img ms, exists angles, (forall k1 k2, angles k1 k2 <> []) /\ is_ok (compute_bispectrum 32 64 img ms angles) = false.
Proof. exact sampling_rectangle. Qed.
Print Assumptions C61_rectangle_refuted.
Example C61_case : ~ fits 64 32 /\ ~ fits 100 106 /\ fits 64 64 /\ fits 8 9.
Proof. unfold fits. cbn. lia. Qed.

(** ** C153 *)
Theorem C153_shift_refuted : forall n, (4 <= n)%nat -> (n mod 4 = 0)%nat -> exists angles r r', (forall k1 k2, angles k1 k2 <> []) /\
  compute_bispectrum n n point false angles = Ok r /\ compute_bispectrum n n (rolled n n (n / 4) 0 point) false angles = Ok r' /\
  s_bicoherence r 1 1 = Fin 1 /\ exists v, s_bicoherence r' 1 1 = Fin v /\ v < 1.
Proof. exact shift_breaks. Qed.
Print Assumptions C153_shift_refuted.

Theorem C153_closed_partial : forall ny nx img ms angles s0 s1 r r' k1 k2, fits ny nx -> (forall k1 k2, (k1 < ny / 2)%nat -> (k2 < nx / 2)%nat -> angles k1 k2 <> []) ->
  (k1 < ny / 2)%nat -> (k2 < nx / 2)%nat ->
  (forall phi w1 w2 w3, In phi (angles k1 k2) -> draws k1 k2 phi w1 w2 w3 -> w3 = wave_sum w1 w2) ->
  compute_bispectrum ny nx img ms angles = Ok r -> compute_bispectrum ny nx (rolled ny nx s0 s1 img) ms angles = Ok r' ->
  s_bispectrum r' k1 k2 = s_bispectrum r k1 k2 /\ s_bicoherence r' k1 k2 = s_bicoherence r k1 k2.
Proof. exact shift_closed. Qed.
Print Assumptions C153_closed_partial.

Example C153_case : forall w1 w2 w3, draws 1 1 (0, 0) w1 w2 w3 -> w3 = wave_sum w1 w2.
Proof. intros w1 w2 w3 D. destruct (draws_unique _ _ _ _ _ _ D) as [-> [-> ->]]. destruct skewed_waves as [_ [_ [_ [-> [-> ->]]]]]. reflexivity. Qed.

(** ** C154 *)
Theorem C154_factor : forall ny nx img ms angles c r r', fits ny nx -> (forall k1 k2, (k1 < ny / 2)%nat -> (k2 < nx / 2)%nat -> angles k1 k2 <> []) -> c <> 0 ->
  compute_bispectrum ny nx img ms angles = Ok r -> compute_bispectrum ny nx (scaled_img c img) ms angles = Ok r' ->
  forall k1 k2, (k1 < ny / 2)%nat -> (k2 < nx / 2)%nat ->
    s_bispectrum r' k1 k2 = Cmult (RtoC (c ^ 3)) (s_bispectrum r k1 k2) /\ s_bicoherence r' k1 k2 = s_bicoherence r k1 k2.
Proof. exact scaling. Qed.
Print Assumptions C154_factor.
Theorem C154_offset : forall ny nx img angles c, (0 < ny)%nat -> (0 < nx)%nat -> (forall i j, (i < ny)%nat -> (j < nx)%nat -> img i j <> None) ->
  fits ny nx -> (forall k1 k2, (k1 < ny / 2)%nat -> (k2 < nx / 2)%nat -> angles k1 k2 <> []) ->
  forall r r', compute_bispectrum ny nx img true angles = Ok r -> compute_bispectrum ny nx (offset_img c img) true angles = Ok r' ->
  forall k1 k2, (k1 < ny / 2)%nat -> (k2 < nx / 2)%nat ->
    s_bispectrum r' k1 k2 = s_bispectrum r k1 k2 /\ s_bicoherence r' k1 k2 = s_bicoherence r k1 k2.
Proof. exact offset_free. Qed.
Print Assumptions C154_offset.
Example C154_case : exists r, compute_bispectrum 4 4 point true (fun _ _ => skewed) = Ok r /\ forall i j, point i j <> None.
Proof.
  destruct (bispectrum_value 4 4 point true (fun _ _ => skewed)) as [r [E _]]; [apply fits_square | discriminate |]. exists r. split; [exact E |].
  intros i j. unfold point. destruct (Nat.eqb i 0 && Nat.eqb j 0)%bool; discriminate.
Qed.

(** ** C155 *)
Theorem C155_total_refuted : forall ny nx img ms angles, fits ny nx -> (forall k1 k2, (k1 < ny / 2)%nat -> (k2 < nx / 2)%nat -> angles k1 k2 <> []) ->
  forall r M, (2 <= ny)%nat -> (2 <= nx)%nat -> (2 <= M)%nat -> (forall k1 k2, length (angles k1 k2) = M) ->
  compute_bispectrum ny nx img ms angles = Ok r ->
  (zsum (map (s_tracker r) (list_prod (seq 0 ny) (seq 0 nx))) < Z.of_nat (3 * M * (ny / 2 * (nx / 2))))%Z.
Proof. exact tracker_loses. Qed.
Print Assumptions C155_total_refuted.

(** Per cell and wave vector the positions hit at least once are counted once; with one sample
    per cell this is the number of samples. *)
Theorem C155_positions_partial : forall ny nx img ms angles, fits ny nx -> (forall k1 k2, (k1 < ny / 2)%nat -> (k2 < nx / 2)%nat -> angles k1 k2 <> []) ->
  forall r w1 w2 w3 p, compute_bispectrum ny nx img ms angles = Ok r -> (Z.of_nat (3 * (ny / 2 * (nx / 2))) <= 32767)%Z ->
  (forall k1 k2 phi, draws k1 k2 phi (w1 k1 k2 phi) (w2 k1 k2 phi) (w3 k1 k2 phi)) ->
  s_tracker r p = zsum (map (fun k => (zb (existsb (fun phi => lands ny nx (w1 (fst k) (snd k) phi) p) (angles (fst k) (snd k))) +
     zb (existsb (fun phi => lands ny nx (w2 (fst k) (snd k) phi) p) (angles (fst k) (snd k))) +
     zb (existsb (fun phi => lands ny nx (w3 (fst k) (snd k) phi) p) (angles (fst k) (snd k))))%Z) (list_prod (seq 0 (ny / 2)) (seq 0 (nx / 2)))).
Proof. exact tracker_value. Qed.
Print Assumptions C155_positions_partial.

Example C155_case : (exists r, compute_bispectrum 4 4 point false (fun _ _ => skewed) = Ok r) /\ length skewed = 2%nat /\
  forall k1 k2 phi, draws k1 k2 phi (wave1 k1 k2 phi) (wave2 k1 k2 phi) (wave3 k1 k2 phi).
Proof.
  split; [destruct (bispectrum_value 4 4 point false (fun _ _ => skewed)) as [r [E _]]; [apply fits_square | discriminate | now exists r] |]. split; [reflexivity |]. exact draws_waves.
Qed.

(** ** C156 *)
Theorem C156_azimuthal_refuted : forall hy hx surf bw rad del n, 0 < bw -> (4 <= n)%nat -> INR n <= PI / bw < INR n + 1 ->
  exists edges means stds, azimuthal_slice hy hx surf bw rad del = Ok (edges, means, stds) /\ length edges = n /\
  (forall i, (S i < n)%nat -> bw < nth (S i) edges 0 - nth i edges 0) /\
  forall i, (i < n - 1)%nat -> PI / 2 < nth i edges 0 -> nth i means (Fin 0) = NaN.
Proof. exact azimuthal_refuted. Qed.
Print Assumptions C156_azimuthal_refuted.

Theorem C156_azimuthal_means_partial : forall hy hx surf val bw rad del n, 0 < bw -> (2 <= n)%nat -> INR n <= PI / bw < INR n + 1 -> (forall a b r, surf a b = Fin r -> val a b = r) ->
  exists edges means stds, azimuthal_slice hy hx surf bw rad del = Ok (edges, means, stds) /\ length edges = n /\ length means = (n - 1)%nat /\
  (forall i, (i < n)%nat -> nth i edges 0 = INR i * (PI / INR (n - 1))) /\
  forall i, (i < n - 1)%nat -> forall sel : nat -> nat -> bool,
    (forall a b, (a < hy)%nat -> (b < hx)%nat -> sel a b = true <-> rad - del / 2 <= sqrt (INR a ^ 2 + INR b ^ 2) <= rad + del / 2 /\ in_bin edges i (atan2 (INR a) (INR b)) /\ exists r, surf a b = Fin r) ->
    let count := sum_over hy hx sel (fun _ _ => 1) in let mean := sum_over hy hx sel val / count in
    (count = 0 -> nth i means (Fin 0) = NaN /\ nth i stds (Fin 0) = NaN) /\
    (count <> 0 -> nth i means (Fin 0) = Fin mean /\ nth i stds (Fin 0) = Fin (sqrt (sum_over hy hx sel (fun a b => (val a b - mean) ^ 2) / count))).
Proof. exact azimuthal_value. Qed.
Print Assumptions C156_azimuthal_means_partial.

Theorem C156_radial_partial : forall hy hx surf val bw theta del n dmax, 0 < bw -> (2 <= n)%nat -> (1 <= hy)%nat -> (1 <= hx)%nat -> dmax = sqrt (INR (hy - 1) ^ 2 + INR (hx - 1) ^ 2) ->
  INR n <= dmax / bw < INR n + 1 -> (forall a b r, surf a b = Fin r -> val a b = r) ->
  exists edges means stds, radial_slice hy hx surf bw theta del = Ok (edges, means, stds) /\ length edges = n /\ length means = (n - 1)%nat /\
  (forall i, (i < n)%nat -> nth i edges 0 = INR i * (dmax / INR (n - 1))) /\
  (forall i, (S i < n)%nat -> bw < nth (S i) edges 0 - nth i edges 0) /\
  forall i, (i < n - 1)%nat -> forall sel : nat -> nat -> bool,
    (forall a b, (a < hy)%nat -> (b < hx)%nat -> sel a b = true <-> theta - del / 2 <= atan2 (INR a) (INR b) <= theta + del / 2 /\ in_bin edges i (sqrt (INR a ^ 2 + INR b ^ 2)) /\ exists r, surf a b = Fin r) ->
    let count := sum_over hy hx sel (fun _ _ => 1) in let mean := sum_over hy hx sel val / count in
    (count = 0 -> nth i means (Fin 0) = NaN /\ nth i stds (Fin 0) = NaN) /\
    (count <> 0 -> nth i means (Fin 0) = Fin mean /\ nth i stds (Fin 0) = Fin (sqrt (sum_over hy hx sel (fun a b => (val a b - mean) ^ 2) / count))).
Proof. exact radial_value. Qed.
Print Assumptions C156_radial_partial.

Example C156_case : INR 4 <= PI / (PI / 4) < INR 4 + 1 /\ INR 3 <= sqrt (INR (4 - 1) ^ 2 + INR (5 - 1) ^ 2) / (3 / 2) < INR 3 + 1.
Proof.
  pose proof PI_RGT_0. replace (PI / (PI / 4)) with 4 by (field; lra). cbn [Nat.sub].
  replace (INR 3 ^ 2 + INR 4 ^ 2) with (5 * 5) by (cbn [INR]; ring). rewrite sqrt_square by lra. cbn [INR]. lra.
Qed.

(** ** C157 *)
Theorem C157_value_partial : forall hy hx s1 s2 a b, (0 < hy)%nat -> (0 < hx)%nat ->
  (forall i j, (i < hy)%nat -> (j < hx)%nat -> s1 i j = Fin (a i j)) -> (forall i j, (i < hy)%nat -> (j < hx)%nat -> s2 i j = Fin (b i j)) ->
  surface_distance hy hx s1 hy hx s2 = Fin (grid_norm hy hx (fun i j => a i j - b i j)) /\
  mean_distance hy hx s1 hy hx s2 = Fin (Rabs (rsum hy (fun i => rsum hx (fun j => a i j)) - rsum hy (fun i => rsum hx (fun j => b i j))) / INR (hy * hx)).
Proof. exact (fun hy hx s1 s2 a b Y X A B => conj (surface_value hy hx s1 s2 a b A B) (mean_value hy hx s1 s2 a b Y X A B)). Qed.
Print Assumptions C157_value_partial.
Theorem C157_metric_partial : forall hy hx (a b c : nat -> nat -> R),
  let d u v := grid_norm hy hx (fun i j => u i j - v i j) in
  d a b = d b a /\ d a c <= d a b + d b c /\ (d a b = 0 <-> forall i j, (i < hy)%nat -> (j < hx)%nat -> a i j = b i j).
Proof. exact (fun hy hx a b c => conj (norm_sym hy hx a b) (conj (norm_triangle hy hx a b c) (norm_zero hy hx a b))). Qed.
Print Assumptions C157_metric_partial.
(** mean_subtract leaves a blank at (0, 0), and one blank makes both distances blank, also from
    an image to itself *)
Theorem C157_mean_subtract_refuted : forall ny nx img angles r s, (2 <= ny)%nat -> (2 <= nx)%nat -> fits ny nx -> (forall k1 k2, (k1 < ny / 2)%nat -> (k2 < nx / 2)%nat -> angles k1 k2 <> []) ->
  compute_bispectrum ny nx img true angles = Ok r ->
  surface_distance (ny / 2) (nx / 2) (s_bicoherence r) (ny / 2) (nx / 2) s = NaN /\ mean_distance (ny / 2) (nx / 2) (s_bicoherence r) (ny / 2) (nx / 2) s = NaN.
Proof.
  exact (fun ny nx img angles r s Y X F N E => distance_blank (ny / 2) (nx / 2) (s_bicoherence r) s 0 0
    (Nat.div_le_lower_bound ny 2 1 (Nat.neq_succ_0 1) Y) (Nat.div_le_lower_bound nx 2 1 (Nat.neq_succ_0 1) X) (mean_subtract_blank ny nx img angles r Y X F N E)).
Qed.
Print Assumptions C157_mean_subtract_refuted.
Theorem C157_shapes_partial : forall hy1 hx1 s1 hy2 hx2 s2, (hy1, hx1) <> (hy2, hx2) -> surface_distance hy1 hx1 s1 hy2 hx2 s2 = NaN.
Proof. exact distance_shapes. Qed.
Print Assumptions C157_shapes_partial.
Example C157_case : exists r, compute_bispectrum 4 4 point true (fun _ _ => skewed) = Ok r.
Proof. destruct C154_case as [r [E _]]. now exists r. Qed.
