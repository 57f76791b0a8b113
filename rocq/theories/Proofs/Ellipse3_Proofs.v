(** Proofs about Model/Ellipse.v: failures, equivariance, sign of the eigenvector. *)
From Coq Require Import Reals List Lia Lra Arith Bool Permutation.
From Verif Require Import Lib.PyBase Lib.RSum Lib.Fl Lib.Mat3 Spec.Conic Model.EllipPlaw Model.Pca Model.PcaFit Model.Ellipse Proofs.Ellipse_Proofs Proofs.Ellipse2_Proofs.
Import ListNotations.
Local Open Scope R_scope.

(** ** Points on a line *)
Lemma collinear_None eig data : collinear data -> estimate eig data = None.
Proof.
  intros [a [b [c [N H]]]]. unfold estimate, reduced.
  destruct (Reqb_spec (det (S3 data)) 0) as [_|D]; [reflexivity|exfalso].
  assert (K : mv (S3 data) (V a b c) = v0).
  { unfold S3. rewrite gram_mv. transitivity (vsum data lin_row (fun _ => 0)).
    - apply vsum_ext. intros [x y] Hp. specialize (H _ Hp). cbn [fst snd] in H. unfold dot, lin_row. cbn [e1 e2 e3]. lra.
    - unfold vsum, v0. assert (Z : forall h : point -> R, lsum (map (fun p => h p * 0) data) = 0). { intros h. clear. induction data as [|x l IH]; unfold lsum in *; cbn [map fold_right]; [reflexivity|]. rewrite IH. ring. }
      apply v3_eq; apply (Z (fun p => _)). }
  pose proof (mv_inv_l _ (V a b c) D) as E. rewrite K in E. unfold mv, dot, v0 in E. cbn [e1 e2 e3] in E. injection E as E1 E2 E3. destruct N as [N|N]; apply N; lra.
Qed.

(** ** Order of the points *)
Lemma gram_perm f g l l' : Permutation l l' -> gram f g l = gram f g l'.
Proof.
  intros P. unfold gram. cbv zeta.
  assert (E : forall h k, lsum (map (fun p => h (f p) * k (g p)) l) = lsum (map (fun p => h (f p) * k (g p)) l')) by (intros; apply lsum_perm; now apply Permutation_map).
  rewrite !E. reflexivity.
Qed.
Lemma estimate_perm eig l l' : Permutation l l' -> estimate eig l = estimate eig l'.
Proof.
  intros P. unfold estimate, reduced, S1, S2, S3. rewrite !(gram_perm _ _ l l' P). reflexivity.
Qed.

(** ** Affine changes of the points that act linearly on the rows *)
Lemma vsum_map data (h : point -> point) f r : vsum (map h data) f r = vsum data (fun p => f (h p)) (fun p => r (h p)).
Proof. unfold vsum. rewrite !map_map. reflexivity. Qed.

Lemma vsum_mv data (m : m3) f r : vsum data (fun p => mv m (f p)) r = mv m (vsum data f r).
Proof.
  assert (E : forall row : v3, lsum (map (fun p => dot row (f p) * r p) data) = dot row (vsum data f r)).
  { intros row. rewrite dot_vsum. f_equal. apply map_ext. intros p. rewrite (dot_comm row). reflexivity. }
  unfold mv at 2. rewrite <- !E. reflexivity.
Qed.

Lemma vsum_vadd data f g r : vsum data (fun p => vadd (f p) (g p)) r = vadd (vsum data f r) (vsum data g r).
Proof.
  unfold vsum, vadd. cbn [e1 e2 e3].
  assert (E : forall h k : point -> R, lsum (map (fun p => (h p + k p) * r p) data) = lsum (map (fun p => h p * r p) data) + lsum (map (fun p => k p * r p) data)).
  { intros h k. induction data as [|x l IH]; unfold lsum in *; cbn [map fold_right]; [ring|]. rewrite IH. ring. }
  apply v3_eq; [apply (E (fun p => e1 (f p)) (fun p => e1 (g p)))|apply (E (fun p => e2 (f p)) (fun p => e2 (g p)))|apply (E (fun p => e3 (f p)) (fun p => e3 (g p)))].
Qed.

Lemma vsum_scale_r data f r c : vsum data f (fun p => c * r p) = vscale c (vsum data f r).
Proof.
  unfold vsum, vscale. cbn [e1 e2 e3].
  assert (E : forall h : point -> R, lsum (map (fun p => h p * (c * r p)) data) = c * lsum (map (fun p => h p * r p) data)).
  { intros h. induction data as [|x l IH]; unfold lsum in *; cbn [map fold_right]; [ring|]. rewrite IH. ring. }
  apply v3_eq; apply (E (fun p => _)).
Qed.

Lemma mv_v0 m : mv m v0 = v0.
Proof. unfold mv, dot, v0. cbn [e1 e2 e3]. apply v3_eq; ring. Qed.

(** ** Translations *)
Definition shift (p q : R) (z : point) : point := (fst z + p, snd z + q).
Definition Tlin (p q : R) : m3 := M (V 1 0 p) (V 0 1 q) (V 0 0 1).
Definition Tquad (p q : R) : m3 := M (V (2 * p) 0 (p ^ 2)) (V q p (p * q)) (V 0 (2 * q) (q ^ 2)).
Definition fwd (p q : R) (v w : v3) : v3 :=
  let w1 := e1 w - 2 * p * e1 v - q * e2 v in
  let w2 := e2 w - p * e2 v - 2 * q * e3 v in
  V w1 w2 (e3 w - p * w1 - q * w2 - (p ^ 2 * e1 v + p * q * e2 v + q ^ 2 * e3 v)).

Lemma lin_shift p q z : lin_row (shift p q z) = mv (Tlin p q) (lin_row z).
Proof. destruct z as [x y]. unfold mv, dot, lin_row, shift, Tlin. cbn. apply v3_eq; ring. Qed.
Lemma quad_shift p q z : quad_row (shift p q z) = vadd (quad_row z) (mv (Tquad p q) (lin_row z)).
Proof. destruct z as [x y]. unfold mv, dot, vadd, lin_row, quad_row, shift, Tquad. cbn. apply v3_eq; ring. Qed.
Lemma value_shift p q v w z : conic_value (conic_of v (fwd p q v w)) (shift p q z) = conic_value (conic_of v w) z.
Proof. destruct z as [x y]. unfold conic_value, conic_of, fwd, shift. cbv zeta. cbn [k_A k_B k_C k_D k_F k_G e1 e2 e3 fst snd]. ring. Qed.
Lemma Tlin_det p q : det (Tlin p q) <> 0.
Proof. unfold det, Tlin. cbn [e1 e2 e3 r1 r2 r3]. replace (1 * (1 * 1 - q * 0) - 0 * (0 * 1 - q * 0) + p * (0 * 0 - 1 * 0)) with 1 by ring. lra. Qed.

Lemma det_zero_kernel m v : v <> v0 -> mv m v = v0 -> det m = 0.
Proof. intros N K. destruct (Req_dec (det m) 0) as [E|E]; [exact E|]. exfalso. apply N. rewrite <- (mv_inv_l m v E), K. apply mv_v0. Qed.

Lemma lin_combined data w : mv (S3 data) w = vsum data lin_row (fun p => conic_value (conic_of v0 w) p).
Proof. unfold S3. rewrite gram_mv. apply vsum_ext. intros p _. rewrite conic_of_value. unfold dot at 2. unfold v0. cbn [e1 e2 e3]. ring. Qed.

Lemma S3_shift_zero p q data : det (S3 data) = 0 -> det (S3 (map (shift p q) data)) = 0.
Proof.
  intros D. destruct (singular_kernel _ D) as [w [N K]]. apply (det_zero_kernel _ (fwd p q v0 w)).
  - intros Z. apply N. unfold fwd, v0 in Z. cbn [e1 e2 e3] in Z. injection Z as Z1 Z2 Z3. rewrite <- (v3_eta w). unfold v0.
    assert (e1 w = 0) by lra. assert (e2 w = 0) by lra. apply v3_eq; try assumption. rewrite H, H0 in Z3. lra.
  - rewrite lin_combined, vsum_map.
    transitivity (vsum data (fun z => mv (Tlin p q) (lin_row z)) (fun z => conic_value (conic_of v0 w) z)).
    + unfold vsum. apply v3_eq; f_equal; apply map_ext; intros z; rewrite lin_shift, value_shift; reflexivity.
    + rewrite vsum_mv, <- lin_combined, K. apply mv_v0.
Qed.

Lemma shift_back p q data : map (shift (- p) (- q)) (map (shift p q) data) = data.
Proof. rewrite map_map. rewrite <- (map_id data) at 2. apply map_ext. intros [x y]. unfold shift. cbn. f_equal; ring. Qed.

Lemma S3_shift p q data : det (S3 data) <> 0 -> det (S3 (map (shift p q) data)) <> 0.
Proof. intros N Z. apply N. rewrite <- (shift_back p q data). now apply S3_shift_zero. Qed.

Lemma shifted_sum p q data f v w : vsum (map (shift p q) data) f (fun z => conic_value (conic_of v (fwd p q v w)) z) =
  vsum data (fun z => f (shift p q z)) (fun z => conic_value (conic_of v w) z).
Proof. rewrite vsum_map. unfold vsum. apply v3_eq; f_equal; apply map_ext; intros z; rewrite value_shift; reflexivity. Qed.

Lemma linpart_shift p q data v : det (S3 data) <> 0 -> linpart (map (shift p q) data) v = fwd p q v (linpart data v).
Proof.
  intros D. symmetry. apply linpart_unique; [now apply S3_shift|]. rewrite combined, shifted_sum.
  transitivity (vsum data (fun z => mv (Tlin p q) (lin_row z)) (value data v)).
  - unfold vsum. apply v3_eq; f_equal; apply map_ext; intros z; rewrite lin_shift; reflexivity.
  - rewrite vsum_mv, normal by exact D. apply mv_v0.
Qed.

Lemma scatter_shift p q data : det (S3 data) <> 0 -> scatter (map (shift p q) data) = scatter data.
Proof.
  intros D. apply m3_ext. intros v. rewrite !scatter_mv by (try apply S3_shift; exact D).
  unfold value at 1. rewrite (linpart_shift p q data v D), shifted_sum.
  transitivity (vsum data (fun z => vadd (quad_row z) (mv (Tquad p q) (lin_row z))) (value data v)).
  - unfold vsum. apply v3_eq; f_equal; apply map_ext; intros z; rewrite quad_shift; reflexivity.
  - rewrite vsum_vadd, vsum_mv, normal by exact D. rewrite mv_v0. unfold vadd, v0. cbn [e1 e2 e3]. rewrite <- (v3_eta (vsum data quad_row (value data v))) at 4. apply v3_eq; ring.
Qed.

Definition moved (p q : R) (l : ellipse) : ellipse := mk_ell (l_x l + p) (l_y l + q) (l_a l) (l_b l) (l_theta l).

Lemma ell_eq l l' : l_x l = l_x l' -> l_y l = l_y l' -> l_a l = l_a l' -> l_b l = l_b l' -> l_theta l = l_theta l' -> l = l'.
Proof. destruct l, l'. cbn. intros -> -> -> -> ->. reflexivity. Qed.

Lemma params_shift p q v w : 0 < cond v -> params_of (conic_of v (fwd p q v w)) = moved p q (params_of (conic_of v w)).
Proof.
  intros C. set (k := conic_of v w). set (k' := conic_of v (fwd p q v w)).
  assert (E : elliptic k) by (unfold elliptic, k, conic_of, cond in *; cbn [k_A k_B k_C]; lra).
  assert (E' : elliptic k') by exact E.
  assert (D : (e2 v / 2) ^ 2 - e1 v * e3 v <> 0) by (unfold cond in C; intros Z; lra).
  assert (X : l_x (params_of k') = l_x (params_of k) + p).
  { unfold params_of, conic_params, k', k, conic_of, fwd. cbv zeta. cbn [l_x k_A k_B k_C k_D k_F k_G e1 e2 e3]. field. lra. }
  assert (Y : l_y (params_of k') = l_y (params_of k) + q).
  { unfold params_of, conic_params, k', k, conic_of, fwd. cbv zeta. cbn [l_y k_A k_B k_C k_D k_F k_G e1 e2 e3]. field. lra. }
  assert (L : level k' = level k).
  { unfold level. rewrite X, Y. change (l_x (params_of k) + p, l_y (params_of k) + q) with (shift p q (l_x (params_of k), l_y (params_of k))).
    unfold k' at 1. rewrite value_shift. reflexivity. }
  destruct (widths k E) as [W1 W2]. destruct (widths k' E') as [W1' W2'].
  apply ell_eq; cbn [moved l_x l_y l_a l_b l_theta]; [exact X|exact Y| | |reflexivity].
  - rewrite W1, W1', L. reflexivity.
  - rewrite W2, W2', L. reflexivity.
Qed.

Lemma filter_cond l a1 : filter (fun v => Rltb 0 (cond v)) l = [a1] -> 0 < cond a1.
Proof.
  intros F. assert (H : In a1 (filter (fun v => Rltb 0 (cond v)) l)) by (rewrite F; now left).
  apply filter_In in H. destruct H as [_ H]. destruct (Rltb_spec 0 (cond a1)); [assumption|discriminate].
Qed.

Lemma estimate_shift eig p q data : estimate eig (map (shift p q) data) = option_map (moved p q) (estimate eig data).
Proof.
  unfold estimate, reduced. fold (scatter data) (scatter (map (shift p q) data)).
  destruct (Reqb_spec (det (S3 data)) 0) as [Z|N].
  - rewrite (S3_shift_zero p q data Z). destruct (Reqb_spec 0 0); [reflexivity|congruence].
  - destruct (Reqb_spec (det (S3 (map (shift p q) data))) 0) as [Z|_]; [exfalso; revert Z; now apply S3_shift|].
    rewrite (scatter_shift p q data N).
    destruct (filter _ _) as [|a1 [|? ?]] eqn:F; try reflexivity.
    cbv zeta. fold (linpart data a1) (linpart (map (shift p q) data) a1). rewrite (linpart_shift p q data a1 N).
    cbn [option_map]. f_equal. apply (params_shift p q a1 (linpart data a1)). now apply filter_cond in F.
Qed.

(** ** Change of scale *)
Definition dilate (s : R) (z : point) : point := (s * fst z, s * snd z).
Definition dilated (s : R) (l : ellipse) : ellipse := mk_ell (s * l_x l) (s * l_y l) (Rabs s * l_a l) (Rabs s * l_b l) (l_theta l).
Definition Dlin (s : R) : m3 := M (V s 0 0) (V 0 s 0) (V 0 0 1).
Definition sfwd (s : R) (w : v3) : v3 := V (s * e1 w) (s * e2 w) (s ^ 2 * e3 w).

Lemma lin_dilate s z : lin_row (dilate s z) = mv (Dlin s) (lin_row z).
Proof. destruct z as [x y]. unfold mv, dot, lin_row, dilate, Dlin. cbn. apply v3_eq; ring. Qed.
Lemma quad_dilate s z : quad_row (dilate s z) = mv (mscale (s ^ 2) one3) (quad_row z).
Proof. destruct z as [x y]. unfold mv, dot, mscale, vscale, one3, quad_row, dilate. cbn. apply v3_eq; ring. Qed.
Lemma value_dilate s v w z : conic_value (conic_of v (sfwd s w)) (dilate s z) = s ^ 2 * conic_value (conic_of v w) z.
Proof. destruct z as [x y]. unfold conic_value, conic_of, sfwd, dilate. cbn [k_A k_B k_C k_D k_F k_G e1 e2 e3 fst snd]. ring. Qed.

Lemma dilated_sum s data f v w : vsum (map (dilate s) data) f (fun z => conic_value (conic_of v (sfwd s w)) z) =
  vscale (s ^ 2) (vsum data (fun z => f (dilate s z)) (fun z => conic_value (conic_of v w) z)).
Proof. rewrite vsum_map, <- vsum_scale_r. unfold vsum. apply v3_eq; f_equal; apply map_ext; intros z; rewrite value_dilate; reflexivity. Qed.

Lemma vscale_v0 c : vscale c v0 = v0.
Proof. unfold vscale, v0. cbn [e1 e2 e3]. apply v3_eq; ring. Qed.

Lemma S3_dilate_zero s data : s <> 0 -> det (S3 data) = 0 -> det (S3 (map (dilate s) data)) = 0.
Proof.
  intros Hs D. destruct (singular_kernel _ D) as [w [N K]]. apply (det_zero_kernel _ (sfwd s w)).
  - intros Z. apply N. unfold sfwd, v0 in Z. injection Z as Z1 Z2 Z3. rewrite <- (v3_eta w). unfold v0.
    apply Rmult_integral in Z1, Z2. change (s * (s * 1) * e3 w = 0) in Z3. apply Rmult_integral in Z3.
    assert (s * (s * 1) <> 0) by (apply Rmult_integral_contrapositive; split; [exact Hs|lra]).
    apply v3_eq; tauto.
  - rewrite lin_combined, dilated_sum.
    replace (vsum data (fun z => lin_row (dilate s z)) (fun z => conic_value (conic_of v0 w) z)) with v0; [apply vscale_v0|].
    transitivity (vsum data (fun z => mv (Dlin s) (lin_row z)) (fun z => conic_value (conic_of v0 w) z)).
    + rewrite vsum_mv, <- lin_combined, K. symmetry. apply mv_v0.
    + unfold vsum. apply v3_eq; f_equal; apply map_ext; intros z; rewrite lin_dilate; reflexivity.
Qed.

Lemma dilate_back s data : s <> 0 -> map (dilate (/ s)) (map (dilate s) data) = data.
Proof. intros N. rewrite map_map. rewrite <- (map_id data) at 2. apply map_ext. intros [x y]. unfold dilate. cbn. f_equal; field; exact N. Qed.

Lemma S3_dilate s data : s <> 0 -> det (S3 data) <> 0 -> det (S3 (map (dilate s) data)) <> 0.
Proof. intros Hs N Z. apply N. rewrite <- (dilate_back s data Hs). apply S3_dilate_zero; [now apply Rinv_neq_0_compat|exact Z]. Qed.

Lemma linpart_dilate s data v : s <> 0 -> det (S3 data) <> 0 -> linpart (map (dilate s) data) v = sfwd s (linpart data v).
Proof.
  intros Hs D. symmetry. apply linpart_unique; [now apply S3_dilate|]. rewrite combined, dilated_sum.
  transitivity (vscale (s ^ 2) (vsum data (fun z => mv (Dlin s) (lin_row z)) (value data v))).
  - f_equal. unfold vsum. apply v3_eq; f_equal; apply map_ext; intros z; rewrite lin_dilate; reflexivity.
  - rewrite vsum_mv, normal by exact D. rewrite mv_v0. apply vscale_v0.
Qed.

Lemma scatter_dilate s data : s <> 0 -> det (S3 data) <> 0 -> scatter (map (dilate s) data) = mscale (s ^ 4) (scatter data).
Proof.
  intros Hs D. apply m3_ext. intros v. rewrite mscale_mv, !scatter_mv by (try apply S3_dilate; assumption).
  unfold value at 1. rewrite (linpart_dilate s data v Hs D), dilated_sum.
  transitivity (vscale (s ^ 2) (vsum data (fun z => mv (mscale (s ^ 2) one3) (quad_row z)) (value data v))).
  - f_equal. unfold vsum. apply v3_eq; f_equal; apply map_ext; intros z; rewrite quad_dilate; reflexivity.
  - rewrite vsum_mv. generalize (vsum data quad_row (value data v)). intros [a b c]. unfold mv, dot, mscale, vscale, one3. cbn [e1 e2 e3 r1 r2 r3]. apply v3_eq; ring.
Qed.

Lemma mm_mscale a s b : mm a (mscale s b) = mscale s (mm a b).
Proof. apply m3_ext. intros v. rewrite mm_mv, !mscale_mv, mv_vscale, mm_mv. reflexivity. Qed.

Lemma sqrt_scaled s r : nan_to_num (fsqrt (Fin (s ^ 2 * r))) = Rabs s * nan_to_num (fsqrt (Fin r)).
Proof.
  cbn [fsqrt]. destruct (Req_dec s 0) as [->|N].
  - rewrite Rabs_R0. replace (0 ^ 2 * r) with 0 by ring. destruct (Rltb_spec 0 0); [lra|]. cbn [nan_to_num]. rewrite sqrt_0. ring.
  - assert (P : 0 < s ^ 2) by (simpl; rewrite Rmult_1_r; now apply Rsqr_pos_lt).
    destruct (Rltb_spec r 0) as [L|L].
    + destruct (Rltb_spec (s ^ 2 * r) 0) as [_|G]; [cbn [nan_to_num]; ring|]. exfalso. assert (0 < s ^ 2 * - r) by (apply Rmult_lt_0_compat; lra). lra.
    + destruct (Rltb_spec (s ^ 2 * r) 0) as [G|_]; [exfalso; assert (0 <= s ^ 2 * r) by (apply Rmult_le_pos; lra); lra|].
      cbn [nan_to_num]. rewrite sqrt_mult by lra. f_equal. replace (s ^ 2) with (Rsqr s) by (unfold Rsqr; ring). apply sqrt_Rsqr_abs.
Qed.

Lemma params_dilate s v w : s <> 0 -> 0 < cond v -> params_of (conic_of v (sfwd s w)) = dilated s (params_of (conic_of v w)).
Proof.
  intros Hs C. set (k := conic_of v w). set (k' := conic_of v (sfwd s w)).
  assert (E : elliptic k) by (unfold elliptic, k, conic_of, cond in *; cbn [k_A k_B k_C]; lra).
  assert (E' : elliptic k') by exact E.
  assert (D : (e2 v / 2) ^ 2 - e1 v * e3 v <> 0) by (unfold cond in C; intros Z; lra).
  assert (X : l_x (params_of k') = s * l_x (params_of k)).
  { unfold params_of, conic_params, k', k, conic_of, sfwd. cbv zeta. cbn [l_x k_A k_B k_C k_D k_F k_G e1 e2 e3]. field. lra. }
  assert (Y : l_y (params_of k') = s * l_y (params_of k)).
  { unfold params_of, conic_params, k', k, conic_of, sfwd. cbv zeta. cbn [l_y k_A k_B k_C k_D k_F k_G e1 e2 e3]. field. lra. }
  assert (L : level k' = s ^ 2 * level k).
  { unfold level. rewrite X, Y. change (s * l_x (params_of k), s * l_y (params_of k)) with (dilate s (l_x (params_of k), l_y (params_of k))).
    unfold k' at 1. rewrite value_dilate. fold k. ring. }
  destruct (widths k E) as [W1 W2]. destruct (widths k' E') as [W1' W2'].
  apply ell_eq; cbn [dilated l_x l_y l_a l_b l_theta]; [exact X|exact Y| | |reflexivity].
  - rewrite W1, W1', L, <- sqrt_scaled. do 3 f_equal. change (lam1 k') with (lam1 k). unfold Rdiv. ring.
  - rewrite W2, W2', L, <- sqrt_scaled. do 3 f_equal. change (lam2 k') with (lam2 k). unfold Rdiv. ring.
Qed.

Lemma estimate_dilate eig s data : s <> 0 -> (forall m, eig (mscale (s ^ 4) m) = eig m) ->
  estimate eig (map (dilate s) data) = option_map (dilated s) (estimate eig data).
Proof.
  intros Hs HG. unfold estimate, reduced. fold (scatter data) (scatter (map (dilate s) data)).
  destruct (Reqb_spec (det (S3 data)) 0) as [Z|N].
  - rewrite (S3_dilate_zero s data Hs Z). destruct (Reqb_spec 0 0); [reflexivity|congruence].
  - destruct (Reqb_spec (det (S3 (map (dilate s) data))) 0) as [Z|_]; [exfalso; revert Z; now apply S3_dilate|].
    rewrite (scatter_dilate s data Hs N), mm_mscale, HG.
    destruct (filter _ _) as [|a1 [|? ?]] eqn:F; try reflexivity.
    cbv zeta. fold (linpart data a1) (linpart (map (dilate s) data) a1). rewrite (linpart_dilate s data a1 Hs N).
    cbn [option_map]. f_equal. apply (params_dilate s a1 (linpart data a1) Hs). now apply filter_cond in F.
Qed.

(** ** Multiples of the eigenvectors *)
Lemma hterm_times s k : hterm (times s k) = Rabs s * hterm k.
Proof.
  unfold hterm, hb, times. cbn [k_A k_B k_C]. replace ((s * k_A k - s * k_C k) ^ 2 + 4 * (s * k_B k / 2) ^ 2) with (Rsqr s * ((k_A k - k_C k) ^ 2 + 4 * (k_B k / 2) ^ 2)) by (unfold Rsqr; field).
  rewrite sqrt_mult; [now rewrite sqrt_Rsqr_abs|apply Rle_0_sqr|]. pose proof (pow2_ge_0 (k_A k - k_C k)). pose proof (pow2_ge_0 (k_B k / 2)). lra.
Qed.

Lemma params_times_centre s k : s <> 0 -> elliptic k -> l_x (params_of (times s k)) = l_x (params_of k) /\ l_y (params_of (times s k)) = l_y (params_of k).
Proof.
  intros Hs H. apply elliptic_disc in H. unfold hb in H.
  assert (D : (k_B k / 2) ^ 2 - k_A k * k_C k <> 0) by lra.
  unfold params_of, conic_params, times. cbv zeta. cbn [l_x l_y k_A k_B k_C k_D k_F k_G]. split; field; repeat split; try exact Hs; intros Z.
  all: apply D; assert (Q : s * s <> 0) by (apply Rmult_integral_contrapositive; auto).
  all: apply (Rmult_eq_reg_l (s * s)); [|exact Q]; lra.
Qed.

Lemma params_times s k : s <> 0 -> elliptic k -> let l := params_of k in let l' := params_of (times s k) in
  l_x l' = l_x l /\ l_y l' = l_y l /\ (0 < s -> l' = l) /\ (s < 0 -> l_a l' = l_b l /\ l_b l' = l_a l).
Proof.
  intros Hs H l l'. pose proof (elliptic_times s k Hs H) as H'. destruct (params_times_centre s k Hs H) as [X Y].
  assert (L : level (times s k) = s * level k). { unfold level. rewrite X, Y, value_times. ring. }
  destruct (widths k H) as [W1 W2]. destruct (widths _ H') as [W1' W2']. destruct (lam_sign k H) as [P1 P2].
  assert (N1 : lam1 k <> 0) by (intros Z; rewrite Z in P1; lra). assert (N2 : lam2 k <> 0) by (intros Z; rewrite Z in P2; lra).
  split; [exact X|]. split; [exact Y|]. split; intros S.
  - assert (A1 : lam1 (times s k) = s * lam1 k). { unfold lam1. rewrite hterm_times, Rabs_right by lra. unfold times. cbn [k_A k_C]. field. }
    assert (A2 : lam2 (times s k) = s * lam2 k). { unfold lam2. rewrite hterm_times, Rabs_right by lra. unfold times. cbn [k_A k_C]. field. }
    apply ell_eq; [exact X|exact Y| | |].
    + unfold l, l'. rewrite W1, W1', L, A1. do 3 f_equal. field. auto.
    + unfold l, l'. rewrite W2, W2', L, A2. do 3 f_equal. field. auto.
    + unfold l, l', params_of, conic_params, times. cbv zeta. cbn [l_theta k_A k_B k_C].
      assert (FD : fdiv (Fin (2 * (s * k_B k / 2))) (Fin (s * k_A k - s * k_C k)) = fdiv (Fin (2 * (k_B k / 2))) (Fin (k_A k - k_C k))).
      { cbn [fdiv]. replace (s * k_A k - s * k_C k) with (s * (k_A k - k_C k)) by ring. destruct (Reqb_spec (k_A k - k_C k) 0) as [Z|Z].
        - rewrite Z, Rmult_0_r. destruct (Reqb_spec 0 0); [|congruence]. replace (2 * (s * k_B k / 2)) with (s * (2 * (k_B k / 2))) by field.
          unfold sinf. set (b := 2 * (k_B k / 2)).
          destruct (Rltb_spec 0 b) as [G|G].
          + destruct (Rltb_spec 0 (s * b)) as [G'|G']; [reflexivity|]. exfalso. apply G'. now apply Rmult_lt_0_compat.
          + destruct (Rltb_spec 0 (s * b)) as [G'|G'].
            { exfalso. assert (0 <= s * - b) by (apply Rmult_le_pos; lra). lra. }
            destruct (Rltb_spec b 0) as [K|K].
            * destruct (Rltb_spec (s * b) 0) as [K'|K']; [reflexivity|]. exfalso. assert (0 < s * - b) by (apply Rmult_lt_0_compat; lra). lra.
            * destruct (Rltb_spec (s * b) 0) as [K'|K']; [|reflexivity]. exfalso. assert (E0 : b = 0) by lra. rewrite E0, Rmult_0_r in K'. lra.
        - destruct (Reqb_spec (s * (k_A k - k_C k)) 0) as [Z'|Z']; [exfalso; apply Rmult_integral in Z'; tauto|]. f_equal. field. auto. }
      rewrite FD.
      destruct (Rltb_spec (s * k_C k) (s * k_A k)) as [Q|Q]; destruct (Rltb_spec (k_C k) (k_A k)) as [Q'|Q']; try reflexivity.
      * exfalso. apply Rmult_lt_reg_l in Q; lra.
      * exfalso. assert (s * k_C k < s * k_A k) by (apply Rmult_lt_compat_l; lra). lra.
  - assert (A1 : lam1 (times s k) = s * lam2 k). { unfold lam1, lam2. rewrite hterm_times, Rabs_left by lra. unfold times. cbn [k_A k_C]. field. }
    assert (A2 : lam2 (times s k) = s * lam1 k). { unfold lam1, lam2. rewrite hterm_times, Rabs_left by lra. unfold times. cbn [k_A k_C]. field. }
    unfold l, l'. rewrite W1, W1', W2, W2', L, A1, A2. split; do 3 f_equal; field; auto.
Qed.

(** The longer axis comes first when the conic is positive *)
Lemma longer k : is_ellipse k -> (0 < k_A k -> l_b (params_of k) <= l_a (params_of k)) /\ (k_A k < 0 -> l_a (params_of k) <= l_b (params_of k)).
Proof.
  intros H. pose proof (axes k H) as (P1&P2&Q1&Q2). pose proof (level_sign k H) as LS. destruct H as [H _]. destruct (lam_sign k H) as [S1 S2].
  assert (O : lam1 k <= lam2 k) by (unfold lam1, lam2; pose proof (hterm_pos k); lra).
  set (a := l_a (params_of k)) in *. set (b := l_b (params_of k)) in *.
  split; intros SA.
  - assert (L1 : 0 < lam1 k) by (apply (Rmult_lt_reg_l (k_A k)); lra).
    destruct (Rle_lt_dec b a) as [G|G]; [exact G|exfalso]. assert (a ^ 2 < b ^ 2) by nra.
    assert (a ^ 2 * lam1 k < b ^ 2 * lam1 k) by (apply Rmult_lt_compat_r; lra). assert (b ^ 2 * lam1 k <= b ^ 2 * lam2 k) by (apply Rmult_le_compat_l; [apply pow2_ge_0|lra]). lra.
  - assert (L2 : lam2 k < 0). { destruct (Rle_lt_dec 0 (lam2 k)) as [G|G]; [|exact G]. exfalso. assert (0 <= - k_A k * lam2 k) by (apply Rmult_le_pos; lra). lra. }
    destruct (Rle_lt_dec a b) as [G|G]; [exact G|exfalso]. assert (b ^ 2 < a ^ 2) by nra.
    assert (a ^ 2 * lam1 k <= a ^ 2 * lam2 k) by (apply Rmult_le_compat_l; [apply pow2_ge_0|lra]).
    assert (0 < (a ^ 2 - b ^ 2) * - lam2 k) by (apply Rmult_lt_0_compat; lra). lra.
Qed.

Lemma round_circle k : is_ellipse k -> (l_a (params_of k) = l_b (params_of k) <-> k_A k = k_C k /\ k_B k = 0).
Proof.
  intros H. pose proof (axes k H) as (P1&P2&Q1&Q2). pose proof (level_sign k H) as LS.
  assert (HT : hterm k = 0 <-> k_A k = k_C k /\ k_B k = 0).
  { pose proof (hterm_sqr k) as E. unfold hb in E. split.
    - intros Z. rewrite Z in E. pose proof (pow2_ge_0 (k_A k - k_C k)). pose proof (pow2_ge_0 (k_B k / 2)).
      assert (Z1 : (k_A k - k_C k) * (k_A k - k_C k) = 0) by lra. assert (Z2 : k_B k / 2 * (k_B k / 2) = 0) by lra. apply Rmult_integral in Z1, Z2. split; lra.
    - intros [Z1 Z2]. rewrite Z1, Z2 in E. assert (Z : hterm k * hterm k = 0) by lra. apply Rmult_integral in Z. tauto. }
  rewrite <- HT. assert (D : lam2 k - lam1 k = hterm k) by (unfold lam1, lam2; field).
  assert (NL : level k <> 0) by (intros Z; rewrite Z in LS; lra).
  split; intros E.
  - rewrite <- E in Q2. assert (Z : l_a (params_of k) ^ 2 * (lam2 k - lam1 k) = 0) by lra. rewrite D in Z. apply Rmult_integral in Z. destruct Z as [Z|Z]; [|exact Z]. exfalso. rewrite Z in Q1. lra.
  - assert (E' : lam2 k = lam1 k) by lra. rewrite E' in Q2.
    assert (Z : (l_a (params_of k) - l_b (params_of k)) * ((l_a (params_of k) + l_b (params_of k)) * lam1 k) = 0) by lra.
    apply Rmult_integral in Z. destruct Z as [Z|Z]; [lra|]. apply Rmult_integral in Z. destruct Z as [Z|Z]; [lra|]. rewrite Z in Q1. lra.
Qed.

(** Sum of the squares of the axes *)
Lemma axes_sum k : is_ellipse k -> (l_a (params_of k) ^ 2 + l_b (params_of k) ^ 2) * (k_A k * k_C k - hb k ^ 2) = level k * (k_A k + k_C k).
Proof.
  intros H. pose proof (axes k H) as (_&_&Q1&Q2). rewrite <- (lam_prod k).
  replace ((l_a (params_of k) ^ 2 + l_b (params_of k) ^ 2) * (lam1 k * lam2 k)) with ((l_a (params_of k) ^ 2 * lam1 k) * lam2 k + (l_b (params_of k) ^ 2 * lam2 k) * lam1 k) by ring.
  rewrite Q1, Q2. unfold lam1, lam2. field.
Qed.
