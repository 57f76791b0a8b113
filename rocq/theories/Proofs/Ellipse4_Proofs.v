(** Proofs about Model/Ellipse.v: optimality and success of the fit, bootstrap. *)
From Coq Require Import Reals List Lia Lra Arith Bool Permutation.
From Verif Require Import Lib.PyBase Lib.RSum Lib.Fl Lib.Mat3 Spec.Conic Model.EllipPlaw Model.Pca Model.PcaFit Model.Ellipse Proofs.Ellipse_Proofs Proofs.Ellipse2_Proofs Proofs.Ellipse3_Proofs.
Import ListNotations.
Local Open Scope R_scope.

(** ** Least squares *)
Lemma sq_nonneg (l : list point) (r : point -> R) : 0 <= lsum (map (fun p => r p ^ 2) l).
Proof. induction l as [|x l IH]; unfold lsum in *; cbn [map fold_right]; [lra|]. pose proof (pow2_ge_0 (r x)). lra. Qed.
Lemma algebraic_nonneg data k : 0 <= algebraic data k.
Proof. unfold algebraic. induction data as [|x l IH]; unfold lsum in *; cbn [map fold_right]; [lra|]. pose proof (pow2_ge_0 (conic_value k x)). lra. Qed.

Section LS.
Variable data : list point.
Hypothesis D3 : det (S3 data) <> 0.

Lemma energy_algebraic v : dot v (mv (scatter data) v) = algebraic data (conic_of v (linpart data v)).
Proof. rewrite energy by exact D3. unfold algebraic. f_equal. apply map_ext. intros p. unfold value. ring. Qed.

Lemma linpart_best v w : algebraic data (conic_of v (linpart data v)) <= algebraic data (conic_of v w).
Proof.
  set (d := vsub w (linpart data v)).
  assert (E : algebraic data (conic_of v w) = algebraic data (conic_of v (linpart data v)) + 2 * dot d (vsum data lin_row (value data v)) + lsum (map (fun p => dot (lin_row p) d ^ 2) data)).
  { rewrite dot_vsum. unfold algebraic.
    transitivity (1 * lsum (map (fun p => conic_value (conic_of v (linpart data v)) p ^ 2) data) + 2 * lsum (map (fun p => dot (lin_row p) d * value data v p) data) + 1 * lsum (map (fun p => dot (lin_row p) d ^ 2) data)); [|ring].
    apply lsum_lin. intros p. unfold value. rewrite !conic_of_value. unfold d, dot, vsub. cbn [e1 e2 e3]. ring. }
  rewrite (normal data D3) in E. unfold dot at 1 in E. unfold v0 in E. cbn [e1 e2 e3] in E.
  assert (P : 0 <= lsum (map (fun p => dot (lin_row p) d ^ 2) data)).
  { apply sq_nonneg. }
  lra.
Qed.

Lemma energy_pos v : 0 <= dot v (mv (scatter data) v).
Proof. rewrite energy_algebraic. apply algebraic_nonneg. Qed.

Lemma pair1_sym u v : pair1 u v = pair1 v u.
Proof. destruct u, v. unfold pair1, C1, mv, dot. cbn. ring. Qed.
Lemma pair1_add u v w : pair1 u (vadd v w) = pair1 u v + pair1 u w.
Proof. destruct u, v, w. unfold pair1, C1, mv, dot, vadd. cbn. ring. Qed.
Lemma pair1_scale u s v : pair1 u (vscale s v) = s * pair1 u v.
Proof. destruct u, v. unfold pair1, C1, mv, dot, vscale. cbn. ring. Qed.
Lemma dot_add u v w : dot u (vadd v w) = dot u v + dot u w.
Proof. destruct u, v, w. unfold dot, vadd. cbn. ring. Qed.
Lemma dot_scale u s v : dot u (vscale s v) = s * dot u v.
Proof. destruct u, v. unfold dot, vscale. cbn. ring. Qed.

Lemma eigen_best v lam u : mv (scatter data) v = vscale lam (mv C1 v) -> 0 < cond v -> cond u = cond v ->
  dot v (mv (scatter data) v) <= dot u (mv (scatter data) u).
Proof.
  intros E Cv Cu. rewrite cond_pair in Cv.
  set (t := pair1 v u / pair1 v v). set (w := vadd u (vscale (- t) v)).
  assert (O : pair1 v w = 0). { unfold w. rewrite pair1_add, pair1_scale. unfold t. field. lra. }
  assert (U : u = vadd (vscale t v) w). { unfold w. destruct u, v. unfold vadd, vscale. cbn. apply v3_eq; ring. }
  assert (Cw : cond w <= 0). { apply (signature v); [rewrite cond_pair; exact Cv|exact O]. }
  assert (X1 : dot w (mv (scatter data) v) = 0). { rewrite E, dot_scale. fold (pair1 w v). rewrite pair1_sym, O. ring. }
  assert (X2 : dot v (mv (scatter data) w) = 0) by (rewrite energy_sym by exact D3; exact X1).
  assert (EU : dot u (mv (scatter data) u) = t ^ 2 * dot v (mv (scatter data) v) + dot w (mv (scatter data) w)).
  { rewrite U at 2. rewrite mv_vadd, mv_vscale, dot_add, dot_scale. rewrite (dot_comm u (mv (scatter data) v)), (dot_comm u (mv (scatter data) w)). rewrite U.
    rewrite !dot_add, !dot_scale, (dot_comm _ v), (dot_comm _ w), (dot_comm (mv (scatter data) w) v), (dot_comm (mv (scatter data) w) w), X1, X2. ring. }
  assert (CU : cond u = t ^ 2 * cond v + cond w).
  { rewrite !cond_pair. rewrite U at 2. rewrite pair1_add, pair1_scale, (pair1_sym u v), (pair1_sym u w). rewrite U, !pair1_add, !pair1_scale, (pair1_sym w v), O. ring. }
  rewrite (cond_pair v) in CU, Cu. pose proof (energy_pos w) as PW. pose proof (energy_pos v) as PV.
  assert (T : 1 <= t ^ 2). { apply (Rmult_le_reg_r (pair1 v v)); lra. }
  rewrite EU. assert (1 * dot v (mv (scatter data) v) <= t ^ 2 * dot v (mv (scatter data) v)) by (apply Rmult_le_compat_r; lra). lra.
Qed.
End LS.

Lemma estimate_inv eig data l : estimate eig data = Some l ->
  det (S3 data) <> 0 /\ exists v, filter (fun v => Rltb 0 (cond v)) (eig (mm (inv3 C1) (scatter data))) = [v] /\ 0 < cond v /\ l = params_of (conic_of v (linpart data v)).
Proof.
  unfold estimate, reduced. fold (scatter data). destruct (Reqb_spec (det (S3 data)) 0) as [Z|N]; [discriminate|].
  destruct (filter _ _) as [|v [|? ?]] eqn:F; try discriminate. cbv zeta. intros H. injection H as H. split; [exact N|]. exists v.
  split; [reflexivity|]. split; [now apply filter_cond in F|]. symmetry. exact H.
Qed.

Lemma reduced_some data : det (S3 data) <> 0 -> reduced data = Some (mm (inv3 C1) (scatter data)).
Proof. intros N. unfold reduced. destruct (Reqb_spec (det (S3 data)) 0); [congruence|reflexivity]. Qed.

Lemma least_squares eig data l : (forall m u, reduced data = Some m -> In u (eig m) -> eigenvector m u) -> estimate eig data = Some l ->
  exists k, elliptic k /\ l = params_of k /\ forall k', discriminant k' = discriminant k -> algebraic data k <= algebraic data k'.
Proof.
  intros HE H. destruct (estimate_inv eig data l H) as [N [v [F [C L]]]]. exists (conic_of v (linpart data v)).
  assert (E : elliptic (conic_of v (linpart data v))) by (unfold elliptic, conic_of, cond in *; cbn [k_A k_B k_C]; lra).
  split; [exact E|]. split; [exact L|]. intros k' HD.
  destruct (HE _ v (reduced_some data N)) as [lam EV].
  { assert (I : In v (filter (fun v => Rltb 0 (cond v)) (eig (mm (inv3 C1) (scatter data))))) by (rewrite F; now left). now apply filter_In in I. }
  apply eigen_scatter in EV; [|exact N]. set (u := V (k_A k') (k_B k') (k_C k')). set (w := V (k_D k') (k_F k') (k_G k')).
  assert (K : k' = conic_of u w) by (unfold conic_of, u, w; cbn [e1 e2 e3]; now destruct k').
  rewrite K. eapply Rle_trans; [|apply (linpart_best data N u w)]. rewrite <- !energy_algebraic by exact N.
  apply (eigen_best data N v lam u EV C). unfold discriminant, conic_of in HD. cbn [k_A k_B k_C] in HD. unfold cond, u. cbn [e1 e2 e3]. lra.
Qed.

(** ** Success *)
Lemma scatter_definite data v : det (S3 data) <> 0 -> ~ on_some_conic data -> v <> v0 -> 0 < dot v (mv (scatter data) v).
Proof.
  intros N NC Nv. destruct (Rle_lt_or_eq_dec _ _ (energy_pos data N v)) as [L|Z]; [exact L|exfalso].
  apply NC. exists (conic_of v (linpart data v)). split.
  - unfold conic_of. cbn [k_A k_B k_C]. destruct (Req_dec (e1 v) 0); [|auto]. destruct (Req_dec (e2 v) 0); [|auto]. destruct (Req_dec (e3 v) 0); [|auto].
    exfalso. apply Nv. rewrite <- (v3_eta v). unfold v0. now apply v3_eq.
  - intros p Hp. rewrite energy in Z by exact N. symmetry in Z. exact (sumsq_zero data (value data v) Z p Hp).
Qed.

Section Success.
Variable data : list point.
Hypothesis (N : det (S3 data) <> 0) (NC : ~ on_some_conic data).
Let Sm := scatter data.
Let En (u v : v3) := dot u (mv Sm v).

Lemma En_sym u v : En u v = En v u.
Proof. apply energy_sym. exact N. Qed.
Lemma En_add u v w : En u (vadd v w) = En u v + En u w.
Proof. unfold En. now rewrite mv_vadd, dot_add. Qed.
Lemma En_scale u s v : En u (vscale s v) = s * En u v.
Proof. unfold En. now rewrite mv_vscale, dot_scale. Qed.
Lemma En_pos v : 0 <= En v v.
Proof. apply energy_pos. exact N. Qed.
Lemma En_def v : v <> v0 -> 0 < En v v.
Proof. intros H. now apply scatter_definite. Qed.

Lemma eig_pair u v lam : mv Sm v = vscale lam (mv C1 v) -> En u v = lam * pair1 u v.
Proof. intros E. unfold En. rewrite E. apply dot_scale. Qed.

Lemma vadd_zero_l u v : vadd u (vscale 0 v) = u.
Proof. destruct u, v. unfold vadd, vscale. cbn. apply v3_eq; ring. Qed.

(** Two eigenvectors with a positive value are parallel *)
Lemma one_positive u v lu lv : mv Sm u = vscale lu (mv C1 u) -> mv Sm v = vscale lv (mv C1 v) -> 0 < cond u -> 0 < cond v -> exists t, v = vscale t u.
Proof.
  intros Eu Ev Cu Cv. set (t := pair1 u v / pair1 u u). set (w := vadd v (vscale (- t) u)). rewrite cond_pair in Cu.
  assert (O : pair1 u w = 0). { unfold w. rewrite pair1_add, pair1_scale. unfold t. field. lra. }
  assert (W : v = vadd (vscale t u) w) by (unfold w; destruct u, v; unfold vadd, vscale; cbn; apply v3_eq; ring).
  exists t. destruct (v3_dec w) as [Z|NW].
  { rewrite W at 1. rewrite Z. destruct u. unfold vadd, vscale, v0. cbn. apply v3_eq; ring. }
  exfalso. assert (Cw : cond w <= 0) by (apply (signature u); [rewrite cond_pair; exact Cu|exact O]).
  assert (EP : lu * pair1 v u = lv * pair1 v u). { rewrite <- (eig_pair v u lu Eu), En_sym, (eig_pair u v lv Ev), (pair1_sym u v). reflexivity. }
  destruct (Req_dec lu lv) as [EQ|NE].
  - (* one eigenspace *)
    assert (Lp : 0 < lu). { assert (Nu : u <> v0) by (intros Z; rewrite Z in Cu; unfold pair1, dot, v0 in Cu; cbn in Cu; lra). pose proof (En_def u Nu) as P. rewrite (eig_pair u u lu Eu) in P. rewrite Rmult_comm in P. apply (Rmult_lt_reg_l (pair1 u u)); lra. }
    pose proof (En_def w NW) as P.
    assert (F : En w w = lu * pair1 w w). { unfold w at 2. rewrite En_add, En_scale, (eig_pair w v lv Ev), (eig_pair w u lu Eu), <- EQ. unfold w at 4. rewrite pair1_add, pair1_scale. ring. }
    rewrite F, <- cond_pair in P. assert (0 <= lu * - cond w) by (apply Rmult_le_pos; lra). lra.
  - assert (Z : pair1 u v = 0). { rewrite (pair1_sym u v). assert (Z0 : (lu - lv) * pair1 v u = 0) by lra. apply Rmult_integral in Z0. destruct Z0; [lra|assumption]. }
    assert (cond v <= 0) by (apply (signature u); [rewrite cond_pair; exact Cu|exact Z]). lra.
Qed.

(** Some eigenvector has a positive value *)
Lemma some_positive u1 u2 u3 l1 l2 l3 : det (M u1 u2 u3) <> 0 ->
  mv Sm u1 = vscale l1 (mv C1 u1) -> mv Sm u2 = vscale l2 (mv C1 u2) -> mv Sm u3 = vscale l3 (mv C1 u3) ->
  cond u1 <= 0 -> cond u2 <= 0 -> cond u3 <= 0 -> False.
Proof.
  intros D E1 E2 E3 K1 K2 K3.
  assert (N1 : u1 <> v0) by (intros Z; apply D; apply det_zero_row; auto).
  assert (N2 : u2 <> v0) by (intros Z; apply D; apply det_zero_row; auto).
  assert (N3 : u3 <> v0) by (intros Z; apply D; apply det_zero_row; auto).
  assert (LN : forall u l, u <> v0 -> mv Sm u = vscale l (mv C1 u) -> cond u <= 0 -> l < 0).
  { intros u l Nu Eu Ku. pose proof (En_def u Nu) as P. rewrite (eig_pair u u l Eu), <- cond_pair in P.
    destruct (Rlt_le_dec l 0) as [G|G]; [exact G|exfalso]. assert (0 <= l * - cond u) by (apply Rmult_le_pos; lra). lra. }
  pose proof (LN u1 l1 N1 E1 K1) as L1. pose proof (LN u2 l2 N2 E2 K2) as L2. pose proof (LN u3 l3 N3 E3 K3) as L3.
  assert (DT : det (tr (M u1 u2 u3)) <> 0) by (intros Z; apply D; rewrite <- Z; destruct u1, u2, u3; unfold tr, det; cbn; ring).
  set (q := V 1 0 1). set (al := mv (inv3 (tr (M u1 u2 u3))) q). pose proof (mv_inv_r _ q DT) as EQ. fold al in EQ.
  set (a1 := vscale (e1 al) u1). set (a2 := vscale (e2 al) u2). set (a3 := vscale (e3 al) u3).
  assert (COMB : q = vadd a1 (vadd a2 a3)).
  { rewrite <- EQ at 1. unfold a1, a2, a3. destruct u1, u2, u3. generalize al. intros [x y z]. unfold mv, tr, dot, vadd, vscale. cbn. apply v3_eq; ring. }
  assert (EV : forall u l c, mv Sm u = vscale l (mv C1 u) -> mv Sm (vscale c u) = vscale l (mv C1 (vscale c u))).
  { intros u l c Eu. rewrite !mv_vscale, Eu. generalize (mv C1 u). intros [x y z]. unfold vscale. cbn. apply v3_eq; ring. }
  pose proof (EV u1 l1 (e1 al) E1) as A1. pose proof (EV u2 l2 (e2 al) E2) as A2. pose proof (EV u3 l3 (e3 al) E3) as A3. fold a1 in A1. fold a2 in A2. fold a3 in A3.
  assert (Cq : pair1 q q = 4) by (unfold pair1, q, C1, mv, dot; cbn; ring).
  rewrite COMB in Cq. rewrite !pair1_add, (pair1_sym (vadd a1 (vadd a2 a3)) a1), (pair1_sym (vadd a1 (vadd a2 a3)) a2), (pair1_sym (vadd a1 (vadd a2 a3)) a3), !pair1_add in Cq.
  rewrite (pair1_sym a2 a1), (pair1_sym a3 a1), (pair1_sym a3 a2) in Cq.
  assert (NEG : forall u v l, l < 0 -> mv Sm u = vscale l (mv C1 u) -> mv Sm v = vscale l (mv C1 v) -> pair1 u u + 2 * pair1 u v + pair1 v v <= 0).
  { intros u v l Ln Eu Ev. pose proof (En_pos (vadd u v)) as P. rewrite En_add, (eig_pair _ u l Eu), (eig_pair _ v l Ev), !(pair1_sym (vadd u v)), !pair1_add, (pair1_sym v u) in P.
    destruct (Rle_lt_dec (pair1 u u + 2 * pair1 u v + pair1 v v) 0) as [G|G]; [exact G|exfalso]. assert (0 < - l * (pair1 u u + 2 * pair1 u v + pair1 v v)) by (apply Rmult_lt_0_compat; lra). lra. }
  assert (NEG1 : forall u l, l < 0 -> mv Sm u = vscale l (mv C1 u) -> pair1 u u <= 0).
  { intros u l Ln Eu. pose proof (NEG u u l Ln Eu Eu). lra. }
  assert (ORT : forall u v l l', l <> l' -> mv Sm u = vscale l (mv C1 u) -> mv Sm v = vscale l' (mv C1 v) -> pair1 u v = 0).
  { intros u v l l' Nl Eu Ev. assert (EP : l' * pair1 u v = l * pair1 u v). { rewrite <- (eig_pair u v l' Ev), En_sym, (eig_pair v u l Eu), (pair1_sym v u). reflexivity. }
    assert (Z0 : (l' - l) * pair1 u v = 0) by lra. apply Rmult_integral in Z0. destruct Z0; [lra|assumption]. }
  pose proof (NEG1 a1 l1 L1 A1) as P1. pose proof (NEG1 a2 l2 L2 A2) as P2. pose proof (NEG1 a3 l3 L3 A3) as P3.
  destruct (Req_dec l1 l2) as [Q12|Q12]; [|pose proof (ORT a1 a2 l1 l2 Q12 A1 A2) as O12].
  - destruct (Req_dec l1 l3) as [Q13|Q13].
    + assert (Z : pair1 (vadd a1 a2) (vadd a1 a2) + 2 * pair1 (vadd a1 a2) a3 + pair1 a3 a3 <= 0).
      { apply (NEG _ _ l1 L1); [|rewrite Q13; exact A3]. rewrite !mv_vadd, A1, A2, <- Q12. generalize (mv C1 a1), (mv C1 a2). intros [x y z] [x' y' z']. unfold vadd, vscale. cbn. apply v3_eq; ring. }
      rewrite (pair1_sym (vadd a1 a2) a3), !pair1_add, !(pair1_sym (vadd a1 a2)), !pair1_add in Z. rewrite (pair1_sym a2 a1), (pair1_sym a3 a1), (pair1_sym a3 a2) in Z. lra.
    + pose proof (ORT a1 a3 l1 l3 Q13 A1 A3) as O13. rewrite Q12 in Q13. pose proof (ORT a2 a3 l2 l3 Q13 A2 A3) as O23.
      rewrite <- Q12 in A2. pose proof (NEG a1 a2 l1 L1 A1 A2). lra.
  - destruct (Req_dec l1 l3) as [Q13|Q13].
    + assert (Q23 : l2 <> l3) by congruence. pose proof (ORT a2 a3 l2 l3 Q23 A2 A3) as O23. rewrite <- Q13 in A3. pose proof (NEG a1 a3 l1 L1 A1 A3). lra.
    + pose proof (ORT a1 a3 l1 l3 Q13 A1 A3) as O13. destruct (Req_dec l2 l3) as [Q23|Q23].
      * rewrite <- Q23 in A3. pose proof (NEG a2 a3 l2 L2 A2 A3). lra.
      * pose proof (ORT a2 a3 l2 l3 Q23 A2 A3). lra.
Qed.
End Success.

Lemma det_parallel' t u1 u2 u3 : u2 = vscale t u1 \/ u3 = vscale t u1 \/ u3 = vscale t u2 -> det (M u1 u2 u3) = 0.
Proof. destruct u1 as [a b c], u2 as [x y z], u3 as [p q r]. unfold det, vscale. cbn. intros [H|[H|H]]; injection H as -> -> ->; ring. Qed.

Lemma estimate_succeeds eig data : ~ on_some_conic data -> ~ collinear data ->
  (forall m, reduced data = Some m -> eigenbasis m (eig m)) -> exists l, estimate eig data = Some l.
Proof.
  intros NC NL HE.
  assert (N : det (S3 data) <> 0).
  { intros D. destruct (singular_kernel _ D) as [w [Nw Kw]].
    assert (Z : forall p, In p data -> dot (lin_row p) w = 0).
    { apply (sumsq_zero data (fun p => dot (lin_row p) w)). rewrite <- (dot_vsum data lin_row (fun p => dot (lin_row p) w) w). unfold S3 in Kw. rewrite gram_mv in Kw. rewrite Kw. unfold dot, v0. cbn. ring. }
    destruct data as [|p0 l] eqn:ED.
    - apply NC. exists (mk_conic 1 0 0 0 0 0). cbn. split; [left; lra|contradiction].
    - apply NL. exists (e1 w), (e2 w), (e3 w). split.
      + destruct (Req_dec (e1 w) 0) as [Z1|]; [|auto]. destruct (Req_dec (e2 w) 0) as [Z2|]; [|auto]. exfalso. apply Nw. specialize (Z p0 (or_introl eq_refl)). destruct p0 as [x y]. unfold dot, lin_row in Z. cbn [e1 e2 e3] in Z. rewrite <- (v3_eta w). unfold v0. apply v3_eq; try assumption. rewrite Z1, Z2 in Z. lra.
      + intros [x y] Hp. specialize (Z _ Hp). unfold dot, lin_row in Z. cbn [e1 e2 e3 fst snd] in *. lra. }
  destruct (HE _ (reduced_some data N)) as [u1 [u2 [u3 [EC [D EV]]]]].
  assert (EV' : forall u, In u [u1; u2; u3] -> exists l, mv (scatter data) u = vscale l (mv C1 u)).
  { intros u Hu. destruct (EV u) as [l Hl]; [rewrite EC; exact Hu|]. exists l. now apply eigen_scatter. }
  destruct (EV' u1) as [l1 E1]; [cbn; auto|]. destruct (EV' u2) as [l2 E2]; [cbn; auto|]. destruct (EV' u3) as [l3 E3]; [cbn; auto|].
  unfold estimate. rewrite (reduced_some data N), EC. cbn [filter].
  destruct (Rltb_spec 0 (cond u1)) as [C_1|C_1]; destruct (Rltb_spec 0 (cond u2)) as [C_2|C_2]; destruct (Rltb_spec 0 (cond u3)) as [C_3|C_3]; cbv zeta; try (eexists; reflexivity).
  1,2: destruct (one_positive data N NC u1 u2 l1 l2 E1 E2 C_1 C_2) as [t Ht]; exfalso; apply D; apply (det_parallel' t); auto.
  1: destruct (one_positive data N NC u1 u3 l1 l3 E1 E3 C_1 C_3) as [t Ht]; exfalso; apply D; apply (det_parallel' t); auto.
  1: destruct (one_positive data N NC u2 u3 l2 l3 E2 E3 C_2 C_3) as [t Ht]; exfalso; apply D; apply (det_parallel' t); auto.
  exfalso. apply (some_positive data N NC u1 u2 u3 l1 l2 l3 D E1 E2 E3); lra.
Qed.
