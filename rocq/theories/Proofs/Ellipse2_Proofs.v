(** Proofs about Model/Ellipse.v: the least-squares fit. *)
From Coq Require Import Reals List Lia Lra Arith Bool Permutation.
From Verif Require Import Lib.PyBase Lib.RSum Lib.Fl Lib.Mat3 Spec.Conic Model.EllipPlaw Model.Pca Model.PcaFit Model.Ellipse Proofs.Ellipse_Proofs.
Import ListNotations.
Local Open Scope R_scope.

Definition conic_of (v w : v3) : conic := mk_conic (e1 v) (e2 v) (e3 v) (e1 w) (e2 w) (e3 w).
Lemma conic_of_value v w p : conic_value (conic_of v w) p = dot (quad_row p) v + dot (lin_row p) w.
Proof. destruct p as [x y]. unfold conic_value, conic_of, dot. cbn. ring. Qed.

(** Sums of vectors over the points *)
Definition vsum (data : list point) (f : point -> v3) (r : point -> R) : v3 :=
  V (lsum (map (fun p => e1 (f p) * r p) data)) (lsum (map (fun p => e2 (f p) * r p) data)) (lsum (map (fun p => e3 (f p) * r p) data)).

Lemma lsum_lin {A} (l : list A) f g h a b c (k : A -> R) : (forall p, k p = a * f p + b * g p + c * h p) ->
  lsum (map k l) = a * lsum (map f l) + b * lsum (map g l) + c * lsum (map h l).
Proof. intros H. induction l as [|x l IH]; cbn [map lsum fold_right]; [unfold lsum; cbn; ring|]. unfold lsum in *. cbn [map fold_right]. rewrite IH, H. ring. Qed.

Lemma gram_mv f g data v : mv (gram f g data) v = vsum data f (fun p => dot (g p) v).
Proof.
  unfold mv, gram, vsum, dot. cbv zeta. cbn [r1 r2 r3 e1 e2 e3]. apply v3_eq; symmetry.
  all: erewrite lsum_lin; [rewrite (Rmult_comm _ (e1 v)), (Rmult_comm _ (e2 v)), (Rmult_comm _ (e3 v)); reflexivity|intros p; cbn beta; ring].
Qed.

Lemma gram_tr f g data : tr (gram f g data) = gram g f data.
Proof.
  unfold tr, gram. cbv zeta. cbn [r1 r2 r3 e1 e2 e3].
  assert (E : forall h k, lsum (map (fun p => h (f p) * k (g p)) data) = lsum (map (fun p => k (g p) * h (f p)) data)) by (intros h k; f_equal; apply map_ext; intros; ring).
  rewrite !E. reflexivity.
Qed.

Lemma vsum_add data f r s : vadd (vsum data f r) (vsum data f s) = vsum data f (fun p => r p + s p).
Proof.
  unfold vadd, vsum. cbn [e1 e2 e3].
  assert (E : forall k : point -> R, lsum (map (fun p => k p * r p) data) + lsum (map (fun p => k p * s p) data) = lsum (map (fun p => k p * (r p + s p)) data)).
  { intros k. induction data as [|x l IH]; unfold lsum in *; cbn [map fold_right]; [ring|]. rewrite <- IH. ring. }
  apply v3_eq; apply (E (fun p => _)).
Qed.

Lemma vsum_ext data f r s : (forall p, In p data -> r p = s p) -> vsum data f r = vsum data f s.
Proof. intros H. unfold vsum. apply v3_eq; f_equal; apply map_ext_in; intros p Hp; now rewrite H. Qed.

Lemma dot_vsum data f r v : dot v (vsum data f r) = lsum (map (fun p => dot (f p) v * r p) data).
Proof.
  unfold dot, vsum. cbn [e1 e2 e3]. symmetry. apply lsum_lin. intros p. ring.
Qed.

Lemma sumsq_zero (l : list point) (r : point -> R) : lsum (map (fun p => r p * r p) l) = 0 -> forall p, In p l -> r p = 0.
Proof.
  induction l as [|x l IH]; intros E p Hp; [contradiction|].
  unfold lsum in *. cbn [map fold_right] in E.
  assert (P : 0 <= fold_right Rplus 0 (map (fun p => r p * r p) l)).
  { clear. induction l as [|y l IH]; cbn [map fold_right]; [lra|]. pose proof (Rle_0_sqr (r y)). unfold Rsqr in *. lra. }
  pose proof (Rle_0_sqr (r x)) as Q. unfold Rsqr in Q. destruct Hp as [<-|Hp].
  - assert (H : r x * r x = 0) by lra. apply Rmult_integral in H. tauto.
  - apply IH; [lra|exact Hp].
Qed.

Section Fit.
Variable data : list point.
Hypothesis D3 : det (S3 data) <> 0.

Definition linpart (v : v3) : v3 := mv (mm (mscale (-1) (inv3 (S3 data))) (tr (S2 data))) v.
Definition scatter : m3 := msub (S1 data) (mm (mm (S2 data) (inv3 (S3 data))) (tr (S2 data))).
Definition value (v : v3) (p : point) : R := conic_value (conic_of v (linpart v)) p.

Lemma linpart_eq v : vadd (mv (tr (S2 data)) v) (mv (S3 data) (linpart v)) = v0.
Proof.
  unfold linpart. rewrite mm_mv, mscale_mv, mv_vscale, mv_inv_r by exact D3. set (u := mv (tr (S2 data)) v). destruct u. unfold vadd, vscale, v0. cbn. apply v3_eq; ring.
Qed.

Lemma linpart_unique v w : vadd (mv (tr (S2 data)) v) (mv (S3 data) w) = v0 -> w = linpart v.
Proof.
  intros H. pose proof (linpart_eq v) as E. rewrite <- (mv_inv_l (S3 data) w D3), <- (mv_inv_l (S3 data) (linpart v) D3). f_equal.
  revert H E. generalize (mv (S3 data) w), (mv (S3 data) (linpart v)), (mv (tr (S2 data)) v). intros [a b c] [a' b' c'] [x y z]. unfold vadd, v0. cbn.
  intros H E. injection H. injection E. intros. apply v3_eq; lra.
Qed.

Lemma combined v w : vadd (mv (tr (S2 data)) v) (mv (S3 data) w) = vsum data lin_row (fun p => conic_value (conic_of v w) p).
Proof.
  unfold S2, S3. rewrite gram_tr, !gram_mv, vsum_add. apply vsum_ext. intros p _. now rewrite conic_of_value.
Qed.

Lemma normal v : vsum data lin_row (value v) = v0.
Proof. unfold value. rewrite <- combined. apply linpart_eq. Qed.

Lemma scatter_mv v : mv scatter v = vsum data quad_row (value v).
Proof.
  unfold scatter. rewrite msub_mv, !mm_mv.
  assert (E : mv (S2 data) (mv (inv3 (S3 data)) (mv (tr (S2 data)) v)) = vscale (-1) (mv (S2 data) (linpart v))).
  { unfold linpart. rewrite mm_mv, mscale_mv, mv_vscale. set (u := mv (S2 data) _). destruct u. unfold vscale. cbn. apply v3_eq; ring. }
  rewrite E. transitivity (vadd (mv (S1 data) v) (mv (S2 data) (linpart v))).
  { generalize (mv (S1 data) v), (mv (S2 data) (linpart v)). intros [a b c] [x y z]. unfold vsub, vscale, vadd. cbn. apply v3_eq; ring. }
  unfold S1, S2. rewrite !gram_mv, vsum_add. apply vsum_ext. intros p _. unfold value. now rewrite conic_of_value.
Qed.

Lemma energy u v : dot u (mv scatter v) = lsum (map (fun p => value u p * value v p) data).
Proof.
  rewrite scatter_mv, dot_vsum.
  assert (N : dot (linpart u) (vsum data lin_row (value v)) = 0) by (rewrite normal; unfold dot, v0; cbn; ring).
  rewrite dot_vsum in N.
  transitivity (lsum (map (fun p => dot (quad_row p) u * value v p) data) + lsum (map (fun p => dot (lin_row p) (linpart u) * value v p) data)); [lra|].
  clear N. symmetry.
  transitivity (1 * lsum (map (fun p => dot (quad_row p) u * value v p) data) + 1 * lsum (map (fun p => dot (lin_row p) (linpart u) * value v p) data) + 0 * lsum (map (fun _ : point => 0) data)); [|ring].
  apply lsum_lin. intros p. unfold value at 1. rewrite conic_of_value. ring.
Qed.

Lemma energy_sym u v : dot u (mv scatter v) = dot v (mv scatter u).
Proof. rewrite !energy. f_equal. apply map_ext. intros p. ring. Qed.

Lemma energy_zero v : mv scatter v = v0 -> forall p, In p data -> value v p = 0.
Proof.
  intros H. assert (E : lsum (map (fun p => value v p * value v p) data) = 0) by (rewrite <- energy, H; unfold dot, v0; cbn; ring).
  intros p Hp. exact (sumsq_zero data (value v) E p Hp).
Qed.
End Fit.

(** ** The constraint matrix *)
Definition pair1 (u v : v3) : R := dot u (mv C1 v).
Lemma cond_pair v : cond v = pair1 v v.
Proof. destruct v. unfold cond, pair1, C1, mv, dot. cbn. ring. Qed.
Lemma C1_det : det C1 <> 0.
Proof. unfold C1, det. cbn. lra. Qed.

Lemma signature q u : 0 < cond q -> pair1 q u = 0 -> cond u <= 0.
Proof.
  destruct q as [a b c], u as [p r s]. unfold cond, pair1, C1, mv, dot. cbn [e1 e2 e3 r1 r2 r3]. intros H E.
  destruct (Rle_lt_dec (4 * (p * s) - r ^ 2) 0) as [L|L]; [exact L|exfalso].
  assert (E' : a * s + c * p = b * r / 2) by lra.
  assert (Q : 4 * ((a * s) * (c * p)) <= (b * r / 2) ^ 2).
  { rewrite <- E'. pose proof (Rle_0_sqr (a * s - c * p)) as K. unfold Rsqr in K. lra. }
  assert (b2 : 0 <= b ^ 2) by apply pow2_ge_0. assert (r2 : 0 <= r ^ 2) by apply pow2_ge_0.
  assert (P : b ^ 2 * r ^ 2 < (4 * (a * c)) * (4 * (p * s))).
  { apply Rle_lt_trans with (b ^ 2 * (4 * (p * s))).
    - apply Rmult_le_compat_l; lra.
    - apply Rmult_lt_compat_r; lra. }
  replace ((b * r / 2) ^ 2) with (b ^ 2 * r ^ 2 / 4) in Q by field. lra.
Qed.

Lemma eigen_scatter data v lam : det (S3 data) <> 0 -> mv (mm (inv3 C1) (scatter data)) v = vscale lam v -> mv (scatter data) v = vscale lam (mv C1 v).
Proof.
  intros D H. rewrite mm_mv in H. rewrite <- (mv_inv_r C1 (mv (scatter data) v) C1_det), H. apply mv_vscale.
Qed.

Lemma v3_scale0 v : vscale 0 v = v0.
Proof. destruct v. unfold vscale, v0. cbn. apply v3_eq; ring. Qed.

Section Exact.
Variables (data : list point) (k : conic).
Hypothesis (HD : determine data k) (HE : elliptic k).
Let qv := V (k_A k) (k_B k) (k_C k).
Let qw := V (k_D k) (k_F k) (k_G k).

Lemma cond_qv : 0 < cond qv.
Proof. unfold cond, qv. cbn [e1 e2 e3]. unfold elliptic in HE. lra. Qed.

Lemma qv_conic : conic_of qv qw = k.
Proof. unfold conic_of, qv, qw. cbn. now destruct k. Qed.

Lemma S3_det : det (S3 data) <> 0.
Proof.
  intros D. destruct (singular_kernel _ D) as [w [Nw Kw]].
  assert (Z : forall p, In p data -> dot (lin_row p) w = 0).
  { assert (E : lsum (map (fun p => dot (lin_row p) w * dot (lin_row p) w) data) = 0).
    { rewrite <- (dot_vsum data lin_row (fun p => dot (lin_row p) w) w). unfold S3 in Kw. rewrite gram_mv in Kw. rewrite Kw. unfold dot, v0. cbn. ring. }
    intros p Hp. exact (sumsq_zero data (fun p => dot (lin_row p) w) E p Hp). }
  destruct HD as [_ U]. destruct (U (conic_of v0 w)) as [s Hs].
  { intros p Hp. unfold on_conic. rewrite conic_of_value, (Z p Hp). unfold dot, v0. cbn. ring. }
  unfold conic_of, times, v0 in Hs. cbn [e1 e2 e3] in Hs. injection Hs as HA _ _ HD1 HF HG.
  pose proof (A_nonzero k HE) as NA. assert (s = 0). { symmetry in HA. apply Rmult_integral in HA. tauto. }
  subst s. apply Nw. rewrite <- (v3_eta w). unfold v0. apply v3_eq; lra.
Qed.

Lemma exact_linpart s : linpart data (vscale s qv) = vscale s qw.
Proof.
  symmetry. apply linpart_unique; [apply S3_det|]. rewrite combined. transitivity (vsum data lin_row (fun _ => 0)).
  - apply vsum_ext. intros p Hp. destruct HD as [On _]. specialize (On p Hp). unfold on_conic in On. rewrite <- qv_conic in On. rewrite conic_of_value in *.
    transitivity (s * (dot (quad_row p) qv + dot (lin_row p) qw)); [|rewrite On; ring]. unfold dot, vscale. cbn. ring.
  - unfold vsum, v0. assert (E : forall h : point -> R, lsum (map (fun p => h p * 0) data) = 0). { intros h. clear. induction data; unfold lsum in *; cbn [map fold_right]; [reflexivity|]. rewrite IHl. ring. }
    apply v3_eq; apply (E (fun p => _)).
Qed.

Lemma exact_kernel : mv (scatter data) qv = v0.
Proof.
  rewrite scatter_mv by apply S3_det. transitivity (vsum data quad_row (fun _ => 0)).
  - apply vsum_ext. intros p Hp. unfold value. replace (linpart data qv) with qw.
    + rewrite qv_conic. now apply HD.
    + replace qv with (vscale 1 qv) by (unfold vscale, qv; cbn; apply v3_eq; ring). rewrite exact_linpart. unfold vscale, qw. cbn. apply v3_eq; ring.
  - unfold vsum, v0. assert (E : forall h : point -> R, lsum (map (fun p => h p * 0) data) = 0). { intros h. clear. induction data; unfold lsum in *; cbn [map fold_right]; [reflexivity|]. rewrite IHl. ring. }
    apply v3_eq; apply (E (fun p => _)).
Qed.

(** An eigenvector passes the test exactly when it is a multiple of the conic's *)
Lemma eigen_test u : u <> v0 -> eigenvector (mm (inv3 C1) (scatter data)) u ->
  (exists s, s <> 0 /\ u = vscale s qv /\ 0 < cond u /\ mv (scatter data) u = v0) \/
  (cond u <= 0 /\ exists lam, lam <> 0 /\ mv (scatter data) u = vscale lam (mv C1 u)).
Proof.
  intros Nu [lam E]. pose proof (eigen_scatter data u lam S3_det E) as F.
  destruct (Req_dec lam 0) as [->|NL].
  - left. rewrite v3_scale0 in F. destruct HD as [_ U]. destruct (U (conic_of u (linpart data u))) as [s Hs].
    { intros p Hp. unfold on_conic. apply (energy_zero data S3_det u F p Hp). }
    unfold conic_of, times in Hs. injection Hs as H1 H2 H3 _ _ _.
    assert (EU : u = vscale s qv) by (rewrite <- (v3_eta u); unfold vscale, qv; cbn; apply v3_eq; auto).
    exists s. assert (Ns : s <> 0) by (intros Z; apply Nu; rewrite EU, Z; apply v3_scale0).
    split; [exact Ns|]. split; [exact EU|]. split; [|exact F]. rewrite EU. pose proof cond_qv as C. unfold cond, vscale in *. cbn [e1 e2 e3] in *.
    replace (4 * (s * e1 qv * (s * e3 qv)) - (s * e2 qv) ^ 2) with ((s * s) * (4 * (e1 qv * e3 qv) - e2 qv ^ 2)) by ring.
    apply Rmult_lt_0_compat; [now apply Rsqr_pos_lt|exact C].
  - right. split; [|eauto]. apply (signature qv); [apply cond_qv|].
    assert (P : dot qv (mv (scatter data) u) = 0) by (rewrite energy_sym by apply S3_det; rewrite exact_kernel; unfold dot, v0; cbn; ring).
    rewrite F in P. unfold pair1. assert (K : dot qv (vscale lam (mv C1 u)) = lam * dot qv (mv C1 u)) by (unfold dot, vscale; cbn; ring).
    rewrite K in P. apply Rmult_integral in P. tauto.
Qed.

Lemma det_zero_row u1 u2 u3 : u1 = v0 \/ u2 = v0 \/ u3 = v0 -> det (M u1 u2 u3) = 0.
Proof. destruct u1, u2, u3. unfold v0, det. cbn. intros [H|[H|H]]; injection H as -> -> ->; ring. Qed.
Lemma det_parallel s t u1 u2 u3 : (u1 = vscale s qv /\ u2 = vscale t qv) \/ (u1 = vscale s qv /\ u3 = vscale t qv) \/ (u2 = vscale s qv /\ u3 = vscale t qv) -> det (M u1 u2 u3) = 0.
Proof. intros [[-> ->]|[[-> ->]|[-> ->]]]; [destruct u3|destruct u2|destruct u1]; unfold det, vscale; cbn; ring. Qed.

Lemma exact_filter u1 u2 u3 : det (M u1 u2 u3) <> 0 ->
  eigenvector (mm (inv3 C1) (scatter data)) u1 -> eigenvector (mm (inv3 C1) (scatter data)) u2 -> eigenvector (mm (inv3 C1) (scatter data)) u3 ->
  exists s, s <> 0 /\ filter (fun v => Rltb 0 (cond v)) [u1; u2; u3] = [vscale s qv].
Proof.
  intros D E1 E2 E3.
  assert (N1 : u1 <> v0) by (intros Z; apply D; apply det_zero_row; auto).
  assert (N2 : u2 <> v0) by (intros Z; apply D; apply det_zero_row; auto).
  assert (N3 : u3 <> v0) by (intros Z; apply D; apply det_zero_row; auto).
  assert (P : forall u, 0 < cond u -> Rltb 0 (cond u) = true) by (intros u H; destruct (Rltb_spec 0 (cond u)); [reflexivity|lra]).
  assert (Q : forall u, cond u <= 0 -> Rltb 0 (cond u) = false) by (intros u H; destruct (Rltb_spec 0 (cond u)); [lra|reflexivity]).
  cbn [filter].
  destruct (eigen_test u1 N1 E1) as [[s1 [S1 [V1 [C_1 _]]]]|[C_1 [l1 [L1 K1]]]];
  destruct (eigen_test u2 N2 E2) as [[s2 [S2 [V2 [C_2 _]]]]|[C_2 [l2 [L2 K2]]]];
  destruct (eigen_test u3 N3 E3) as [[s3 [S3' [V3 [C_3 _]]]]|[C_3 [l3 [L3 K3]]]].
  1,2: exfalso; apply D; apply (det_parallel s1 s2); auto.
  1: exfalso; apply D; apply (det_parallel s1 s3); auto.
  2: exfalso; apply D; apply (det_parallel s2 s3); auto.
  - exists s1. split; [exact S1|]. rewrite (P u1), (Q u2), (Q u3) by assumption. now rewrite V1.
  - exists s2. split; [exact S2|]. rewrite (Q u1), (P u2), (Q u3) by assumption. now rewrite V2.
  - exists s3. split; [exact S3'|]. rewrite (Q u1), (Q u2), (P u3) by assumption. now rewrite V3.
  - exfalso.
    (* qv is a combination of the three; all its coefficients vanish *)
    assert (DT : det (tr (M u1 u2 u3)) <> 0) by (intros Z; apply D; rewrite <- Z; destruct u1, u2, u3; unfold tr, det; cbn; ring).
    set (al := mv (inv3 (tr (M u1 u2 u3))) qv). pose proof (mv_inv_r _ qv DT) as EQ. fold al in EQ.
    assert (COMB : qv = vadd (vscale (e1 al) u1) (vadd (vscale (e2 al) u2) (vscale (e3 al) u3))).
    { rewrite <- EQ at 1. destruct u1, u2, u3. generalize al. intros [x y z]. unfold mv, tr, dot, vadd, vscale. cbn. apply v3_eq; ring. }
    assert (SC : mv C1 (vadd (vscale (e1 al * l1) u1) (vadd (vscale (e2 al * l2) u2) (vscale (e3 al * l3) u3))) = v0).
    { pose proof exact_kernel as Z. rewrite COMB in Z. rewrite !mv_vadd, !mv_vscale, K1, K2, K3 in Z. rewrite !mv_vadd, !mv_vscale.
      rewrite <- Z. generalize (mv C1 u1), (mv C1 u2), (mv C1 u3). intros [a b c] [a' b' c'] [a'' b'' c'']. unfold vadd, vscale. cbn. apply v3_eq; ring. }
    assert (V0 : vadd (vscale (e1 al * l1) u1) (vadd (vscale (e2 al * l2) u2) (vscale (e3 al * l3) u3)) = v0).
    { rewrite <- (mv_inv_l C1 (vadd _ _) C1_det), SC. unfold mv, dot, v0. cbn [e1 e2 e3 r1 r2 r3]. apply v3_eq; ring. }
    assert (B0 : V (e1 al * l1) (e2 al * l2) (e3 al * l3) = v0).
    { rewrite <- (mv_inv_l _ (V (e1 al * l1) (e2 al * l2) (e3 al * l3)) DT).
      replace (mv (tr (M u1 u2 u3)) (V (e1 al * l1) (e2 al * l2) (e3 al * l3))) with v0.
      - unfold mv, dot, v0. cbn [e1 e2 e3 r1 r2 r3]. apply v3_eq; ring.
      - rewrite <- V0. destruct u1, u2, u3. unfold mv, tr, dot, vadd, vscale. cbn. apply v3_eq; ring. }
    unfold v0 in B0. injection B0 as B1 B2 B3. apply Rmult_integral in B1, B2, B3.
    assert (Z : al = v0) by (rewrite <- (v3_eta al); unfold v0; apply v3_eq; tauto).
    assert (QZ : qv = v0) by (rewrite COMB, Z; destruct u1, u2, u3; unfold vadd, vscale, v0; cbn; apply v3_eq; ring).
    pose proof cond_qv as C. rewrite QZ in C. unfold cond, v0 in C. cbn in C. lra.
Qed.

Lemma estimate_exact eig u1 u2 u3 : eig (mm (inv3 C1) (scatter data)) = [u1; u2; u3] -> det (M u1 u2 u3) <> 0 ->
  eigenvector (mm (inv3 C1) (scatter data)) u1 -> eigenvector (mm (inv3 C1) (scatter data)) u2 -> eigenvector (mm (inv3 C1) (scatter data)) u3 ->
  exists s, s <> 0 /\ estimate eig data = Some (params_of (times s k)).
Proof.
  intros HG D E1 E2 E3. destruct (exact_filter u1 u2 u3 D E1 E2 E3) as [s [Ns F]]. exists s. split; [exact Ns|].
  unfold estimate, reduced. destruct (Reqb_spec (det (S3 data)) 0) as [Z|_]; [exfalso; now apply S3_det|].
  fold (scatter data). rewrite HG, F. cbv zeta. fold (linpart data (vscale s qv)). rewrite exact_linpart.
  unfold params_of, times, vscale, qv, qw. cbn [e1 e2 e3 k_A k_B k_C k_D k_F k_G]. reflexivity.
Qed.
End Exact.
