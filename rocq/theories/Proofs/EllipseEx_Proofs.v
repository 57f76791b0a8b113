(** Concrete fits for Model/Ellipse.v. *)
From Coq Require Import Reals List Lia Lra Arith Bool Permutation.
From Verif Require Import Lib.PyBase Lib.RSum Lib.Fl Lib.Mat3 Spec.Conic Model.EllipPlaw Model.Pca Model.PcaFit Model.Ellipse Spec.EllipseFit Proofs.Ellipse_Proofs Proofs.Ellipse2_Proofs Proofs.Ellipse3_Proofs Proofs.Ellipse4_Proofs Proofs.Ellipse5_Proofs.
Import ListNotations.
Local Open Scope R_scope.

(** x^2 + 3 y^2 = 4 *)
Definition ex_pts : list point := [(1, 1); (1, -1); (-1, 1); (-1, -1); (2, 0); (-2, 0)].
Definition ex_conic : conic := mk_conic 1 0 3 0 0 (-4).
Definition ex_eig (_ : m3) : list v3 := [V 1 0 3; V 0 1 0; V 1 0 (-3)].

Ltac cm := unfold S1, S2, S3, gram; cbv zeta; unfold lsum; cbn; f_equal; apply v3_eq; ring.

Lemma ex_one : one_conic ex_pts.
Proof.
  intros [A B C D F G] [A' B' C' D' F' G'] H H' N.
  assert (K : forall a b c d f g, (forall p, In p ex_pts -> on_conic (mk_conic a b c d f g) p) -> b = 0 /\ d = 0 /\ f = 0 /\ c = 3 * a /\ g = - 4 * a).
  { intros a b c d f g Q. pose proof (Q (1, 1)) as Q1. pose proof (Q (1, -1)) as Q2. pose proof (Q (-1, 1)) as Q3. pose proof (Q (-1, -1)) as Q4. pose proof (Q (2, 0)) as Q5. pose proof (Q (-2, 0)) as Q6.
    unfold on_conic, conic_value in *. cbn [k_A k_B k_C k_D k_F k_G fst snd ex_pts In] in *.
    specialize (Q1 ltac:(tauto)). specialize (Q2 ltac:(tauto)). specialize (Q3 ltac:(tauto)). specialize (Q4 ltac:(tauto)). specialize (Q5 ltac:(tauto)). specialize (Q6 ltac:(tauto)). lra. }
  destruct (K _ _ _ _ _ _ H) as (->&->&->&->&->). destruct (K _ _ _ _ _ _ H') as (->&->&->&->&->).
  assert (NA : A <> 0). { intros ->. apply N. f_equal; ring. }
  exists (A' / A). unfold times. cbn [k_A k_B k_C k_D k_F k_G]. f_equal; field; exact NA.
Qed.

Lemma ex_on p : In p ex_pts -> on_conic ex_conic p.
Proof. unfold on_conic, conic_value, ex_conic. cbn [k_A k_B k_C k_D k_F k_G]. intros H. cbn in H. decompose [or] H; subst; cbn [fst snd]; try ring. contradiction. Qed.

Lemma ex_determine : determine ex_pts ex_conic.
Proof. split; [exact ex_on|]. intros k' H. apply (ex_one ex_conic k' ex_on H). unfold ex_conic. intros Z. injection Z. intros. lra. Qed.

Lemma ex_ellipse : is_ellipse ex_conic.
Proof.
  split; [unfold elliptic, ex_conic; cbn; lra|]. exists (2, 0), (-2, 0). split; [apply ex_on; cbn; tauto|]. split; [apply ex_on; cbn; tauto|]. intros Z. apply (f_equal fst) in Z. cbn in Z. lra.
Qed.

Lemma ex_not_tilted : ~ tilted45 ex_conic.
Proof. intros [Z _]. unfold ex_conic in Z. cbn in Z. lra. Qed.

Lemma m3_eq a b c a' b' c' : a = a' -> b = b' -> c = c' -> M a b c = M a' b' c'.
Proof. now intros -> -> ->. Qed.

Lemma C1_inv : inv3 C1 = M (V 0 0 (1 / 2)) (V 0 (-1) 0) (V (1 / 2) 0 0).
Proof.
  apply m3_ext. intros v. rewrite <- (mv_inv_r C1 v C1_det) at 2. generalize (mv (inv3 C1) v). intros [a b c].
  unfold C1, mv, dot. cbn [e1 e2 e3 r1 r2 r3]. apply v3_eq; field.
Qed.

Lemma reduced_by data s1 s2 s3 i3 m : S1 data = s1 -> S2 data = s2 -> S3 data = s3 -> det s3 <> 0 ->
  (forall v, mv i3 (mv s3 v) = v) -> mm (M (V 0 0 (1 / 2)) (V 0 (-1) 0) (V (1 / 2) 0 0)) (msub s1 (mm (mm s2 i3) (tr s2))) = m -> reduced data = Some m.
Proof.
  intros E1 E2 E3 D HI <-. unfold reduced. rewrite E1, E2, E3. destruct (Reqb_spec (det s3) 0); [congruence|]. rewrite C1_inv.
  assert (E : inv3 s3 = i3). { apply m3_ext. intros v. rewrite <- (mv_inv_r s3 v D) at 2. now rewrite HI. }
  now rewrite E.
Qed.
Ltac reduce_m i A B C :=
  apply (reduced_by _ _ _ _ i _ A B C);
  [unfold det; cbn [e1 e2 e3 r1 r2 r3]; lra
  |intros [a b c]; unfold mv, dot; cbn [e1 e2 e3 r1 r2 r3]; apply v3_eq; field
  |apply m3_ext; intros [a b c]; rewrite !mm_mv, msub_mv, !mm_mv; unfold tr; cbn [e1 e2 e3 r1 r2 r3]; repeat (unfold mv at 1, dot, vsub; cbn [e1 e2 e3 r1 r2 r3]); apply v3_eq; field].

Lemma ex_S1 : S1 ex_pts = M (V 36 0 4) (V 0 4 0) (V 4 0 4). Proof. cm. Qed.
Lemma ex_S2 : S2 ex_pts = M (V 0 0 12) (V 0 0 0) (V 0 0 4). Proof. cm. Qed.
Lemma ex_S3 : S3 ex_pts = M (V 12 0 0) (V 0 4 0) (V 0 0 6). Proof. cm. Qed.
Lemma ex_reduced : reduced ex_pts = Some (M (V (-2) 0 (2 / 3)) (V 0 (-4) 0) (V 6 0 (-2))).
Proof. reduce_m (M (V (1 / 12) 0 0) (V 0 (1 / 4) 0) (V 0 0 (1 / 6))) ex_S1 ex_S2 ex_S3. Qed.

Ltac basis l1 l2 l3 :=
  do 3 eexists; split; [reflexivity|]; split; [unfold det; cbn [e1 e2 e3 r1 r2 r3]; lra|]; intros u Hu; cbn in Hu; destruct Hu as [<-|[<-|[<-|[]]]];
  [exists l1|exists l2|exists l3]; unfold mv, dot, vscale; cbn [e1 e2 e3 r1 r2 r3]; apply v3_eq; field.

Lemma ex_solves : solves ex_eig ex_pts.
Proof. intros m H. rewrite ex_reduced in H. injection H as <-. unfold eigenbasis, ex_eig, eigenvector. basis 0 (-4) (-4). Qed.

(** x^2 + x y + y^2 = 3: axes along the diagonals *)
Definition ex_tilt : list point := [(1, 1); (-1, -1); (1, -2); (-1, 2); (2, -1); (-2, 1)].
Definition ex_tconic : conic := mk_conic 1 1 1 0 0 (-3).
Definition ex_teig (_ : m3) : list v3 := [V 1 1 1; V 1 0 (-1); V 1 4 1].

Lemma ext_on p : In p ex_tilt -> on_conic ex_tconic p.
Proof. unfold on_conic, conic_value, ex_tconic. cbn [k_A k_B k_C k_D k_F k_G]. intros H. cbn in H. decompose [or] H; subst; cbn [fst snd]; try ring. contradiction. Qed.

Lemma ext_determine : determine ex_tilt ex_tconic.
Proof.
  split; [exact ext_on|]. intros [a b c d f g] Q.
  pose proof (Q (1, 1)) as Q1. pose proof (Q (-1, -1)) as Q2. pose proof (Q (1, -2)) as Q3. pose proof (Q (-1, 2)) as Q4. pose proof (Q (2, -1)) as Q5. pose proof (Q (-2, 1)) as Q6.
  unfold on_conic, conic_value in *. cbn [k_A k_B k_C k_D k_F k_G fst snd ex_tilt In] in *.
  specialize (Q1 ltac:(tauto)). specialize (Q2 ltac:(tauto)). specialize (Q3 ltac:(tauto)). specialize (Q4 ltac:(tauto)). specialize (Q5 ltac:(tauto)). specialize (Q6 ltac:(tauto)).
  exists a. unfold times, ex_tconic. cbn [k_A k_B k_C k_D k_F k_G]. f_equal; lra.
Qed.

Lemma ext_ellipse : is_ellipse ex_tconic.
Proof.
  split; [unfold elliptic, ex_tconic; cbn; lra|]. exists (1, 1), (-1, -1). split; [apply ext_on; cbn; tauto|]. split; [apply ext_on; cbn; tauto|]. intros Z. apply (f_equal fst) in Z. cbn in Z. lra.
Qed.

Lemma ext_tilted : tilted45 ex_tconic.
Proof. unfold tilted45, ex_tconic. cbn. split; lra. Qed.

Lemma ext_S1 : S1 ex_tilt = M (V 36 (-18) 18) (V (-18) 18 (-18)) (V 18 (-18) 36). Proof. cm. Qed.
Lemma ext_S2 : S2 ex_tilt = M (V 0 0 12) (V 0 0 (-6)) (V 0 0 12). Proof. cm. Qed.
Lemma ext_S3 : S3 ex_tilt = M (V 12 (-6) 0) (V (-6) 12 0) (V 0 0 6). Proof. cm. Qed.
Lemma ext_reduced : reduced ex_tilt = Some (M (V (-3) (-3) 6) (V 6 (-12) 6) (V 6 (-3) (-3))).
Proof. reduce_m (M (V (1 / 9) (1 / 18) 0) (V (1 / 18) (1 / 9) 0) (V 0 0 (1 / 6))) ext_S1 ext_S2 ext_S3. Qed.
Lemma ext_solves : solves ex_teig ex_tilt.
Proof. intros m H. rewrite ext_reduced in H. injection H as <-. unfold eigenbasis, ex_teig, eigenvector. basis 0 (-9) (-9). Qed.

(** The first points and the origin: on no conic *)
Definition ex_noisy : list point := ex_pts ++ [(0, 0)].
Lemma exn_S1 : S1 ex_noisy = M (V 36 0 4) (V 0 4 0) (V 4 0 4). Proof. cm. Qed.
Lemma exn_S2 : S2 ex_noisy = M (V 0 0 12) (V 0 0 0) (V 0 0 4). Proof. cm. Qed.
Lemma exn_S3 : S3 ex_noisy = M (V 12 0 0) (V 0 4 0) (V 0 0 7). Proof. cm. Qed.
Lemma exn_reduced : reduced ex_noisy = Some (M (V (-10 / 7) 0 (6 / 7)) (V 0 (-4) 0) (V (54 / 7) 0 (-10 / 7))).
Proof. reduce_m (M (V (1 / 12) 0 0) (V 0 (1 / 4) 0) (V 0 0 (1 / 7))) exn_S1 exn_S2 exn_S3. Qed.
Lemma exn_solves : solves ex_eig ex_noisy.
Proof. intros m H. rewrite exn_reduced in H. injection H as <-. unfold eigenbasis, ex_eig, eigenvector. basis (8 / 7) (-4) (-4). Qed.

Lemma exn_no_conic : ~ on_some_conic ex_noisy.
Proof.
  intros [k [N H]]. destruct (proj2 ex_determine k) as [s E].
  { intros p Hp. apply H. unfold ex_noisy. apply in_or_app. now left. }
  assert (Q : on_conic k (0, 0)) by (apply H; unfold ex_noisy; apply in_or_app; right; now left).
  rewrite E in *. unfold on_conic, conic_value, times, ex_conic in *. cbn in Q, N. assert (s = 0) by lra. subst s. lra.
Qed.
Lemma exn_not_line : ~ collinear ex_noisy.
Proof.
  intros [a [b [c [N H]]]]. pose proof (H (1, 1) ltac:(cbn; tauto)) as Q1. pose proof (H (0, 0) ltac:(cbn; tauto)) as Q2. pose proof (H (2, 0) ltac:(cbn; tauto)) as Q3. cbn in Q1, Q2, Q3. lra.
Qed.

(** Widths of the first ellipse as a Gaussian *)
Lemma ex_gauss p : In p ex_pts -> gauss_contour (sqrt 2) (sqrt (2 / 3)) p.
Proof.
  intros H. apply gauss_on. apply ex_on in H. unfold on_conic, conic_value, ex_conic, gauss_conic in *. cbn [k_A k_B k_C k_D k_F k_G] in *.
  assert (E : sqrt 2 ^ 2 = 2). { cbn. rewrite Rmult_1_r. apply sqrt_sqrt. lra. } assert (E' : sqrt (2 / 3) ^ 2 = 2 / 3). { cbn. rewrite Rmult_1_r. apply sqrt_sqrt. lra. }
  rewrite E, E'. replace (/ (2 * (2 / 3))) with (3 / 4) by field. lra.
Qed.

Definition ex_draw : draw := mk_draw [2; 0; 1; 5; 3; 4]%nat (repeat (1 / 4, 3 / 4) 6) (repeat (1, -1) 6).
Lemma ex_good : good_draw 6 ex_draw.
Proof.
  split; [|split; reflexivity]. cbn. apply NoDup_Permutation; [repeat constructor; cbn; lia|apply (seq_NoDup 6 0)|]. intros x. cbn. lia.
Qed.
