(** Proofs about Model/Distances.v. *)
From Coq Require Import Reals List Arith Lia Lra Bool.
From Verif Require Import Lib.PyBase Lib.RSum Lib.Fl Lib.Arr Spec.Blank Spec.Covariance Model.Distances Proofs.Fl_Proofs Proofs.Cov_Proofs Model.Psds Model.Pca Model.Formats.
Import ListNotations.
Local Open Scope R_scope.

Lemma fsqr_fin e : 0 <= e * e. Proof. apply Rle_0_sqr. Qed.

(** *** fl algebra *)
Lemma fsub_swap a b : fsub b a = fneg (fsub a b).
Proof. destruct a, b; cbn; try reflexivity. apply f_equal. ring. Qed.
Lemma fabs_neg a : fabs (fneg a) = fabs a.
Proof. destruct a; cbn; try reflexivity. now rewrite Rabs_Ropp. Qed.
Lemma sinf_neg r : sinf (- r) = fneg (sinf r).
Proof. unfold sinf. destruct (Rltb_spec 0 (- r)), (Rltb_spec 0 r), (Rltb_spec (- r) 0), (Rltb_spec r 0); try lra; reflexivity. Qed.
Lemma fdiv_neg a b : fdiv (fneg a) b = fneg (fdiv a b).
Proof.
  destruct a, b; cbn; try reflexivity.
  - destruct (Reqb_spec r0 0); [apply sinf_neg|]. cbn. apply f_equal. field. exact n.
  - apply f_equal. ring.
  - apply f_equal. ring.
  - destruct (Rltb_spec r 0); reflexivity.
  - destruct (Rltb_spec r 0); reflexivity.
Qed.

Lemma slope_distance_sym s1 e1 s2 e2 : slope_distance s1 e1 s2 e2 = slope_distance s2 e2 s1 e1.
Proof. unfold slope_distance. rewrite (fsub_swap s1 s2), fdiv_neg, fabs_neg. now rewrite (fadd_comm (fsqr e1)). Qed.
Lemma tail_distance_sym s1 e1 s2 e2 : tail_distance s1 e1 s2 e2 = tail_distance s2 e2 s1 e1.
Proof. unfold tail_distance. rewrite (fsub_swap s1 s2), fabs_neg. now rewrite (fadd_comm (fsqr e1)). Qed.

Lemma slope_distance_errs s1 e1 s2 e2 : slope_distance s1 e1 s2 e2 = slope_distance s1 e2 s2 e1.
Proof. unfold slope_distance. now rewrite (fadd_comm (fsqr e1)). Qed.
Lemma tail_distance_errs s1 e1 s2 e2 : tail_distance s1 e1 s2 e2 = tail_distance s1 e2 s2 e1.
Proof. unfold tail_distance. now rewrite (fadd_comm (fsqr e1)). Qed.

Lemma fabs_nonneg a : fabs a = NaN \/ fleb (Fin 0) (fabs a) = true.
Proof. destruct a; cbn; auto. right. destruct (Rleb_spec 0 (Rabs r)); auto. pose proof (Rabs_pos r). lra. Qed.
Lemma slope_distance_nonneg s1 e1 s2 e2 : slope_distance s1 e1 s2 e2 = NaN \/ fleb (Fin 0) (slope_distance s1 e1 s2 e2) = true.
Proof. apply fabs_nonneg. Qed.

Lemma errs_pos a b : 0 < a * a + b * b <-> (a <> 0 \/ b <> 0).
Proof.
  split.
  - intros H. destruct (Req_dec a 0) as [->|]; auto. destruct (Req_dec b 0) as [->|]; auto. exfalso. lra.
  - pose proof (Rle_0_sqr a). pose proof (Rle_0_sqr b). unfold Rsqr in *. intros [Z|Z]; apply Rsqr_pos_lt in Z; unfold Rsqr in Z; lra.
Qed.

(** Finite slopes and errors that are not both zero: the distance is the difference of
    the slopes over the combined error. *)
Lemma slope_distance_value s1 e1 s2 e2 : e1 <> 0 \/ e2 <> 0 ->
  slope_distance (Fin s1) (Fin e1) (Fin s2) (Fin e2) = Fin (Rabs (s1 - s2) / sqrt (e1 ^ 2 + e2 ^ 2)).
Proof.
  intros H. apply errs_pos in H. unfold slope_distance, fsub, fsqr. cbn [fneg fmul fadd fsqrt].
  destruct (Rltb_spec (e1 * e1 + e2 * e2) 0); [lra|]. pose proof (sqrt_lt_R0 _ H). unfold fdiv. destruct (Reqb_spec (sqrt (e1 * e1 + e2 * e2)) 0); [lra|]. cbn [fabs]. apply f_equal.
  unfold Rdiv. rewrite Rabs_mult, (Rabs_pos_eq (/ _)) by (left; now apply Rinv_0_lt_compat). replace (e1 ^ 2 + e2 ^ 2) with (e1 * e1 + e2 * e2) by ring. reflexivity.
Qed.
Lemma tail_distance_value s1 e1 s2 e2 : e1 <> 0 \/ e2 <> 0 ->
  tail_distance (Fin s1) (Fin e1) (Fin s2) (Fin e2) = Fin (Rabs (s1 - s2) / sqrt (e1 ^ 2 + e2 ^ 2)).
Proof.
  intros H. apply errs_pos in H. unfold tail_distance, fsub, fsqr. cbn [fneg fmul fadd fsqrt fabs].
  destruct (Rltb_spec (e1 * e1 + e2 * e2) 0); [lra|]. pose proof (sqrt_lt_R0 _ H). unfold fdiv. destruct (Reqb_spec (sqrt (e1 * e1 + e2 * e2)) 0); [lra|]. apply f_equal. replace (e1 ^ 2 + e2 ^ 2) with (e1 * e1 + e2 * e2) by ring. reflexivity.
Qed.

Lemma ratio_zero a e1 e2 : e1 <> 0 \/ e2 <> 0 -> Rabs a / sqrt (e1 ^ 2 + e2 ^ 2) = 0 <-> a = 0.
Proof.
  intros H. apply errs_pos in H. replace (e1 * e1 + e2 * e2) with (e1 ^ 2 + e2 ^ 2) in H by ring. pose proof (sqrt_lt_R0 _ H) as Q. split.
  - intros E. destruct (Req_dec a 0) as [|Z]; auto. apply Rabs_pos_lt in Z. exfalso. assert (0 < Rabs a / sqrt (e1 ^ 2 + e2 ^ 2)) by (now apply Rdiv_lt_0_compat). lra.
  - intros ->. rewrite Rabs_R0. unfold Rdiv. ring.
Qed.

Lemma slope_distance_zero s1 e1 s2 e2 : e1 <> 0 \/ e2 <> 0 ->
  (slope_distance (Fin s1) (Fin e1) (Fin s2) (Fin e2) = Fin 0 <-> s1 = s2).
Proof.
  intros H. rewrite slope_distance_value by auto. split.
  - intros E. assert (E' : Rabs (s1 - s2) / sqrt (e1 ^ 2 + e2 ^ 2) = 0) by (now inversion E). apply ratio_zero in E'; [lra|auto].
  - intros ->. apply f_equal. apply ratio_zero; auto. ring.
Qed.

(** Equal slopes without errors have no distance. *)
Lemma slope_distance_no_errors s : slope_distance (Fin s) (Fin 0) (Fin s) (Fin 0) = NaN.
Proof.
  unfold slope_distance, fsub, fsqr. cbn [fneg fmul fadd fsqrt]. destruct (Rltb_spec (0 * 0 + 0 * 0) 0); [lra|].
  replace (0 * 0 + 0 * 0) with 0 by ring. rewrite sqrt_0. unfold fdiv. destruct (Reqb_spec 0 0); [|contradiction]. unfold sinf.
  destruct (Rltb_spec 0 (s + - s)); [lra|]. destruct (Rltb_spec (s + - s) 0); [lra|reflexivity].
Qed.

(** Broadcast *)
Lemma map2_sym {A B} (d : A -> A -> B) (H : forall p q, d p q = d q p) : forall l1 l2, map2 d l1 l2 = map2 d l2 l1.
Proof. induction l1 as [|p l1 IH]; intros [|q l2]; cbn; try reflexivity. now rewrite H, IH. Qed.
Lemma slope_distances_sym f1 f2 : slope_distances f1 f2 = slope_distances f2 f1.
Proof.
  unfold slope_distances. cbv zeta.
  destruct f1 as [|p f1]; [destruct f2 as [|q [|q' f2]]; reflexivity|].
  destruct f1 as [|p' f1].
  - destruct f2 as [|q f2]; [reflexivity|]. destruct f2 as [|q' f2].
    + cbn [map]. now rewrite slope_distance_sym.
    + apply (f_equal Ok). apply map_ext. intros. apply slope_distance_sym.
  - destruct f2 as [|q f2]; [reflexivity|]. destruct f2 as [|q' f2].
    + apply (f_equal Ok). apply map_ext. intros. apply slope_distance_sym.
    + rewrite Nat.eqb_sym. destruct (Nat.eqb _ _); [|reflexivity]. apply (f_equal Ok). apply map2_sym. intros. apply slope_distance_sym.
Qed.
Lemma slope_distances_zero f : (forall p, In p f -> exists s e, p = (Fin s, Fin e) /\ e <> 0) ->
  slope_distances f f = Ok (map (fun _ => Fin 0) f).
Proof.
  intros H. unfold slope_distances. set (d := fun p q : fl * fl => slope_distance (fst p) (snd p) (fst q) (snd q)).
  assert (D : forall p, In p f -> d p p = Fin 0). { intros p Hp. destruct (H p Hp) as (s&e&->&E). apply slope_distance_zero; auto. }
  destruct f as [|p [|p' f]]; [reflexivity| |].
  - cbn. change (slope_distance _ _ _ _) with (d p p). rewrite D; [reflexivity|now left].
  - rewrite Nat.eqb_refl. apply (f_equal Ok). revert D. generalize (p :: p' :: f). intros l D. induction l as [|q l IH]; [reflexivity|]. cbn [map2 map]. rewrite D by now left. f_equal. apply IH. intros. apply D. now right.
Qed.

(** *** VCS *)
Lemma vcs_distance_sym f1 f2 : vcs_distance f1 f2 = vcs_distance f2 f1.
Proof.
  destruct f1 as [|p [|p' t1]], f2 as [|q [|q' t2]]; cbn [vcs_distance]; try reflexivity; rewrite (slope_distance_sym (fst p)); try reflexivity.
  now rewrite (slope_distance_sym (fst p')).
Qed.
Lemma fadd_0_r a : fadd a (Fin 0) = a.
Proof. destruct a; cbn; try reflexivity. apply f_equal. ring. Qed.
(** Both fits unbroken, or one of them: only the large-scale slopes count. *)
Lemma vcs_single p t1 q t2 : t1 = [] \/ t2 = [] -> slope_distance (fst p) (snd p) (fst q) (snd q) <> NaN ->
  vcs_distance (p :: t1) (q :: t2) = Ok (slope_distance (fst p) (snd p) (fst q) (snd q)).
Proof.
  intros H N. cbn [vcs_distance]. replace (match t1, t2 with [], _ | _, [] => _ | _, _ => _ end) with (@Ok fl (nansum [slope_distance (fst p) (snd p) (fst q) (snd q); NaN])).
  - unfold nansum, nonnan. cbn [filter is_nan negb]. apply (f_equal Ok). destruct (is_nan (slope_distance (fst p) (snd p) (fst q) (snd q))) eqn:E; [destruct (slope_distance _ _ _ _); try discriminate; contradiction|]. cbn. apply fadd_0_r.
  - destruct H as [-> | ->]; [reflexivity|]. now destruct t1.
Qed.
Lemma vcs_two p p' t1 q q' t2 : vcs_distance (p :: p' :: t1) (q :: q' :: t2) =
  Ok (nansum [slope_distance (fst p) (snd p) (fst q) (snd q); slope_distance (fst p') (snd p') (fst q') (snd q')]).
Proof. reflexivity. Qed.

(** A distance of zero although the fits are not the same: a NaN is dropped. *)
Lemma vcs_zero_refuted : exists f1 f2, vcs_distance f1 f2 = Ok (Fin 0) /\ (exists s1 s2, f1 = [s1] /\ f2 = [s2] /\ fst s1 <> fst s2).
Proof.
  exists [(Fin 1, NaN)], [(Fin 2, Fin 1)]. split; [reflexivity|]. exists (Fin 1, NaN), (Fin 2, Fin 1). repeat split. cbn. intros E. injection E. lra.
Qed.

(** *** Bispectrum *)
Lemma fsum_map2_sub_sym : forall b1 b2, map fsqr (map2 fsub b1 b2) = map fsqr (map2 fsub b2 b1).
Proof.
  induction b1 as [|a b1 IH]; intros [|b b2]; cbn [map map2]; try reflexivity. rewrite IH. f_equal. rewrite (fsub_swap a b). destruct (fsub a b); cbn; try reflexivity. unfold fsqr. cbn. apply f_equal. ring.
Qed.
Lemma bispec_sym sh1 sh2 b1 b2 : bispec_distance sh1 sh2 b1 b2 = bispec_distance sh2 sh1 b2 b1.
Proof.
  unfold bispec_distance, nnorm. rewrite (Nat.eqb_sym (fst sh1)), (Nat.eqb_sym (snd sh1)), fsum_map2_sub_sym, (fsub_swap (npmean b1)), fabs_neg. reflexivity.
Qed.
Definition rmeanl (l : list R) : R := lsum l / INR (length l).
Lemma npmean_Fin l : l <> [] -> npmean (map Fin l) = Fin (rmeanl l).
Proof.
  intros N. unfold npmean. rewrite fsum_Fin, map_length. unfold fdiv. destruct (Reqb_spec (INR (length l)) 0) as [Z|Z]; [|reflexivity].
  exfalso. destruct l; [contradiction|]. apply (not_INR (length (r :: l)) 0); [cbn; lia|exact Z].
Qed.
Lemma bispec_value sh b1 b2 : b1 <> [] -> b2 <> [] -> length b1 = length b2 ->
  bispec_distance sh sh (map Fin b1) (map Fin b2) =
  (Fin (sqrt (lsum (map2 (fun a b => (a - b) ^ 2) b1 b2))), Fin (Rabs (rmeanl b1 - rmeanl b2))).
Proof.
  intros N1 N2 L. unfold bispec_distance. rewrite !Nat.eqb_refl. cbn [andb]. rewrite !npmean_Fin by auto. f_equal.
  unfold nnorm. assert (E : map fsqr (map2 fsub (map Fin b1) (map Fin b2)) = map Fin (map2 (fun a b => (a - b) ^ 2) b1 b2)).
  { clear. revert b2. induction b1 as [|a b1 IH]; intros [|b b2]; cbn [map map2]; try reflexivity. rewrite IH. f_equal. cbn. unfold fsqr. cbn. apply f_equal. ring. }
  rewrite E, fsum_Fin. cbn [fsqrt]. destruct (Rltb_spec (lsum (map2 (fun a b => (a - b) ^ 2) b1 b2)) 0) as [Q|Q]; [|reflexivity].
  exfalso. assert (0 <= lsum (map2 (fun a b => (a - b) ^ 2) b1 b2)); [|lra]. apply lsum_nonneg. clear. revert b2. induction b1 as [|a b1 IH]; intros [|b b2]; cbn; try tauto. intros x [<-|H]; [pose proof (Rle_0_sqr (a - b)); unfold Rsqr in *; lra|eauto].
Qed.
Lemma bispec_zero sh b1 b2 : b1 <> [] -> length b1 = length b2 -> (bispec_distance sh sh (map Fin b1) (map Fin b2) = (Fin 0, Fin 0) <-> b1 = b2).
Proof.
  intros N1 L. assert (N2 : b2 <> []) by (intros ->; destruct b1; [contradiction|discriminate]). rewrite bispec_value by auto. split.
  - intros E. assert (E0 : sqrt (lsum (map2 (fun a b => (a - b) ^ 2) b1 b2)) = 0) by (now inversion E). clear E N1 N2.
    assert (P : forall b1 b2, 0 <= lsum (map2 (fun a b => (a - b) ^ 2) b1 b2)).
    { clear. intros b1 b2. apply lsum_nonneg. revert b2. induction b1 as [|a b1 IH]; intros [|b b2]; cbn; try tauto. intros x [<-|H]; [pose proof (Rle_0_sqr (a - b)); unfold Rsqr in *; lra|eauto]. }
    apply sqrt_eq_0 in E0; [|apply P]. revert b2 L E0. induction b1 as [|a b1 IH]; intros [|b b2] L E0; try discriminate; [reflexivity|].
    cbn [map2] in E0. rewrite lsum_cons in E0. pose proof (P b1 b2). pose proof (Rle_0_sqr (a - b)) as Q. unfold Rsqr in Q. replace ((a - b) * (a - b)) with ((a - b) ^ 2) in Q by ring.
    assert (Z : (a - b) ^ 2 = 0) by lra. f_equal; [|apply IH; [cbn in L; lia|lra]]. assert (Z' : a - b = 0); [|lra]. destruct (Req_dec (a - b) 0) as [|W]; auto. apply (pow_nonzero _ 2) in W. contradiction.
  - intros ->. f_equal; apply f_equal.
    + replace (lsum _) with 0; [apply sqrt_0|]. clear. induction b2 as [|b b2 IH]; [reflexivity|]. cbn [map2]. rewrite lsum_cons, <- IH. ring.
    + replace (rmeanl b2 - rmeanl b2) with 0 by ring. apply Rabs_R0.
Qed.
Lemma bispec_shape sh1 sh2 b1 b2 : sh1 <> sh2 -> fst (bispec_distance sh1 sh2 b1 b2) = NaN.
Proof. intros H. unfold bispec_distance. cbn [fst]. destruct (Nat.eqb_spec (fst sh1) (fst sh2)), (Nat.eqb_spec (snd sh1) (snd sh2)); cbn [andb]; try reflexivity. exfalso. apply H. destruct sh1, sh2; cbn in *; congruence. Qed.

(** *** Genus *)
Lemma genus_points_sym t1 t2 : genus_points t1 t2 = genus_points t2 t1.
Proof. unfold genus_points. now rewrite (Nat.add_comm (length t1)), Rmax_comm, Rmin_comm. Qed.
Lemma genus_sym interp t1 g1 n1 t2 g2 n2 : genus_distance interp 1 t1 g1 n1 t2 g2 n2 = genus_distance interp 1 t2 g2 n2 t1 g1 n1.
Proof.
  unfold genus_distance. rewrite (genus_points_sym t1). apply f_equal. apply lsum_map_ext. intros p _.
  assert (M : forall n l, map (fun g => g / (INR n / 1)) l = map (fun g : R => g / INR n) l). { intros n l. apply map_ext. intros. unfold Rdiv. now rewrite Rinv_1, Rmult_1_r. }
  rewrite (M n1 g1), (M n2 g2). ring.
Qed.
Definition const_interp : list R -> list R -> R -> R := fun _ v _ => hd 0 v.
Lemma genus_asym : exists interp scale t1 g1 n1 t2 g2 n2, 0 < scale /\
  genus_distance interp scale t1 g1 n1 t2 g2 n2 <> genus_distance interp (/ scale) t2 g2 n2 t1 g1 n1.
Proof.
  exists const_interp, 2, [0; 1], [2], 1%nat, [0; 1], [2], 1%nat. split; [lra|]. unfold genus_distance.
  assert (P : exists p q r s, genus_points [0; 1] [0; 1] = [p; q; r; s]) by (unfold genus_points; cbn; eauto). destruct P as (p&q&r&s&->).
  cbn [map lsum fold_right const_interp hd]. unfold const_interp. cbn [hd map].
  intros E. apply sqrt_inj in E.
  - cbn in E. field_simplify in E. lra.
  - cbn. nra.
  - cbn. nra.
Qed.

(** The same genus curve of the same sky area (pixels [scale] times as large on a side
    in the second map) is not at distance zero from itself. *)
Lemma genus_sky : exists interp scale t g n1 n2, 0 < scale /\ INR n1 = INR n2 * scale ^ 2 /\ genus_distance interp scale t g n1 t g n2 <> 0.
Proof.
  exists const_interp, 2, [0; 1], [2], 4%nat, 1%nat. split; [lra|]. split; [cbn; ring|]. unfold genus_distance.
  assert (P : exists p q r s, genus_points [0; 1] [0; 1] = [p; q; r; s]) by (unfold genus_points; cbn; eauto). destruct P as (p&q&r&s&->).
  cbn [map lsum fold_right const_interp hd]. unfold const_interp. cbn [hd map]. intros E. apply sqrt_eq_0 in E; cbn in *; [field_simplify in E; lra|nra].
Qed.
Lemma genus_same interp t g n : genus_distance interp 1 t g n t g n = 0.
Proof.
  unfold genus_distance. assert (M : forall l, map (fun g => g / (INR n / 1)) l = map (fun g : R => g / INR n) l). { intros l. apply map_ext. intros. unfold Rdiv. now rewrite Rinv_1, Rmult_1_r. }
  rewrite M. rewrite (lsum_map_ext _ (fun _ => 0)); [rewrite lsum_map_const, Rmult_0_r; apply sqrt_0|]. intros. ring.
Qed.

(** *** Brightest-pixel matrix: channels without signal *)
Lemma intensity_keeps : exists cube dv, Forall (Forall blankable) cube /\ above (Some 1) (fins (nth dv cube [])) = [] /\ (dv < length cube)%nat /\
  length (intensity_data cube 2 (Some 1) true) = length cube.
Proof.
  exists [[Fin 0; NaN]; [Fin 3; Fin 4]], 0%nat. split; [repeat constructor|]. split.
  - cbn. destruct (Rltb_spec 1 0); [lra|reflexivity].
  - split; [cbn; lia|]. unfold intensity_data. replace (nanmax (concat [[Fin 0; NaN]; [Fin 3; Fin 4]])) with (Fin 4).
    + cbn [feqb]. destruct (Reqb_spec 4 0); [lra|]. now rewrite map_length.
    + unfold nanmax. cbn. unfold fmax2. cbn. destruct (Rltb_spec 0 3); [|lra]. cbn. destruct (Rltb_spec 3 4); [reflexivity|lra].
Qed.

(** *** Covariance and constants per channel *)
Lemma rmean_shift c r : r <> [] -> rmean (map (Rplus c) r) = c + rmean r.
Proof.
  intros N. unfold rmean. rewrite map_length. rewrite lsum_map_plus, lsum_map_const, map_id. field. destruct r; [contradiction|]. apply (not_INR _ 0). cbn. lia.
Qed.
Lemma centred_shift c r : centred true (map (Rplus c) r) = centred true r.
Proof.
  destruct r as [|v r]; [reflexivity|]. unfold centred. rewrite rmean_shift by discriminate. rewrite map_map. apply map_ext. intros. ring.
Qed.
(** [cs] gives the constant of each channel. *)
Lemma cov_shift eps big cube n cs i j : channels_of n cube -> (2 <= n)%nat -> (i < length cube)%nat -> (j < length cube)%nat -> length cs = length cube ->
  at2 0 (var_cov_cube eps big (map (map Fin) (map2 (fun c ch => map (Rplus c) ch) cs cube)) true) i j =
  at2 0 (var_cov_cube eps big (map (map Fin) cube) true) i j.
Proof.
  intros C N Hi Hj L. assert (Ch : forall k, (k < length cube)%nat -> nth k (map2 (fun c ch => map (Rplus c) ch) cs cube) [] = map (Rplus (nth k cs 0)) (nth k cube [])).
  { intros k Hk. now rewrite (map2_nth (fun c ch => map (Rplus c) ch) cs cube k 0 [] []) by lia. }
  rewrite (cov_value eps big _ true n), (cov_value eps big cube true n); auto.
  - rewrite !Ch by auto. unfold covariance. rewrite !centred_shift, map_length. reflexivity.
  - intros c Hc. destruct (In_nth _ _ [] Hc) as (k&Hk&<-). rewrite map2_length in Hk. rewrite Ch by lia. rewrite map_length. apply C. apply nth_In. lia.
  - rewrite map2_length; lia.
  - rewrite map2_length; lia.
Qed.
