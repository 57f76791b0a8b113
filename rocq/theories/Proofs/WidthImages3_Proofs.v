From Coq Require Import String Reals List Bool Arith ZArith Lia Lra Permutation.
From Verif Require Import Lib.PyBase Lib.Arr Lib.Fl Lib.RSum Model.StatsUtils Model.PcaFit Model.Psds Model.WidthMethods Model.WidthImages Spec.WidthImages
  Proofs.WidthImages_Proofs Proofs.WidthImages2_Proofs.
Import ListNotations.
Local Open Scope R_scope.

(** ** Counting pixels by their offsets from the centre *)
Definition inside (n0 n1 : nat) (ab : Z * Z) : Prop :=
  (0 <= Z.of_nat (n0 / 2) + fst ab < Z.of_nat n0 /\ 0 <= Z.of_nat (n1 / 2) + snd ab < Z.of_nat n1)%Z.
Definition off (n : nat) (a : Z) : nat := Z.to_nat (Z.of_nat (n / 2) + a).
Lemma off_pos n a : (0 <= Z.of_nat (n / 2) + a)%Z -> INR (off n a) - INR (n / 2) = IZR a.
Proof. intro H. unfold off. rewrite INR_IZR_INZ, Z2Nat.id by exact H. rewrite plus_IZR, INR_IZR_INZ. ring. Qed.
Lemma count_ge im P l : NoDup l -> (forall ab, In ab l -> inside (i_n0 im) (i_n1 im) ab /\ P (i_val im (off (i_n0 im) (fst ab)) (off (i_n1 im) (snd ab))) = true) ->
  (length l <= count P (pixels im))%nat.
Proof.
  intros N H. set (px := fun ab : Z * Z => (IZR (fst ab), IZR (snd ab), i_val im (off (i_n0 im) (fst ab)) (off (i_n1 im) (snd ab))) : pixel).
  rewrite <- (map_length px l). unfold count. apply NoDup_incl_length.
  - apply FinFun.Injective_map_NoDup; [|exact N]. intros [a b] [a' b'] E. unfold px in E. cbn [fst snd] in E. injection E as E1 E2 _. apply eq_IZR in E1. apply eq_IZR in E2. now subst.
  - intros q Hq. apply in_map_iff in Hq. destruct Hq as (ab & <- & Hab). destruct (H ab Hab) as [[I1 I2] Hp]. apply filter_In. split; [|exact Hp]. apply pixels_in.
    exists (off (i_n0 im) (fst ab)), (off (i_n1 im) (snd ab)). unfold px. rewrite !off_pos by lia. unfold off. repeat split; lia.
Qed.
(** A decision for lists without repetitions *)
Definition nodupb (l : list (Z * Z)) : bool := (fix go l := match l with [] => true | h :: t => negb (existsb (fun x => Z.eqb (fst x) (fst h) && Z.eqb (snd x) (snd h)) t) && go t end) l.
Lemma nodupb_ok l : nodupb l = true -> NoDup l.
Proof.
  induction l as [|h t IH]; intro H; [constructor|]. cbn in H. apply andb_true_iff in H. destruct H as [A B]. constructor; [|apply IH, B]. intro I. apply negb_true_iff in A.
  assert (T : existsb (fun x => Z.eqb (fst x) (fst h) && Z.eqb (snd x) (snd h)) t = true) by (apply existsb_exists; exists h; split; [exact I|now rewrite !Z.eqb_refl]). congruence.
Qed.
Definition insideb (n0 n1 : nat) (ab : Z * Z) : bool :=
  (Z.leb 0 (Z.of_nat (n0 / 2) + fst ab) && Z.ltb (Z.of_nat (n0 / 2) + fst ab) (Z.of_nat n0) && Z.leb 0 (Z.of_nat (n1 / 2) + snd ab) && Z.ltb (Z.of_nat (n1 / 2) + snd ab) (Z.of_nat n1))%bool.
Lemma insideb_ok n0 n1 ab : insideb n0 n1 ab = true -> inside n0 n1 ab.
Proof. unfold insideb, inside. rewrite !andb_true_iff, !Z.leb_le, !Z.ltb_lt. tauto. Qed.

(** ** Circular Gaussians *)
Definition sq (ab : Z * Z) : Z := (fst ab * fst ab + snd ab * snd ab)%Z.
Lemma circular_form g x y : circular g -> form g x y = (x ^ 2 + y ^ 2) / (2 * g_x g ^ 2).
Proof.
  intros [E P]. unfold form. rewrite <- E. pose proof (cs2 (g_theta g)) as C. set (s := sin (g_theta g)) in *. set (c := cos (g_theta g)) in *.
  replace ((x * c + y * s) ^ 2) with (x ^ 2 * c ^ 2 + 2 * x * y * c * s + y ^ 2 * s ^ 2) by ring. replace ((y * c - x * s) ^ 2) with (y ^ 2 * c ^ 2 - 2 * x * y * c * s + x ^ 2 * s ^ 2) by ring. rewrite C. field. exact P.
Qed.
Lemma circular_proper g : circular g -> proper g.
Proof. intros [E P]. split; [exact P|now rewrite <- E]. Qed.
Definition level (A : R) (g : gauss2) (q : Z) : R := A * exp (- (IZR q / (2 * g_x g ^ 2))).
Lemma circular_val n A g ab : circular g -> g_const g = 0 -> inside n n ab -> i_val (gauss_image n n A g no_noise) (off n (fst ab)) (off n (snd ab)) = level A g (sq ab).
Proof.
  intros C Z [I1 I2]. cbn [i_val gauss_image]. rewrite !off_pos by lia. unfold gaussian, level, no_noise. rewrite Z, (circular_form g _ _ C). unfold sq. rewrite plus_IZR, !mult_IZR, !Rplus_0_r. do 4 f_equal. ring.
Qed.
Lemma level_lt A g p q : 0 < A -> circular g -> (p < q)%Z -> level A g q < level A g p.
Proof.
  intros HA [_ P] H. unfold level. apply Rmult_lt_compat_l; [exact HA|]. apply exp_increasing. assert (0 < g_x g ^ 2) by (rewrite <- Rsqr_pow2; now apply Rsqr_pos_lt). apply Ropp_lt_contravar. unfold Rdiv. apply Rmult_lt_compat_r; [apply Rinv_0_lt_compat; lra|now apply IZR_lt].
Qed.
(** Three lists of offsets: farther than, at and nearer than the root of q *)
Definition fits (n : nat) (q : Z) (far same near : list (Z * Z)) : bool :=
  nodupb far && nodupb same && nodupb near && forallb (insideb n n) (far ++ same ++ near) &&
  forallb (fun ab => Z.ltb q (sq ab)) far && forallb (fun ab => Z.eqb (sq ab) q) same && forallb (fun ab => Z.ltb (sq ab) q) near &&
  Nat.leb (n * n / 100) (length far) && Nat.leb (2 * (n * n / 100)) (length same) && Nat.leb (n * n / 100) (length near).
Definition same65 : list (Z * Z) := flat_map (fun ab : Z * Z => let (a, b) := ab in [(a, b); (a, - b); (- a, b); (- a, - b)]%Z) [(1, 8); (8, 1); (4, 7); (7, 4)]%Z.
Definition same5 : list (Z * Z) := flat_map (fun ab : Z * Z => let (a, b) := ab in [(a, b); (a, - b); (- a, b); (- a, - b)]%Z) [(1, 2); (2, 1)]%Z.
Definition near9 : list (Z * Z) := [(0, 0); (0, 1); (0, -1); (1, 0); (-1, 0); (1, 1); (1, -1); (-1, 1); (-1, -1)]%Z.
Definition far_ (n : nat) : list (Z * Z) := map (fun k => (- Z.of_nat (n / 2), - Z.of_nat (n / 2) + Z.of_nat k)%Z) (seq 0 (n * n / 100)).
Lemma all_fit : forallb (fun n => fits n 5 (far_ n) same5 near9) (seq 15 2) = true /\ forallb (fun n => fits n 65 (far_ n) same65 near9) (seq 17 13) = true.
Proof. split; vm_compute; reflexivity. Qed.
Lemma fits_counts n A g q far same near : 0 < A -> circular g -> g_const g = 0 -> fits n q far same near = true ->
  let px := pixels (gauss_image n n A g no_noise) in let v := level A g q in let dz := (n * n / 100)%nat in
  (dz <= count (fun x => Rltb x v) px)%nat /\ (2 * dz <= count (fun x => Reqb x v) px)%nat /\ (dz <= count (Rltb v) px)%nat.
Proof.
  intros HA C Z H px v dz. unfold fits in H. rewrite !andb_true_iff in H. destruct H as (((((((((H1 & H2) & H3) & H4) & H5) & H6) & H7) & H8) & H9) & H10). rewrite forallb_forall in H4, H5, H6, H7. apply Nat.leb_le in H8, H9, H10.
  assert (I : forall ab, In ab (far ++ same ++ near) -> inside n n ab) by (intros ab Hab; apply insideb_ok, H4, Hab).
  split; [|split].
  - apply Nat.le_trans with (length far); [exact H8|]. apply count_ge; [now apply nodupb_ok|]. intros ab Hab. assert (Q : inside n n ab) by (apply I, in_or_app; now left). split; [exact Q|]. cbn [i_n0 i_n1 gauss_image]. fold (gauss_image n n A g no_noise). rewrite circular_val by assumption.
    specialize (H5 ab Hab). apply Z.ltb_lt in H5. pose proof (level_lt A g _ _ HA C H5). unfold v. destruct (Rltb_spec (level A g (sq ab)) (level A g q)); [reflexivity|lra].
  - apply Nat.le_trans with (length same); [exact H9|]. apply count_ge; [now apply nodupb_ok|]. intros ab Hab. assert (Q : inside n n ab) by (apply I, in_or_app; right; apply in_or_app; now left). split; [exact Q|]. cbn [i_n0 i_n1 gauss_image]. fold (gauss_image n n A g no_noise). rewrite circular_val by assumption.
    specialize (H6 ab Hab). apply Z.eqb_eq in H6. unfold v. rewrite H6. destruct (Reqb_spec (level A g q) (level A g q)); [reflexivity|contradiction].
  - apply Nat.le_trans with (length near); [exact H10|]. apply count_ge; [now apply nodupb_ok|]. intros ab Hab. assert (Q : inside n n ab) by (apply I, in_or_app; right; apply in_or_app; now right). split; [exact Q|]. cbn [i_n0 i_n1 gauss_image]. fold (gauss_image n n A g no_noise). rewrite circular_val by assumption.
    specialize (H7 ab Hab). apply Z.ltb_lt in H7. pose proof (level_lt A g _ _ HA C H7). unfold v. destruct (Rltb_spec (level A g q) (level A g (sq ab))); [reflexivity|lra].
Qed.

Section Fit.
Variable fit2 : R -> list pixel -> gauss2 * option (R * R).
Variable spline : list R -> list R -> list R -> result (R -> R).
Variable contours : list pixel -> list (bool * list Ellipse.point).
Variable eig : Mat3.m3 -> list Mat3.v3.
Variable leastsq : Ellipse.ellipse -> Ellipse.point -> R.
Variable alpha : R.
Variable draws : list Ellipse.draw.
Notation axis := (axis_widths fit2 spline contours eig leastsq alpha draws).
Notation axes := (all_axis_widths fit2 spline contours eig leastsq alpha draws).
Notation width := (width_2D fit2 spline contours eig leastsq alpha draws).

Lemma circular_refused method n A g noise b fwhm cdelt images : fitpack spline -> method = "interpolate"%string \/ method = "xinterpolate"%string ->
  (1 <= n < 30)%nat -> 0 < A -> circular g -> g_const g = 0 -> width method noise b fwhm cdelt (gauss_image n n A g noise :: images) = Err ValueError.
Proof.
  intros F M L HA C Z. destruct (Nat.lt_ge_cases n 15) as [S|S]; [apply small_images; try assumption; cbn; nia|].
  assert (K : exists q far same near, fits n q far same near = true).
  { destruct (Nat.lt_ge_cases n 17) as [Q|Q]; [exists 5%Z, (far_ n), same5, near9; apply (proj1 (forallb_forall _ _) (proj1 all_fit)); apply in_seq; lia|exists 65%Z, (far_ n), same65, near9; apply (proj1 (forallb_forall _ _) (proj2 all_fit)); apply in_seq; lia]. }
  destruct K as (q & far & same & near & K). pose proof (fits_counts n A g q far same near HA C Z K) as W. cbv zeta in W. pose proof (gauss_top n n A g ltac:(lia) ltac:(lia) HA (circular_proper g C)) as T. fold no_noise in T.
  destruct W as (W1 & W2 & W3). apply (tied_images fit2 spline contours eig leastsq alpha draws method noise b fwhm cdelt _ images (level A g q)); try assumption; rewrite minus_gauss; fold no_noise; try assumption. rewrite T, Z. lra.
Qed.

(** ** Both interpolations agree for circular Gaussians *)
Lemma circle_back g : proper g -> ka g = kc g -> kb g = 0 -> g_x g ^ 2 = g_y g ^ 2.
Proof.
  intros P A B. pose proof (coef_det g P) as D. pose proof (coef_tr g P) as T. rewrite <- A, B in D, T. rewrite D in T. destruct P as [P Q].
  assert (X : 0 < g_x g ^ 2) by (rewrite <- Rsqr_pow2; now apply Rsqr_pos_lt). assert (Y : 0 < g_y g ^ 2) by (rewrite <- Rsqr_pow2; now apply Rsqr_pos_lt). set (a := g_x g ^ 2) in *. set (b := g_y g ^ 2) in *.
  assert (D' : 4 * ka g ^ 2 * (a * b) = 1). { replace (4 * ka g ^ 2) with (/ (a * b)) by (rewrite <- D; ring). apply Rinv_l. apply Rgt_not_eq, Rmult_lt_0_compat; assumption. }
  assert (T' : 4 * ka g * (a * b) = a + b). { replace (4 * ka g) with (2 * (ka g + ka g)) by ring. rewrite T. field. split; apply Rgt_not_eq; assumption. }
  assert (E : (a + b) ^ 2 = 4 * (a * b)). { rewrite <- T'. transitivity (4 * (a * b) * (4 * ka g ^ 2 * (a * b))); [ring|rewrite D'; ring]. } assert ((a - b) ^ 2 = 0) by (replace ((a - b) ^ 2) with ((a + b) ^ 2 - 4 * (a * b)) by ring; rewrite E; ring). nra.
Qed.
Lemma rmat_circular h x y : proper h -> g_x h ^ 2 = g_y h ^ 2 -> rmat_fit h x y = rmat x y.
Proof.
  intros [P Q] E. unfold rmat_fit, rmat. f_equal. assert (A : (g_y h / g_x h) ^ 2 = 1). { unfold Rdiv. rewrite Rpow_mult_distr, <- E, <- Rpow_mult_distr, Rinv_r by exact P. ring. } rewrite A.
  pose proof (cs2 (g_theta h)) as C. set (s := sin (g_theta h)) in *. set (c := cos (g_theta h)) in *.
  transitivity ((x ^ 2 + y ^ 2) * c ^ 2 + (x ^ 2 + y ^ 2) * s ^ 2); [ring|rewrite C; ring].
Qed.
Lemma circular_coef g : circular g -> ka g = kc g /\ kb g = 0.
Proof. intros [E P]. unfold ka, kb, kc. rewrite <- E. split; ring. Qed.
Lemma circular_same n0 n1 noise b fwhm cdelt l : (2 <= n0)%nat -> (2 <= n1)%nat ->
  (forall A g, In (A, g) l -> 0 < A /\ circular g /\ g_const g = 0 /\ best fit2 A (pixels (gauss_image n0 n1 A g no_noise))) ->
  width "xinterpolate" noise b fwhm cdelt (map (fun Ag => gauss_image n0 n1 (fst Ag) (snd Ag) noise) l) = width "interpolate" noise b fwhm cdelt (map (fun Ag => gauss_image n0 n1 (fst Ag) (snd Ag) noise) l).
Proof.
  intros H0 H1 H. unfold width_2D. cbn [existsb String.eqb Ascii.eqb Bool.eqb orb negb]. destruct (map _ l) as [|im ims] eqn:El; [reflexivity|]. rewrite <- El. clear El im ims. f_equal.
  induction l as [|[A g] l IH]; [reflexivity|]. cbn [map all_axis_widths fst snd]. rewrite IH by (intros A' g' Hg; apply H; now right). f_equal. destruct (H A g (or_introl eq_refl)) as (HA & C & Z & B).
  rewrite minus_gauss. fold no_noise. unfold axis_widths. cbn [String.eqb Ascii.eqb Bool.eqb]. f_equal.
  pose proof (best_same fit2 n0 n1 A g H0 H1 HA (circular_proper g C) Z B) as K. cbv zeta in K. fold no_noise in K. destruct K as (Q & _ & Ka & Kb & Kc). destruct (circular_coef g C) as [C1 C2].
  pose proof (gauss_top n0 n1 A g ltac:(lia) ltac:(lia) HA (circular_proper g C)) as T. fold no_noise in T. unfold fit_2D_gaussian. rewrite T, Z, Rplus_0_r.
  set (h := fst (fit2 A (pixels (gauss_image n0 n1 A g no_noise)))) in *. assert (E : g_x h ^ 2 = g_y h ^ 2) by (apply circle_back; [exact Q|congruence|congruence]).
  unfold spline_width. rewrite T. rewrite (map_ext _ (fun p : pixel => (snd p / (A + g_const g), rmat (fst (fst p)) (snd (fst p))))); [reflexivity|]. intro p. now rewrite (rmat_circular h _ _ Q E).
Qed.

(** ** Brightness *)
Lemma map_flat {A B C} (f : B -> C) (g : A -> list B) l : map f (flat_map g l) = flat_map (fun i => map f (g i)) l.
Proof. induction l as [|a l IH]; [reflexivity|]. cbn [flat_map]. now rewrite map_app, IH. Qed.
Lemma scaled_pixels c im noise : pixels (minus_noise (fun i j => c * noise i j) (scaled c im)) = map (fun p : pixel => (fst p, c * snd p)) (pixels (minus_noise noise im)).
Proof.
  unfold pixels. cbn [minus_noise scaled i_n0 i_n1 i_val]. rewrite map_flat. apply flat_map_ext. intro i. rewrite map_map. apply map_ext. intro j. cbn [fst snd]. f_equal. ring.
Qed.
Lemma normal_scaled c px : 0 < c -> let q := map (fun p : pixel => (fst p, c * snd p)) px in amax (map snd px) <> 0 ->
  map (fun p : pixel => (fst p, snd p / amax (map snd q))) q = map (fun p : pixel => (fst p, snd p / amax (map snd px))) px.
Proof.
  intros C q N. assert (T : amax (map snd q) = c * amax (map snd px)). { rewrite <- amax_scale by exact C. unfold q. now rewrite !map_map. }
  rewrite T. unfold q. rewrite map_map. apply map_ext. intro p. cbn [fst snd]. f_equal. field. split; [exact N|lra].
Qed.
Lemma brightness method c noise b fwhm cdelt images : 0 < c -> method = "interpolate"%string \/ method = "contour"%string -> (forall im, In im images -> amax (map snd (pixels (minus_noise noise im))) <> 0) ->
  width method (fun i j => c * noise i j) b fwhm cdelt (map (scaled c) images) = width method noise b fwhm cdelt images.
Proof.
  intros C M H. assert (E : axes method (map (fun im => pixels (minus_noise (fun i j => c * noise i j) im)) (map (scaled c) images)) = axes method (map (fun im => pixels (minus_noise noise im)) images)).
  { induction images as [|im ims IH]; [reflexivity|]. cbn [map all_axis_widths]. rewrite IH by (intros i Hi; apply H; now right). f_equal. rewrite scaled_pixels. pose proof (normal_scaled c (pixels (minus_noise noise im)) C) as K. cbv zeta in K. specialize (K (H im (or_introl eq_refl))).
    set (px := pixels (minus_noise noise im)) in *. set (q := map (fun p : pixel => (fst p, c * snd p)) px) in *. unfold axis_widths. destruct M as [-> | ->]; cbn [String.eqb Ascii.eqb Bool.eqb].
    - f_equal. unfold spline_width. pose proof (f_equal (map (fun p : pixel => (snd p, rmat (fst (fst p)) (snd (fst p))))) K) as K'. rewrite !map_map in K'. cbn [fst snd] in K'. rewrite K'. reflexivity.
    - now rewrite K. }
  unfold width_2D. destruct images as [|im ims]; [reflexivity|]. cbn [map] in E |- *. destruct (negb _); [reflexivity|]. now rewrite E.
Qed.
End Fit.

(** ** Constants and ellipses *)
Lemma pow4_convex u v A c : 0 < A -> 0 < c -> 0 < v < 1 -> (A + c) * u = A * v + c -> (A + c) * u ^ 4 = A * v ^ 4 + c -> False.
Proof.
  intros HA Hc Hv E1 E2. assert (Hu : v < u < 1) by nra. assert (D1 : A * (u - v) = c * (1 - u)) by lra. assert (D4 : A * (u ^ 4 - v ^ 4) = c * (1 - u ^ 4)) by lra.
  assert (X : A * (u - v) * ((u + v) * (u ^ 2 + v ^ 2)) = c * (1 - u) * ((1 + u) * (1 + u ^ 2))) by (transitivity (A * (u ^ 4 - v ^ 4)); [ring|rewrite D4; ring]). rewrite D1 in X.
  assert (P : 0 < c * (1 - u)) by (apply Rmult_lt_0_compat; lra). apply Rmult_eq_reg_l in X; [|lra]. assert (u ^ 2 + v ^ 2 < 1 + u ^ 2) by nra. assert (0 < u ^ 2 + v ^ 2) by nra.
  assert ((u + v) * (u ^ 2 + v ^ 2) < (1 + u) * (1 + u ^ 2)); [|lra]. apply Rmult_gt_0_lt_compat; lra.
Qed.
Lemma pedestal n0 n1 A g h : (4 <= n0)%nat -> (4 <= n1)%nat -> 0 < A -> proper g -> 0 < g_const g -> proper h ->
  let px := pixels (gauss_image n0 n1 A g no_noise) in 0 < cost (amax (map snd px)) px h.
Proof.
  intros H0 H1 HA P K Q px. pose proof (gauss_top n0 n1 A g ltac:(lia) ltac:(lia) HA P) as T. fold no_noise in T. fold px in T. rewrite T. destruct (Rlt_le_dec 0 (cost (A + g_const g) px h)) as [L|L]; [exact L|exfalso].
  pose proof (proj1 (cost_zero _ _ _) L) as E. clear L.
  assert (N0 : (2 <= n0 / 2 < n0)%nat) by (split; [apply Nat.div_le_lower_bound; lia|apply Nat.div_lt; lia]).
  assert (N1 : (2 <= n1 / 2 < n1)%nat) by (split; [apply Nat.div_le_lower_bound; lia|apply Nat.div_lt; lia]).
  assert (V : forall i, (i <= 2)%nat -> gaussian A g (- INR i) 0 + g_const g = gaussian (A + g_const g) h (- INR i) 0 + g_const h).
  { intros i Hi. specialize (E (INR (n0 / 2 - i) - INR (n0 / 2), INR (n1 / 2) - INR (n1 / 2), i_val (gauss_image n0 n1 A g no_noise) (n0 / 2 - i) (n1 / 2))). cbn [fst snd i_val gauss_image] in E. rewrite minus_INR in E by lia.
    replace (INR (n0 / 2) - INR i - INR (n0 / 2)) with (- INR i) in E by ring. replace (INR (n1 / 2) - INR (n1 / 2)) with 0 in E by ring. unfold no_noise in E. rewrite <- E; [ring|].
    unfold px. apply pixels_in. exists (n0 / 2 - i)%nat, (n1 / 2)%nat. cbn [i_n0 i_n1 gauss_image i_val]. rewrite minus_INR by lia. split; [lia|]. split; [lia|]. replace (INR (n0 / 2) - INR i - INR (n0 / 2)) with (- INR i) by ring. replace (INR (n1 / 2) - INR (n1 / 2)) with 0 by ring. reflexivity. }
  pose proof (V 0%nat ltac:(lia)) as V0. cbn [INR] in V0. rewrite Ropp_0, !gaussian_0 in V0. assert (Kh : g_const h = 0) by lra.
  pose proof (V 1%nat ltac:(lia)) as V1. pose proof (V 2%nat ltac:(lia)) as V2. rewrite Kh, Rplus_0_r in V1, V2. cbn [INR] in V1, V2. unfold gaussian in V1, V2. rewrite !form_coef in V1, V2 by assumption.
  assert (EX : forall x, exp (4 * x) = exp x ^ 4). { intro x. replace (4 * x) with (x + x + (x + x)) by ring. rewrite !exp_plus. ring. }
  replace (ka g * (- (1 + 1)) ^ 2 + kb g * (- (1 + 1) * 0) + kc g * 0 ^ 2) with (4 * ka g) in V2 by ring. replace (ka h * (- (1 + 1)) ^ 2 + kb h * (- (1 + 1) * 0) + kc h * 0 ^ 2) with (4 * ka h) in V2 by ring.
  replace (ka g * (- (1)) ^ 2 + kb g * (- (1) * 0) + kc g * 0 ^ 2) with (ka g) in V1 by ring. replace (ka h * (- (1)) ^ 2 + kb h * (- (1) * 0) + kc h * 0 ^ 2) with (ka h) in V1 by ring.
  replace (- (4 * ka g)) with (4 * - ka g) in V2 by ring. replace (- (4 * ka h)) with (4 * - ka h) in V2 by ring. rewrite !EX in V2.
  assert (Kp : 0 < ka g). { pose proof (coef_det g P) as D. destruct P as [P1 P2]. assert (0 < g_x g ^ 2) by (rewrite <- Rsqr_pow2; now apply Rsqr_pos_lt). assert (0 < g_y g ^ 2) by (rewrite <- Rsqr_pow2; now apply Rsqr_pos_lt). assert (0 < / (g_x g ^ 2 * g_y g ^ 2)) by (apply Rinv_0_lt_compat, Rmult_lt_0_compat; assumption).
    assert (0 <= ka g). { unfold ka. apply Rplus_le_le_0_compat; apply Rmult_le_pos; try apply pow2_ge_0; left; apply Rinv_0_lt_compat; lra. } destruct (Rle_lt_or_eq_dec 0 (ka g)) as [L|L]; [assumption|exact L|]. exfalso. rewrite <- L in D. pose proof (pow2_ge_0 (kb g)). lra. }
  apply (pow4_convex (exp (- ka h)) (exp (- ka g)) A (g_const g)); try assumption; try (symmetry; assumption). split; [apply exp_pos|]. rewrite <- exp_0. apply exp_increasing. lra.
Qed.

(** Two points at which the Gaussian has fallen to 1/e, on its two axes *)
Lemma radius_wrong g : 0 < g_x g -> 0 < g_y g -> g_x g <> g_y g ->
  let t := g_theta g in let a := g_x g * sqrt 2 in let b := g_y g * sqrt 2 in
  gaussian 1 g (a * cos t) (a * sin t) = exp (-1) /\ gaussian 1 g (- b * sin t) (b * cos t) = exp (-1) /\
  rmat_fit g (a * cos t) (a * sin t) = g_x g * sqrt 2 /\ rmat_fit g (- b * sin t) (b * cos t) = g_y g ^ 2 / g_x g * sqrt 2 /\ g_y g ^ 2 / g_x g * sqrt 2 <> g_x g * sqrt 2.
Proof.
  intros X Y N t a b. pose proof (cs2 t) as C. set (s := sin t) in *. set (c := cos t) in *. assert (R2 : sqrt 2 * sqrt 2 = 2) by (apply sqrt_sqrt; lra). assert (S2 : 0 < sqrt 2) by (apply sqrt_lt_R0; lra).
  assert (I1 : a * c * c + a * s * s = a) by (transitivity (a * (c ^ 2 + s ^ 2)); [ring|rewrite C; ring]). assert (I2 : a * s * c - a * c * s = 0) by ring.
  assert (I3 : - b * s * c + b * c * s = 0) by ring. assert (I4 : b * c * c - - b * s * s = b) by (transitivity (b * (c ^ 2 + s ^ 2)); [ring|rewrite C; ring]).
  assert (A2 : a ^ 2 = 2 * g_x g ^ 2) by (unfold a; transitivity (g_x g ^ 2 * (sqrt 2 * sqrt 2)); [ring|rewrite R2; ring]). assert (B2 : b ^ 2 = 2 * g_y g ^ 2) by (unfold b; transitivity (g_y g ^ 2 * (sqrt 2 * sqrt 2)); [ring|rewrite R2; ring]).
  assert (X2 : 0 < g_x g ^ 2) by (apply pow_lt; exact X). assert (Y2 : 0 < g_y g ^ 2) by (apply pow_lt; exact Y).
  split; [|split; [|split; [|split]]].
  - unfold gaussian, form. fold t. fold s c. rewrite I1, I2, A2. rewrite Rmult_1_l. f_equal. field. split; lra.
  - unfold gaussian, form. fold t. fold s c. rewrite I3, I4, B2. rewrite Rmult_1_l. f_equal. field. split; lra.
  - unfold rmat_fit. fold t. fold s c. replace (- (a * c) * s + a * s * c) with 0 by ring. rewrite I1. replace (a ^ 2 + 0 ^ 2 * (g_y g / g_x g) ^ 2) with (a ^ 2) by ring. rewrite sqrt_pow2; [reflexivity|]. unfold a. left. apply Rmult_lt_0_compat; assumption.
  - unfold rmat_fit. fold t. fold s c. rewrite I3. replace (- (- b * s) * s + b * c * c) with b by (rewrite <- I4 at 1; ring). replace (0 ^ 2 + b ^ 2 * (g_y g / g_x g) ^ 2) with ((b * (g_y g / g_x g)) ^ 2) by ring. rewrite sqrt_pow2; [unfold b; field; lra|]. left. apply Rmult_lt_0_compat; [unfold b; apply Rmult_lt_0_compat; assumption|unfold Rdiv; apply Rmult_lt_0_compat; [exact Y|now apply Rinv_0_lt_compat]].
  - intro E. apply Rmult_eq_reg_r in E; [|lra]. assert (E' : g_y g ^ 2 = g_x g ^ 2). { apply (Rmult_eq_reg_r (/ g_x g)); [|apply Rinv_neq_0_compat; lra]. unfold Rdiv in E. rewrite E. field. lra. } apply N. nra.
Qed.

(** ** Cases *)
Definition always (g : gauss2) : R -> list pixel -> gauss2 * option (R * R) := fun _ _ => (g, None).
Lemma always_best n0 n1 A g : proper g -> g_const g = 0 -> best (always g) A (pixels (gauss_image n0 n1 A g no_noise)).
Proof.
  intros P Z. split; [exact P|]. intros h _. cbn [always fst]. apply Rle_trans with 0; [|apply cost_pos]. apply cost_zero. intros p Hp. apply pixels_in in Hp. destruct Hp as (i & j & _ & _ & ->). cbn. unfold no_noise. ring.
Qed.
Fixpoint increasingb (l : list R) : bool := match l with [] => true | a :: t => match t with [] => true | b :: _ => Rltb a b && increasingb t end end.
Lemma increasingb_ok l : increasingb l = true -> increasing l.
Proof.
  induction l as [|a l IH]; intro H; [exact I|]. destruct l as [|b l]; [exact I|]. change (Rltb a b && increasingb (b :: l) = true)%bool in H. apply andb_true_iff in H. destruct H as [H1 H2]. split; [|apply IH, H2]. destruct (Rltb_spec a b); [assumption|discriminate].
Qed.
Definition spline0 (x y t : list R) : result (R -> R) := if Nat.leb (length t + 4) (length x) && increasingb t then Ok (fun _ => 0) else Err ValueError.
Lemma spline0_fitpack : fitpack spline0.
Proof.
  intros x y t H. unfold spline0. destruct (Nat.leb_spec (length t + 4) (length x)); [|reflexivity]. destruct (increasingb t) eqn:E; [|reflexivity]. apply increasingb_ok in E. destruct H as [H|H]; [lia|contradiction].
Qed.
Lemma ellipse_case : proper (mk_g 2 3 1 0) /\ circular (mk_g 2 2 1 0).
Proof. unfold proper, circular. cbn. repeat split; lra. Qed.
