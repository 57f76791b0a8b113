From Coq Require Import String Reals List Bool Arith Lia Lra.
From Verif Require Import Lib.PyBase Lib.RSum Lib.Fl Model.MomentErrs Spec.MomentSpec Proofs.FlAlg_Proofs Proofs.MomentErrs_Proofs.
Import ListNotations.
Local Open Scope string_scope.
Local Open Scope R_scope.

Lemma nn_same x : not_negative x <-> fnonneg x.
Proof. now destruct x. Qed.
Lemma nan_to_num_mul k x : no_inf x -> nan_to_num (fmul (Fin k) x) = fmul (Fin k) (nan_to_num x).
Proof. intros [A B]. destruct x; simpl; try reflexivity; try congruence. apply (f_equal Fin). ring. Qed.
Lemma view_ind {A} axis (a : arr3 A) i p q : exists x y z, view axis a i p q = a x y z.
Proof. destruct axis as [| [| ax]]; simpl; eauto. Qed.
Lemma noise_scaled k scale axis i p q : settled scale -> noise_view (scaled k scale) axis i p q = fmul (Fin k) (noise_view scale axis i p q).
Proof.
  destruct scale as [s | sh a]; intro S; [reflexivity |]. unfold noise_view, scaled.
  assert (E : view axis (fun i j k' => fmul (Fin k) (a i j k')) i p q = fmul (Fin k) (view axis a i p q)) by (destruct axis as [| [| ax]]; reflexivity).
  rewrite E. apply nan_to_num_mul. destruct (view_ind axis a i p q) as (x & y & z & ->). apply S.
Qed.
Lemma swap k x n : fmul x (fmul (Fin k) n) = fmul (Fin k) (fmul x n).
Proof. rewrite !fmul_assoc. now rewrite (fmul_comm x (Fin k)). Qed.
Lemma sq_scaled k x n : fsqr (fmul x (fmul (Fin k) n)) = fmul (Fin (k * k)) (fsqr (fmul x n)).
Proof. now rewrite swap, fsqr_fmul. Qed.
Lemma sum_scaled {A} k (f g : A -> fl) l : (forall i, g i = fmul (Fin k) (f i)) -> fsum (map g l) = fmul (Fin k) (fsum (map f l)).
Proof. intro H. rewrite <- fsum_fmul, map_map. apply f_equal. apply map_ext. exact H. Qed.
Lemma sqrt_sum_scaled {A} k (f g : A -> fl) l : (forall i, fnonneg (f i)) -> (forall i, g i = fmul (Fin (k * k)) (f i)) ->
  fsqrt (fsum (map g l)) = fmul (Fin (Rabs k)) (fsqrt (fsum (map f l))).
Proof.
  intros N H. rewrite (sum_scaled _ f g l H). apply fsqrt_fmul. apply fsum_nonneg. apply Forall_forall. intros x X. apply in_map_iff in X as (i & <- & _). apply N.
Qed.
Lemma b2f_nonneg b : fnonneg (b2f b).
Proof. destruct b; simpl; lra. Qed.
Lemma t0_nonneg c axis scale p q i : fnonneg (t0 c axis scale p q i).
Proof. apply fmul_nonneg; [apply b2f_nonneg | apply fsqr_nonneg]. Qed.
Lemma t0_scaled k c axis scale p q i : settled scale -> t0 c axis (scaled k scale) p q i = fmul (Fin (k * k)) (t0 c axis scale p q i).
Proof. intro S. unfold t0. rewrite noise_scaled by assumption. rewrite fsqr_fmul. apply swap. Qed.

Lemma check_scaled k c scale : check c (scaled k scale) = check c scale.
Proof. now destruct scale. Qed.
Lemma fits_dec c scale : fits_cube c scale \/ check c scale = Err IndexError.
Proof.
  destruct scale as [s | sh a]; [left; exact I |]. simpl. destruct (shape_eqb (c_shape c) sh) eqn:E; [left; symmetry; now apply shape_eqb_ok | now right].
Qed.
Lemma fits_scaled k c scale : fits_cube c scale -> fits_cube c (scaled k scale).
Proof. now destruct scale. Qed.

Lemma slice0_scaled k c axis scale : settled scale -> times k (slice0 c axis scale) (slice0 c axis (scaled k scale)).
Proof.
  intro S. destruct (fits_dec c scale) as [F | B].
  - destruct (slice0_val c axis scale F) as (e & -> & V). destruct (slice0_val c axis (scaled k scale) (fits_scaled k c scale F)) as (e' & -> & V').
    intros p q. rewrite V, V'. destruct (existsb _ _); [| reflexivity].
    rewrite (sqrt_sum_scaled k (t0 c axis scale p q)); [| apply t0_nonneg | intro; now apply t0_scaled]. now rewrite fmul_assoc.
  - unfold slice0. rewrite check_scaled, B. reflexivity.
Qed.
Lemma cube0_scaled k c axis scale : settled scale -> times k (cube0 c axis scale) (cube0 c axis (scaled k scale)).
Proof.
  intro S. destruct (fits_dec c scale) as [F | B].
  - destruct (cube0_val c axis scale F) as (e & -> & V). destruct (cube0_val c axis (scaled k scale) (fits_scaled k c scale F)) as (e' & -> & V').
    intros p q. rewrite V, V'.
    rewrite (sqrt_sum_scaled k (t0 c axis scale p q)); [| apply t0_nonneg | intro; now apply t0_scaled]. now rewrite fmul_assoc.
  - unfold cube0. rewrite check_scaled, B. reflexivity.
Qed.
Lemma slice1_scaled k c axis scale m0 m1 : settled scale -> times k (slice1 c axis scale m0 m1) (slice1 c axis (scaled k scale) m0 m1).
Proof.
  intro S. destruct (fits_dec c scale) as [F | B].
  - destruct (slice1_val c axis scale m0 m1 F) as (e & -> & V). destruct (slice1_val c axis (scaled k scale) m0 m1 (fits_scaled k c scale F)) as (e' & -> & V').
    intros p q. rewrite V, V'. apply sqrt_sum_scaled; [intro; apply fsqr_nonneg |]. intro i. unfold t1. rewrite noise_scaled by assumption. apply sq_scaled.
  - unfold slice1. rewrite check_scaled, B. reflexivity.
Qed.
Lemma of_cube_mul k sh (a : arr3 fl) i j l : of_cube sh (fun i j l => fmul (Fin k) (a i j l)) i j l = fmul (Fin k) (of_cube sh a i j l).
Proof. now destruct sh as [[? ?] ?]. Qed.
Lemma of_cube_ind {A} sh (a : arr3 A) i j l : exists x y z, of_cube sh a i j l = a x y z.
Proof. destruct sh as [[? ?] ?]. simpl. eauto. Qed.
Lemma view_fun {A} axis (a b : arr3 A) i p q (P : A -> A -> Prop) : (forall x y z, P (a x y z) (b x y z)) -> P (view axis a i p q) (view axis b i p q).
Proof. intro H. destruct axis as [| [| ax]]; simpl; apply H. Qed.
Lemma view_one {A} axis (a : arr3 A) i p q (P : A -> Prop) : (forall x y z, P (a x y z)) -> P (view axis a i p q).
Proof. intro H. destruct axis as [| [| ax]]; simpl; apply H. Qed.
Lemma blank_times k sh bsh axis good r r' : (forall p q, r' p q = fmul (Fin (Rabs k)) (r p q)) -> times k (blank_bad sh bsh axis good r) (blank_bad sh bsh axis good r').
Proof.
  intro H. unfold blank_bad. destruct (image_shape sh axis), (image_shape bsh axis). destruct (_ && _); simpl; [| reflexivity].
  intros p q. destruct (good p q); [apply H | reflexivity].
Qed.
Lemma cube1_scaled k c axis scale m0 m1 : settled scale -> times k (cube1 c axis scale m0 m1) (cube1 c axis (scaled k scale) m0 m1).
Proof.
  intro S. unfold cube1. rewrite check_scaled. destruct (check c scale); cbn [bind]; [| reflexivity]. cbv zeta.
  destruct (broadcast (c_shape c) axis) as [bsh |]; cbn [bind]; [| reflexivity]. apply blank_times. intros p q. cbv beta. unfold sum_over.
  apply sqrt_sum_scaled; [intro i; apply (view_one axis _ i p q fnonneg); intros; apply fsqr_nonneg |].
  intro i. apply (view_fun axis _ _ i p q (fun a b => b = fmul (Fin (k * k)) a)). intros x y z. rewrite <- sq_scaled. apply f_equal. apply f_equal.
  destruct scale as [s | sh ns]; simpl in S; [now apply nan_to_num_mul |]. unfold scaled; rewrite of_cube_mul. apply nan_to_num_mul. destruct (of_cube_ind (c_shape c) ns x y z) as (? & ? & ? & ->). apply S.
Qed.
Lemma term2_scaled k e u s : fmul (Fin 4) (fsqr (fdiv (fmul (fmul (Fin (Rabs k)) e) u) s)) = fmul (Fin (k * k)) (fmul (Fin 4) (fsqr (fdiv (fmul e u) s))).
Proof.
  rewrite <- fmul_assoc, fmul_fdiv, fsqr_fmul. replace (Rabs k * Rabs k) with (k * k) by (change (Rsqr k = Rsqr (Rabs k)); apply Rsqr_abs). apply swap.
Qed.
Lemma sum2_scaled k a b : fnonneg a -> fnonneg b -> fsqrt (fadd (fmul (Fin (k * k)) a) (fmul (Fin (k * k)) b)) = fmul (Fin (Rabs k)) (fsqrt (fadd a b)).
Proof. intros A B. rewrite <- fmul_fadd. apply fsqrt_fmul. now apply fadd_nonneg. Qed.
Lemma four_nonneg x : fnonneg (fmul (Fin 4) (fsqr x)).
Proof. apply fmul_nonneg; [simpl; lra | apply fsqr_nonneg]. Qed.
Lemma sum_nonneg {A} (f : A -> fl) l : (forall i, fnonneg (f i)) -> fnonneg (fsum (map f l)).
Proof. intro N. apply fsum_nonneg. apply Forall_forall. intros x X. apply in_map_iff in X as (i & <- & _). apply N. Qed.
Lemma slice2_scaled k c axis scale m0 m1 m2 e1 e1' : settled scale -> (forall p q, e1' p q = fmul (Fin (Rabs k)) (e1 p q)) ->
  times k (slice2 c axis scale m0 m1 m2 e1) (slice2 c axis (scaled k scale) m0 m1 m2 e1').
Proof.
  intros S E. destruct (fits_dec c scale) as [F | B].
  - destruct (slice2_val c axis scale m0 m1 m2 e1 F) as (e & -> & V). destruct (slice2_val c axis (scaled k scale) m0 m1 m2 e1' (fits_scaled k c scale F)) as (e' & -> & V').
    intros p q. rewrite V, V'. rewrite E, term2_scaled.
    rewrite (sum_scaled (k * k) (t2 c axis scale m0 m1 m2 p q)).
    + apply sum2_scaled; [apply sum_nonneg; intro; apply fsqr_nonneg | apply four_nonneg].
    + intro i. unfold t2. rewrite noise_scaled by assumption. apply sq_scaled.
  - unfold slice2. rewrite check_scaled, B. reflexivity.
Qed.
Lemma cube2_scaled k c axis scale m0 m1 m2 e1 e1' : settled scale -> (forall p q, e1' p q = fmul (Fin (Rabs k)) (e1 p q)) ->
  times k (cube2 c axis scale m0 m1 m2 e1) (cube2 c axis (scaled k scale) m0 m1 m2 e1').
Proof.
  intros S E. unfold cube2. rewrite check_scaled. destruct (check c scale); cbn [bind]; [| reflexivity]. cbv zeta.
  destruct (broadcast (c_shape c) axis) as [bsh |]; cbn [bind]; [| reflexivity]. apply blank_times. intros p q. cbv beta. rewrite E, term2_scaled. unfold sum_over.
  erewrite (sum_scaled (k * k)).
  - apply sum2_scaled; [apply sum_nonneg; intro i; apply (view_one axis _ i p q fnonneg); intros; apply fsqr_nonneg | apply four_nonneg].
  - intro i. apply (view_fun axis _ _ i p q (fun a b => b = fmul (Fin (k * k)) a)). intros x y z. rewrite <- sq_scaled. apply f_equal. apply f_equal.
    destruct scale as [s | sh ns]; simpl in S; [reflexivity |]. unfold scaled; rewrite of_cube_mul. apply nan_to_num_mul. destruct (of_cube_ind (c_shape c) ns x y z) as (? & ? & ? & ->). apply S.
Qed.

Lemma times_err k r : (forall e, r <> Ok e) -> times k r r.
Proof. destruct r; intro H; [now destruct (H a) | reflexivity]. Qed.
Lemma m0_scaled k strat c scale axis how : settled scale -> times k (moment0_error strat c scale axis how) (moment0_error strat c (scaled k scale) axis how).
Proof.
  intro S. unfold moment0_error. cbv zeta. destruct (String.eqb _ _); [now apply cube0_scaled |]. destruct (String.eqb _ _); [now apply slice0_scaled |]. reflexivity.
Qed.
Lemma m1_scaled k strat c scale axis how v0 a b : settled scale -> times k (moment1_error strat c scale axis how v0 a b) (moment1_error strat c (scaled k scale) axis how v0 a b).
Proof.
  intro S. unfold moment1_error. cbv zeta. destruct (String.eqb _ _); [now apply cube1_scaled |]. destruct (String.eqb _ _); [now apply slice1_scaled |]. reflexivity.
Qed.
Lemma times_bind k r r' g g' : times k r r' -> (forall f f' : arr2 fl, (forall p q, f' p q = fmul (Fin (Rabs k)) (f p q)) -> times k (g f) (g' f')) -> times k (bind r g) (bind r' g').
Proof. intros T H. destruct r as [f |], r' as [f' |]; simpl in T |- *; try contradiction; [now apply H | exact T]. Qed.
(** The given error of the first moment, if any, is that of the same noise *)
Lemma m2_scaled k strat c scale axis how v0 a b d e1 e1' : settled scale ->
  match e1, e1' with None, None => True | Some e, Some e' => forall p q, e' p q = fmul (Fin (Rabs k)) (e p q) | _, _ => False end ->
  times k (moment2_error strat c scale axis how v0 a b d e1) (moment2_error strat c (scaled k scale) axis how v0 a b d e1').
Proof.
  intros S E. unfold moment2_error. cbv zeta. set (w := fun p q => fsub (b p q) (Fin v0)).
  assert (T : times k (match e1 with Some e => Ok e | None => cube1 c axis scale a w end) (match e1' with Some e => Ok e | None => cube1 c axis (scaled k scale) a w end)).
  { destruct e1 as [e |], e1' as [e' |]; try contradiction; [exact E | now apply cube1_scaled]. }
  apply (times_bind k _ _ _ _ T). intros f f' Z.
  destruct (String.eqb _ _); [now apply cube2_scaled |]. destruct (String.eqb _ _); [now apply slice2_scaled |]. reflexivity.
Qed.
Lemma times_map k r r' f : times k r r' -> (forall x p q, f p q (fmul (Fin (Rabs k)) x) = fmul (Fin (Rabs k)) (f p q x)) ->
  times k (e <- r ;; Ok (fun p q => f p q (e p q))) (e <- r' ;; Ok (fun p q => f p q (e p q))).
Proof.
  intros T H. destruct r as [e |], r' as [e' |]; simpl in *; try contradiction; [| assumption]. intros p q. now rewrite T, H.
Qed.
Lemma lw_scaled k strat c scale how v0 a b d : settled scale ->
  times k (linewidth_sigma_err strat c scale how v0 a b d None) (linewidth_sigma_err strat c (scaled k scale) how v0 a b d None) /\
  times k (linewidth_fwhm_err strat c scale how v0 a b d None) (linewidth_fwhm_err strat c (scaled k scale) how v0 a b d None).
Proof.
  intro S. assert (A : times k (linewidth_sigma_err strat c scale how v0 a b d None) (linewidth_sigma_err strat c (scaled k scale) how v0 a b d None)).
  { unfold linewidth_sigma_err. cbv zeta. apply (times_map k _ _ (fun p q x => fdiv x (fmul (Fin 2) (fsqrt (d p q))))); [now apply m2_scaled |].
    intros x p q. apply fmul_fdiv. }
  split; [exact A |]. unfold linewidth_fwhm_err. apply (times_map k _ _ (fun p q x => fmul (Fin (2 * sqrt (2 * ln 2))) x)); [exact A |].
  intros x p q. apply swap.
Qed.

(** Non-negativity *)
Lemma blank_nonneg sh bsh axis good r : (forall p q, fnonneg (r p q)) -> never_negative (blank_bad sh bsh axis good r).
Proof.
  intro H. unfold blank_bad. destruct (image_shape sh axis), (image_shape bsh axis). destruct (_ && _); simpl; [| exact I].
  intros p q. apply nn_same. destruct (good p q); [apply H | exact I].
Qed.
Lemma m0_nonneg strat c scale axis how : (forall p q, 0 <= c_pix_size c axis p q) -> never_negative (moment0_error strat c scale axis how).
Proof.
  intro P. unfold moment0_error. cbv zeta. destruct (fits_dec c scale) as [F | B].
  - destruct (String.eqb _ _).
    + destruct (cube0_val c axis scale F) as (e & -> & V). intros p q. apply nn_same. rewrite V. apply fmul_nonneg; [apply fsqrt_nonneg | apply P].
    + destruct (String.eqb _ _); [| exact I]. destruct (slice0_val c axis scale F) as (e & -> & V). intros p q. apply nn_same. rewrite V.
      destruct (existsb _ _); [| exact I]. apply fmul_nonneg; [apply fsqrt_nonneg | apply P].
  - unfold cube0, slice0. rewrite B. cbn [bind]. destruct (String.eqb _ _); [exact I |]. destruct (String.eqb _ _); exact I.
Qed.
Lemma m1_nonneg strat c scale axis how v0 a b : never_negative (moment1_error strat c scale axis how v0 a b).
Proof.
  unfold moment1_error. cbv zeta. destruct (String.eqb _ _).
  - unfold cube1. destruct (check c scale); cbn [bind]; [| exact I]. cbv zeta. destruct (broadcast _ _); cbn [bind]; [| exact I]. apply blank_nonneg. intros. apply fsqrt_nonneg.
  - destruct (String.eqb _ _); [| exact I]. unfold slice1. destruct (check c scale); cbn [bind]; [| exact I]. intros p q. apply nn_same. apply fsqrt_nonneg.
Qed.
Lemma m2_nonneg strat c scale axis how v0 a b d e1 : never_negative (moment2_error strat c scale axis how v0 a b d e1).
Proof.
  unfold moment2_error. cbv zeta. match goal with |- context [match e1 with Some e => Ok e | None => ?z end] => set (r := match e1 with Some e => Ok e | None => z end) end. clearbody r. destruct r as [f |]; cbn [bind]; [| exact I]. destruct (String.eqb _ _).
  - unfold cube2. destruct (check c scale); cbn [bind]; [| exact I]. cbv zeta. destruct (broadcast _ _); cbn [bind]; [| exact I]. apply blank_nonneg. intros. apply fsqrt_nonneg.
  - destruct (String.eqb _ _); [| exact I]. unfold slice2. destruct (check c scale); cbn [bind]; [| exact I]. cbv zeta. destruct (fold_left _ _ _). intros p q. apply nn_same. apply fsqrt_nonneg.
Qed.
Lemma lw_nonneg strat c scale how v0 a b d e1 : never_negative (linewidth_sigma_err strat c scale how v0 a b d e1) /\ never_negative (linewidth_fwhm_err strat c scale how v0 a b d e1).
Proof.
  assert (A : never_negative (linewidth_sigma_err strat c scale how v0 a b d e1)).
  { unfold linewidth_sigma_err. cbv zeta. set (h := if String.eqb how "auto" then strat else how). pose proof (m2_nonneg strat c scale 0 h v0 a b d e1) as M.
    destruct (moment2_error _ _ _ _ _ _ _ _ _ _) as [e |]; cbn [bind]; [| exact I]. intros p q. apply nn_same. apply fdiv_nonneg; [apply nn_same, M |].
    apply fmul_nonneg; [simpl; lra | apply fsqrt_nonneg]. }
  split; [exact A |]. unfold linewidth_fwhm_err. destruct (linewidth_sigma_err _ _ _ _ _ _ _ _ _) as [e |]; cbn [bind]; [| exact I]. intros p q. apply nn_same.
  apply fmul_nonneg; [| apply nn_same, A]. simpl. apply Rmult_le_pos; [lra | apply sqrt_pos].
Qed.

(** Finite values *)
Lemma noise_sigma scale axis i p q : settled scale -> proper scale -> noise_view scale axis i p q = Fin (sigma scale axis i p q).
Proof.
  destruct scale as [s | sh a]; simpl; intros S P; [destruct P as [r ->]; reflexivity |].
  change (voxel axis a i p q) with (view axis a i p q). destruct (view_ind axis a i p q) as (x & y & z & ->). destruct (S x y z) as [A B]. now destruct (a x y z).
Qed.
Lemma fsum_Fin' {A} (f : A -> fl) (g : A -> R) l : (forall i, f i = Fin (g i)) -> fsum (map f l) = Fin (lsum (map g l)).
Proof. intro H. induction l as [| a l IH]; [reflexivity |]. simpl. rewrite IH, H. simpl. apply (f_equal Fin). reflexivity. Qed.
Lemma fsqrt_Fin r : 0 <= r -> fsqrt (Fin r) = Fin (sqrt r).
Proof. intro H. simpl. destruct (Rltb_spec r 0); [lra | reflexivity]. Qed.
Definition w0 (c : cube) (axis : nat) (scale : noise) p q i : R := if view axis (c_mask c) i p q then Rsqr (sigma scale axis i p q) else 0.
Lemma t0_Fin c axis scale p q i : settled scale -> proper scale -> t0 c axis scale p q i = Fin (w0 c axis scale p q i).
Proof.
  intros S P. unfold t0, w0. rewrite (noise_sigma _ _ _ _ _ S P). destruct (view axis (c_mask c) i p q); simpl; apply (f_equal Fin); unfold Rsqr; ring.
Qed.
Lemma w0_nonneg c axis scale p q i : 0 <= w0 c axis scale p q i.
Proof. unfold w0. destruct (view _ _ _ _ _); [apply Rle_0_sqr | lra]. Qed.
Lemma lsum_map_nonneg {A} (g : A -> R) l : (forall i, 0 <= g i) -> 0 <= lsum (map g l).
Proof. intro H. apply lsum_nonneg. intros x X. apply in_map_iff in X as (i & <- & _). apply H. Qed.
Lemma rsum_seq (g : nat -> R) n : lsum (map g (seq 0 n)) = rsum n g.
Proof. symmetry. apply rsum_lsum. Qed.
Lemma err0_value c axis scale p q : settled scale -> proper scale ->
  fmul (fsqrt (fsum (map (t0 c axis scale p q) (chans c axis)))) (Fin (c_pix_size c axis p q))
  = Fin (c_pix_size c axis p q * sqrt (rsum (axis_len (c_shape c) axis) (fun i => if view axis (c_mask c) i p q then Rsqr (sigma scale axis i p q) else 0))).
Proof.
  intros S P. rewrite (fsum_Fin' _ (w0 c axis scale p q)) by (intro; now apply t0_Fin). rewrite fsqrt_Fin by (apply lsum_map_nonneg; apply w0_nonneg).
  unfold chans. rewrite rsum_seq. simpl. apply (f_equal Fin). apply Rmult_comm.
Qed.
Lemma err0_formula strat c axis scale how p q : settled scale -> proper scale -> fits_cube c scale -> how = "slice" \/ how = "cube" ->
  (exists i, included c axis i p q) -> exists e, moment0_error strat c scale axis how = Ok e /\
  e p q = Fin (c_pix_size c axis p q * sqrt (rsum (axis_len (c_shape c) axis) (fun i => if view axis (c_mask c) i p q then Rsqr (sigma scale axis i p q) else 0))).
Proof.
  intros S P F H V. destruct H as [-> | ->].
  - destruct (slice0_val c axis scale F) as (e & E & W). exists e. split; [exact E |]. rewrite W. apply valid_iff in V. rewrite V. now apply err0_value.
  - destruct (cube0_val c axis scale F) as (e & E & W). exists e. split; [exact E |]. rewrite W. now apply err0_value.
Qed.

Lemma err0_mono strat c m m' axis scale how p q e r : settled scale -> proper scale -> (forall i j k, m i j k = true -> m' i j k = true) -> 0 <= c_pix_size c axis p q ->
  moment0_error strat (remasked c m) scale axis how = Ok e -> e p q = Fin r ->
  exists e' r', moment0_error strat (remasked c m') scale axis how = Ok e' /\ e' p q = Fin r' /\ r <= r'.
Proof.
  intros S P M X E R.
  assert (L : forall n, rsum n (fun i => if view axis m i p q then Rsqr (sigma scale axis i p q) else 0) <= rsum n (fun i => if view axis m' i p q then Rsqr (sigma scale axis i p q) else 0)).
  { intro n. apply rsum_le. intros i _. assert (V : view axis m i p q = true -> view axis m' i p q = true) by (destruct axis as [| [| ax]]; simpl; apply M).
    destruct (view axis m i p q); [rewrite V by reflexivity; lra |]. destruct (view axis m' i p q); [apply Rle_0_sqr | lra]. }
  assert (F : fits_cube c scale \/ check c scale = Err IndexError) by apply fits_dec. destruct F as [F | B].
  2: { exfalso. unfold moment0_error in E. unfold cube0, slice0 in E. change (check (remasked c m) scale) with (check c scale) in E. rewrite B in E. cbn [bind] in E. cbv zeta in E. destruct (String.eqb _ _); [discriminate |]. destruct (String.eqb _ _); discriminate. }
  assert (F1 : fits_cube (remasked c m) scale) by exact F. assert (F2 : fits_cube (remasked c m') scale) by exact F.
  unfold moment0_error in *. cbv zeta in *. destruct (String.eqb _ _).
  - destruct (cube0_val _ axis scale F1) as (f & E1 & V1). destruct (cube0_val _ axis scale F2) as (f' & E2 & V2). rewrite E1 in E. apply (f_equal (fun x => match x with Ok y => y | Err _ => f end)) in E. subst e.
    rewrite V1, err0_value in R by assumption. apply (f_equal (fun x => match x with Fin y => y | _ => 0 end)) in R. subst r.
    exists f', (c_pix_size c axis p q * sqrt (rsum (axis_len (c_shape c) axis) (fun i => if view axis m' i p q then Rsqr (sigma scale axis i p q) else 0))).
    split; [exact E2 |]. split; [rewrite V2; now apply err0_value |]. apply Rmult_le_compat_l; [exact X |]. apply sqrt_le_1_alt. apply L.
  - destruct (String.eqb _ _); [| discriminate].
    destruct (slice0_val _ axis scale F1) as (f & E1 & V1). destruct (slice0_val _ axis scale F2) as (f' & E2 & V2). rewrite E1 in E. apply (f_equal (fun x => match x with Ok y => y | Err _ => f end)) in E. subst e.
    rewrite V1 in R. destruct (existsb _ _) eqn:W; [| discriminate]. rewrite err0_value in R by assumption. apply (f_equal (fun x => match x with Fin y => y | _ => 0 end)) in R. subst r.
    exists f', (c_pix_size c axis p q * sqrt (rsum (axis_len (c_shape c) axis) (fun i => if view axis m' i p q then Rsqr (sigma scale axis i p q) else 0))).
    split; [exact E2 |]. split.
    + rewrite V2. assert (W' : existsb (fun i => view axis (c_mask (remasked c m')) i p q) (chans (remasked c m') axis) = true).
      { apply existsb_exists in W as (i & A & C). apply existsb_exists. exists i. split; [exact A |]. simpl in *. destruct axis as [| [| ax]]; simpl in *; now apply M. }
      rewrite W'. now apply err0_value.
    + apply Rmult_le_compat_l; [exact X |]. apply sqrt_le_1_alt. apply L.
Qed.

Lemma err1_formula strat c scale how v0 m0 m1 p q a b : settled scale -> proper scale -> fits_cube c scale -> how = "slice" \/ how = "cube" -> in_image c 0 p q ->
  m0 p q = Fin a -> a <> 0 -> m1 p q = Fin b -> c_pix_size c 0 p q <> 0 ->
  exists e, moment1_error strat c scale 0 how v0 m0 m1 = Ok e /\
  e p q = Fin (sqrt (rsum (axis_len (c_shape c) 0) (fun i => Rsqr ((c_pix_cen c 0 i p q - (b - v0)) / (a / c_pix_size c 0 p q) * sigma scale 0 i p q)))).
Proof.
  intros S P F H V A N B X. set (w := fun p q => fsub (m1 p q) (Fin v0)).
  assert (W : w p q = Fin (b - v0)) by (unfold w; rewrite B; reflexivity).
  assert (AS : axis_sum c 0 m0 p q = Fin (a / c_pix_size c 0 p q)).
  { unfold axis_sum. rewrite A. simpl. destruct (Reqb_spec (c_pix_size c 0 p q) 0); [contradiction | reflexivity]. }
  assert (Z : a / c_pix_size c 0 p q <> 0) by (intro Z; apply N; apply (Rmult_eq_compat_r (c_pix_size c 0 p q)) in Z; unfold Rdiv in Z; rewrite Rmult_assoc, Rinv_l, Rmult_0_l, Rmult_1_r in Z; assumption).
  assert (T : forall i, t1 c 0 scale m0 w p q i = Fin (Rsqr ((c_pix_cen c 0 i p q - (b - v0)) / (a / c_pix_size c 0 p q) * sigma scale 0 i p q))).
  { intro i. unfold t1. rewrite (noise_sigma _ _ _ _ _ S P), AS, W. change (view 0 (c_pix_cen c 0) i p q) with (c_pix_cen c 0 i p q). set (z := a / _) in *. unfold fdiv. destruct (Reqb_spec z 0); [contradiction |].
    unfold fsub, fneg, fadd, fmul, fsqr, fmul. apply (f_equal Fin). unfold Rsqr. field. exact Z. }
  assert (E : fsqrt (fsum (map (t1 c 0 scale m0 w p q) (chans c 0))) = Fin (sqrt (rsum (axis_len (c_shape c) 0) (fun i => Rsqr ((c_pix_cen c 0 i p q - (b - v0)) / (a / c_pix_size c 0 p q) * sigma scale 0 i p q))))).
  { rewrite (fsum_Fin' _ _ _ T). rewrite fsqrt_Fin by (apply lsum_map_nonneg; intro; apply Rle_0_sqr). unfold chans. now rewrite rsum_seq. }
  destruct H as [-> | ->].
  - destruct (slice1_val c 0 scale m0 w F) as (e & G & VV). exists e. split; [exact G |]. rewrite VV. exact E.
  - destruct (cube1_val c scale m0 w F P) as (e & G & VV). exists e. split; [exact G |]. rewrite VV by assumption. rewrite A. cbn [is_fin orb]. exact E.
Qed.
Lemma err2_formula strat c scale how v0 m0 m1 m2 e1 p q a b d f : settled scale -> proper scale -> fits_cube c scale -> how = "slice" \/ how = "cube" -> in_image c 0 p q ->
  m0 p q = Fin a -> a <> 0 -> m1 p q = Fin b -> m2 p q = Fin d -> e1 p q = Fin f -> c_pix_size c 0 p q <> 0 -> (forall i j k, no_inf (c_filled c i j k)) ->
  exists e, moment2_error strat c scale 0 how v0 m0 m1 m2 (Some e1) = Ok e /\
  e p q = Fin (sqrt (rsum (axis_len (c_shape c) 0) (fun i => Rsqr ((Rsqr (c_pix_cen c 0 i p q - (b - v0)) - d) / (a / c_pix_size c 0 p q) * sigma scale 0 i p q))
                     + 4 * Rsqr (f * rsum (axis_len (c_shape c) 0) (fun i => datum c 0 i p q * (c_pix_cen c 0 i p q - (b - v0))) / (a / c_pix_size c 0 p q)))).
Proof.
  intros S P F H V A N B D G X J. set (w := fun p q => fsub (m1 p q) (Fin v0)).
  assert (W : w p q = Fin (b - v0)) by (unfold w; rewrite B; reflexivity).
  assert (AS : axis_sum c 0 m0 p q = Fin (a / c_pix_size c 0 p q)).
  { unfold axis_sum. rewrite A. simpl. destruct (Reqb_spec (c_pix_size c 0 p q) 0); [contradiction | reflexivity]. }
  assert (Z : a / c_pix_size c 0 p q <> 0) by (intro Z; apply N; apply (Rmult_eq_compat_r (c_pix_size c 0 p q)) in Z; unfold Rdiv in Z; rewrite Rmult_assoc, Rinv_l, Rmult_0_l, Rmult_1_r in Z; assumption).
  assert (DF : forall i, df c 0 w p q i = Fin (c_pix_cen c 0 i p q - (b - v0))) by (intro i; unfold df; rewrite W; reflexivity).
  set (z := a / c_pix_size c 0 p q) in *.
  assert (T : forall i, t2 c 0 scale m0 w m2 p q i = Fin (Rsqr ((Rsqr (c_pix_cen c 0 i p q - (b - v0)) - d) / z * sigma scale 0 i p q))).
  { intro i. unfold t2. rewrite (noise_sigma _ _ _ _ _ S P), AS, DF, D. unfold fsqr at 2. unfold fmul at 2. unfold fdiv. destruct (Reqb_spec z 0); [contradiction |].
    unfold fsub, fneg, fadd, fmul, fsqr, fmul. apply (f_equal Fin). unfold Rsqr. field. exact Z. }
  assert (U : forall i, u2 c 0 w p q i = Fin (datum c 0 i p q * (c_pix_cen c 0 i p q - (b - v0)))).
  { intro i. unfold u2. rewrite DF, nan_to_num_idem. unfold datum. change (view 0 (c_filled c) i p q) with (c_filled c i p q). change (voxel 0 (c_filled c) i p q) with (c_filled c i p q). destruct (J i p q) as [J1 J2]. destruct (c_filled c i p q); try congruence; reflexivity. }
  assert (E : fsqrt (fadd (fsum (map (t2 c 0 scale m0 w m2 p q) (chans c 0)))
                      (fmul (Fin 4) (fsqr (fdiv (fmul (e1 p q) (fsum (map (u2 c 0 w p q) (chans c 0)))) (axis_sum c 0 m0 p q)))))
    = Fin (sqrt (rsum (axis_len (c_shape c) 0) (fun i => Rsqr ((Rsqr (c_pix_cen c 0 i p q - (b - v0)) - d) / z * sigma scale 0 i p q))
                     + 4 * Rsqr (f * rsum (axis_len (c_shape c) 0) (fun i => datum c 0 i p q * (c_pix_cen c 0 i p q - (b - v0))) / z)))).
  { rewrite (fsum_Fin' _ _ _ T), (fsum_Fin' _ _ _ U), G, AS. unfold chans. rewrite !rsum_seq. set (s1 := rsum _ _). set (s2 := rsum _ _).
    change (fmul (Fin f) (Fin s2)) with (Fin (f * s2)). assert (Q : fdiv (Fin (f * s2)) (Fin z) = Fin (f * s2 / z)) by (unfold fdiv; destruct (Reqb_spec z 0); [contradiction | reflexivity]).
    rewrite Q. change (fmul (Fin 4) (fsqr (Fin (f * s2 / z)))) with (Fin (4 * (f * s2 / z * (f * s2 / z)))). change (fadd (Fin s1) (Fin (4 * (f * s2 / z * (f * s2 / z))))) with (Fin (s1 + 4 * (f * s2 / z * (f * s2 / z)))).
    rewrite fsqrt_Fin; [reflexivity |]. assert (0 <= s1) by (apply rsum_nonneg; intros; apply Rle_0_sqr). pose proof (Rle_0_sqr (f * s2 / z)) as K. unfold Rsqr in K. lra. }
  unfold moment2_error. cbv zeta. fold w. cbn [bind]. destruct H as [-> | ->].
  - destruct (slice2_val c 0 scale m0 w m2 e1 F) as (e & GG & VV). exists e. split; [exact GG |]. rewrite VV. exact E.
  - destruct (cube2_val c scale m0 w m2 e1 F) as (e & GG & VV). exists e. split; [exact GG |]. rewrite VV by assumption. rewrite A. cbn [is_fin orb]. exact E.
Qed.
