From Coq Require Import Reals List ZArith Lia Arith Lra Bool Psatz.
From Verif Require Import Lib.PyBase Lib.Fl Lib.RSum Lib.PySlice Lib.Arr Model.StatsUtils Model.Psds Model.Pca Spec.Blank Spec.Components
  Spec.Covariance Spec.EigenImage Proofs.Pca2_Proofs Proofs.Pca3_Proofs Proofs.Cov_Proofs Proofs.Tsallis2_Proofs.
Import ListNotations.
Local Open Scope R_scope.

Lemma flat_in {A} ny nx (f : nat -> nat -> A) v : In v (flat ny nx f) ->
  exists y x, (y < ny)%nat /\ (x < nx)%nat /\ v = f y x.
Proof.
  unfold flat, tab2, tab1. intros H. apply in_concat in H. destruct H as [r [Hr Hv]].
  apply in_map_iff in Hr. destruct Hr as [y [<- Hy]]. apply in_map_iff in Hv. destruct Hv as [x [<- Hx]].
  apply in_seq in Hy. apply in_seq in Hx. exists y, x. repeat split; lia.
Qed.

Lemma in_flat {A} ny nx (f : nat -> nat -> A) y x : (y < ny)%nat -> (x < nx)%nat -> In (f y x) (flat ny nx f).
Proof.
  intros Hy Hx. unfold flat, tab2, tab1. apply in_concat. exists (map (f y) (seq 0 nx)). split.
  - apply in_map_iff. exists y. split; [reflexivity|]. apply in_seq. lia.
  - apply in_map_iff. exists x. split; [reflexivity|]. apply in_seq. lia.
Qed.

Lemma in_fins r l : In (Fin r) l -> In r (fins l).
Proof.
  induction l as [|v l IH]; [intros []|]. intros [->|H].
  - rewrite fins_cons_Fin. now left.
  - destruct v; [rewrite fins_cons_Fin; right|..]; now apply IH.
Qed.

Lemma eigimage_projection nz ny nx data ms v y x : blankable_cube nz ny nx data -> (y < ny)%nat -> (x < nx)%nat ->
  eigimage nz ny nx data ms v y x = projection nz ny nx data ms v y x.
Proof.
  intros B Hy Hx. unfold eigimage, projection. apply rsum_ext. intros c Hc.
  pose proof (B c y x Hc Hy Hx) as Bc.
  assert (BF : Forall blankable (concat (tab2 ny nx (data c)))).
  { apply Forall_forall. intros u Hu. destruct (flat_in ny nx (data c) u Hu) as [a [b [Ha [Hb ->]]]]. now apply B. }
  destruct ms.
  - destruct (data c y x) as [r| | |] eqn:E; try contradiction; [|reflexivity].
    rewrite nanmean_fins; [reflexivity|exact BF|].
    intros Z. assert (In r (fins (concat (tab2 ny nx (data c))))).
    { apply in_fins. rewrite <- E. now apply in_flat. }
    rewrite Z in H. exact H.
  - destruct (data c y x) as [r| | |] eqn:E; try contradiction; [|reflexivity].
    cbn [fmul nan_to_num]. now rewrite Rminus_0_r.
Qed.

Lemma circular_acf_in ny nx f g dy dx : (forall a b, (a < ny)%nat -> (b < nx)%nat -> f a b = g a b) ->
  circular_acf ny nx f dy dx = circular_acf ny nx g dy dx.
Proof.
  intros H. unfold circular_acf. apply rsum_ext. intros y Hy. apply rsum_ext. intros x Hx.
  assert (W : forall n i, (0 < n)%nat -> (wrap n i < n)%nat).
  { intros n i Hn. unfold wrap. pose proof (Z.mod_pos_bound i (Z.of_nat n) ltac:(lia)). lia. }
  rewrite !H; auto; apply W; lia.
Qed.

Lemma autocorr_projection nz ny nx data ms eps eigvals eigvecs n : blankable_cube nz ny nx data -> available nz eps eigvals n ->
  exists l, autocorr_images nz ny nx data ms eps eigvals eigvecs n = Ok l /\ length l = Z.abs_nat n /\
  forall k, (k < length l)%nat -> length (nth k l []) = ny /\
    (forall y, (y < ny)%nat -> length (nth y (nth k l []) []) = nx) /\
    forall y x, (y < ny)%nat -> (x < nx)%nat ->
      at2 0 (nth k l []) y x =
      circular_acf ny nx (without_first (projection nz ny nx data ms (fun channel => eigvecs channel (nth k (wanted eps eigvals n) 0%nat))))
        (Z.of_nat y - Z.of_nat (ny / 2)) (Z.of_nat x - Z.of_nat (nx / 2)).
Proof.
  intros B H. destruct (autocorr_wanted nz ny nx data ms eps eigvals eigvecs n H) as [l [E [L V]]].
  exists l. split; [exact E|]. split; [exact L|]. intros k Hk. destruct (V k Hk) as [V1 [V2 V3]].
  split; [exact V1|]. split; [exact V2|]. intros y x Hy Hx. rewrite (V3 y x Hy Hx).
  apply circular_acf_in. intros a b Ha Hb. unfold without_first.
  destruct a; [destruct b; [reflexivity|]|]; now apply eigimage_projection.
Qed.

Lemma eigimages_wanted nz ny nx data ms eps eigvals eigvecs n : blankable_cube nz ny nx data -> available nz eps eigvals n ->
  exists l, eigimages nz ny nx data ms eps eigvals eigvecs n = Ok (Stack l) /\ length l = Z.abs_nat n /\
  forall k y x, (k < length l)%nat -> (y < ny)%nat -> (x < nx)%nat ->
    nth k l (fun _ _ => 0) x y = projection nz ny nx data ms (fun c => eigvecs c (nth k (wanted eps eigvals n) 0%nat)) y x.
Proof.
  intros B H. destruct (selected_wanted nz eps eigvals n H) as [E [H0 [L I]]]. unfold eigimages.
  replace (if (0 <? n)%Z then Ok (seq 0 (Z.to_nat n)) else if (n <? 0)%Z then Ok (slice (Some n) None 1 (valid_eigenvectors eps eigvals)) else Err UnboundLocalError)
    with (Ok (selected eps eigvals n)).
  2: { unfold selected. destruct (Z.ltb_spec 0 n); [reflexivity|]. destruct (Z.ltb_spec n 0); [reflexivity|lia]. }
  cbn [bind].
  replace (existsb (fun i => (nz <=? i)%nat) (selected eps eigvals n)) with false.
  2: { symmetry. apply not_true_is_false. intros X. apply existsb_exists in X. destruct X as [i [Hi X]].
       apply Nat.leb_le in X. specialize (I i Hi). lia. }
  rewrite E in *. clear E I. assert (H2 : (2 <= length (wanted eps eigvals n))%nat).
  { rewrite L. destruct H as [_ [H|H]]; lia. }
  remember (wanted eps eigvals n) as sel. destruct sel as [|i0 [|i1 sel]]; [cbn in H2; lia|cbn in H2; lia|].
  eexists. split; [reflexivity|]. rewrite map_length. split; [exact L|]. intros k y x Hk Hy Hx.
  set (F := fun idx => fun x0 y0 => eigimage nz ny nx data ms (fun channel => eigvecs channel idx) y0 x0).
  rewrite (nth_indep _ _ (F 0%nat)) by (rewrite map_length; exact Hk). rewrite map_nth. unfold F.
  now apply eigimage_projection.
Qed.

Lemma eigimages_one nz ny nx data ms eps eigvals eigvecs : blankable_cube nz ny nx data -> (1 <= nz)%nat ->
  exists img, eigimages nz ny nx data ms eps eigvals eigvecs 1 = Ok (Single img) /\
  forall y x, (y < ny)%nat -> (x < nx)%nat -> img y x = projection nz ny nx data ms (fun c => eigvecs c 0%nat) y x.
Proof.
  intros B Hz. unfold eigimages. change (Z.to_nat 1) with 1%nat. cbn [Z.ltb bind seq existsb].
  change (0 <? 1)%Z with true. cbn [bind existsb]. destruct (Nat.leb_spec nz 0); [lia|]. cbn [orb].
  eexists. split; [reflexivity|]. intros y x Hy Hx. now apply eigimage_projection.
Qed.

(** ** Axes *)
Definition axes_data : nat -> nat -> nat -> fl := fun c y x => match c, y, x with 0%nat, 0%nat, 1%nat => Fin 1 | _, _, _ => Fin 0 end.
Lemma axes_blankable : blankable_cube 2 2 2 axes_data.
Proof. intros c y x _ _ _. destruct c as [|c], y as [|y], x as [|[|x]]; exact I. Qed.
Lemma axes_available : available 2 (1 / 2) [1; 1] 2.
Proof. split; [reflexivity|]. left. cbn. lia. Qed.

Lemma eigimages_axes_refuted : exists nz ny nx data ms eps eigvals eigvecs l y x,
  blankable_cube nz ny nx data /\ available nz eps eigvals 2 /\ ny = nx /\ (y < ny)%nat /\ (x < nx)%nat /\
  eigimages nz ny nx data ms eps eigvals eigvecs 2 = Ok (Stack l) /\
  nth 0 l (fun _ _ => 0) y x <> projection nz ny nx data ms (fun c => eigvecs c 0%nat) y x.
Proof.
  destruct (eigimages_wanted 2 2 2 axes_data false (1 / 2) [1; 1] ex_vecs 2 axes_blankable axes_available) as [l [E [L V]]].
  exists 2%nat, 2%nat, 2%nat, axes_data, false, (1 / 2), [1; 1], ex_vecs, l, 0%nat, 1%nat.
  split; [exact axes_blankable|]. split; [exact axes_available|]. split; [reflexivity|].
  split; [lia|]. split; [lia|]. split; [exact E|].
  rewrite (V 0%nat 1%nat 0%nat) by (rewrite ?L; cbn; lia).
  unfold wanted. change (0 <? 2)%Z with true. change (Z.to_nat 2) with 2%nat. cbn [seq nth].
  unfold projection, axes_data, ex_vecs. cbn. lra.
Qed.

(** ** Cubes without blanks *)
Section Full.
Variables (nz ny nx : nat) (d : nat -> nat -> nat -> R) (ms : bool).
Let dev := deviation ny nx d ms.

Lemma full_blankable : blankable_cube nz ny nx (full d).
Proof. intros c y x _ _ _. exact I. Qed.

Lemma flat_map_fin c : flat ny nx (full d c) = map Fin (flat ny nx (d c)).
Proof.
  unfold flat, tab2, tab1, full. rewrite concat_map, map_map. f_equal. apply map_ext. intros y. now rewrite map_map.
Qed.

Lemma projection_full v y x : projection nz ny nx (full d) ms v y x = rsum nz (fun c => dev c y x * v c).
Proof.
  unfold projection. apply rsum_ext. intros c Hc. unfold full at 1. unfold dev, deviation, channel_values.
  rewrite flat_map_fin, fins_map_Fin. reflexivity.
Qed.

Lemma flat_length {A} (f : nat -> nat -> A) : length (flat ny nx f) = (ny * nx)%nat.
Proof.
  unfold flat, tab2, tab1. rewrite <- (seq_length ny 0) at 2. induction (seq 0 ny) as [|a l IH]; [reflexivity|].
  cbn [map concat length]. rewrite app_length, IH, map_length, seq_length. cbn. lia.
Qed.

Lemma map_flat {A B} (g : A -> B) (f : nat -> nat -> A) : map g (flat ny nx f) = flat ny nx (fun y x => g (f y x)).
Proof.
  unfold flat, tab2, tab1. rewrite concat_map, map_map. f_equal. apply map_ext. intros y. now rewrite map_map.
Qed.

Lemma map2_app {A B C} (g : A -> B -> C) a1 a2 b1 b2 : length a1 = length b1 ->
  map2 g (a1 ++ a2) (b1 ++ b2) = map2 g a1 b1 ++ map2 g a2 b2.
Proof.
  revert b1. induction a1 as [|u a1 IH]; intros [|w b1] L; try discriminate; [reflexivity|].
  cbn [app map2] in *. rewrite IH; [reflexivity|]. cbn in L. lia.
Qed.

Lemma map2_map {I A B C} (g : A -> B -> C) (f : I -> A) (h : I -> B) l : map2 g (map f l) (map h l) = map (fun i => g (f i) (h i)) l.
Proof. induction l as [|i l IH]; [reflexivity|]. cbn [map map2]. now rewrite IH. Qed.

Lemma map2_flat {A B C} (g : A -> B -> C) f h : map2 g (flat ny nx f) (flat ny nx h) = flat ny nx (fun y x => g (f y x) (h y x)).
Proof.
  unfold flat, tab2, tab1. induction (seq 0 ny) as [|a l IH]; [reflexivity|].
  cbn [map concat]. rewrite map2_app by (now rewrite !map_length). now rewrite IH, map2_map.
Qed.

Lemma lsum_flat f : lsum (flat ny nx f) = pixel_sum ny nx f.
Proof. apply concat_tab2_sum. Qed.

Lemma centred_flat c : centred ms (flat ny nx (d c)) = flat ny nx (dev c).
Proof.
  unfold centred, dev, deviation. destruct ms.
  - apply map_flat.
  - rewrite <- (map_id (flat ny nx (d c))), map_flat. unfold flat. f_equal. apply tab2_ext. intros; ring.
Qed.

Let divisor : R := degrees ny nx ms.
Lemma divisor_pos : enough ms (ny * nx) -> 0 < divisor.
Proof.
  unfold enough, divisor, degrees. destruct ms; intros H; apply le_INR in H; cbn [INR] in H; lra.
Qed.

Lemma covariance_flat i j : covariance ms (flat ny nx (d i)) (flat ny nx (d j)) = pixel_sum ny nx (fun y x => dev i y x * dev j y x) / divisor.
Proof. unfold covariance. now rewrite !centred_flat, map2_flat, lsum_flat, flat_length. Qed.

Let cube_list : list (list R) := channels nz ny nx d.
Definition cov (eps big : R) : nat -> nat -> R := at2 0 (var_cov_cube eps big (map (map Fin) (channels nz ny nx d)) ms).

Lemma cov_pixels eps big i j : enough ms (ny * nx) -> (i < nz)%nat -> (j < nz)%nat ->
  cov eps big i j * divisor = pixel_sum ny nx (fun y x => dev i y x * dev j y x).
Proof.
  intros N Hi Hj. unfold cov. fold cube_list. rewrite (cov_value eps big cube_list ms (ny * nx) i j).
  - unfold cube_list, channels. rewrite !tab1_nth by auto. rewrite covariance_flat. field.
    pose proof (divisor_pos N). lra.
  - intros c Hc. unfold cube_list, channels, tab1 in Hc. apply in_map_iff in Hc. destruct Hc as [k [<- _]]. apply flat_length.
  - exact N.
  - unfold cube_list, channels. now rewrite tab1_length.
  - unfold cube_list, channels. now rewrite tab1_length.
Qed.

Lemma pixel_sum_ext f g : (forall y x, (y < ny)%nat -> (x < nx)%nat -> f y x = g y x) -> pixel_sum ny nx f = pixel_sum ny nx g.
Proof. intros H. apply rsum_ext. intros y Hy. apply rsum_ext. intros x Hx. auto. Qed.

Lemma pixel_sum_rsum n (f : nat -> nat -> nat -> R) : pixel_sum ny nx (fun y x => rsum n (fun i => f i y x)) = rsum n (fun i => pixel_sum ny nx (f i)).
Proof.
  unfold pixel_sum. transitivity (rsum ny (fun y => rsum n (fun i => rsum nx (f i y)))).
  - apply rsum_ext. intros y Hy. apply (rsum_exchange nx n (fun x i => f i y x)).
  - apply (rsum_exchange ny n (fun y i => rsum nx (f i y))).
Qed.

Lemma pixel_sum_scal a f : pixel_sum ny nx (fun y x => a * f y x) = a * pixel_sum ny nx f.
Proof. unfold pixel_sum. rewrite <- rsum_scal. apply rsum_ext. intros. now rewrite rsum_scal. Qed.

(** The product of two eigenimages, summed over the map. *)
Lemma images_product eps big v w : enough ms (ny * nx) ->
  pixel_sum ny nx (fun y x => projection nz ny nx (full d) ms v y x * projection nz ny nx (full d) ms w y x) =
  divisor * rsum nz (fun i => v i * rsum nz (fun j => cov eps big i j * w j)).
Proof.
  intros N. transitivity (pixel_sum ny nx (fun y x => rsum nz (fun i => rsum nz (fun j => dev i y x * v i * (dev j y x * w j))))).
  { apply pixel_sum_ext. intros y x _ _. rewrite !projection_full. apply rsum_mult. }
  rewrite pixel_sum_rsum. rewrite <- rsum_scal. apply rsum_ext. intros i Hi.
  rewrite pixel_sum_rsum. rewrite <- !rsum_scal. apply rsum_ext. intros j Hj.
  transitivity (v i * w j * pixel_sum ny nx (fun y x => dev i y x * dev j y x)).
  - rewrite <- pixel_sum_scal. apply pixel_sum_ext. intros. ring.
  - rewrite <- (cov_pixels eps big i j N Hi Hj). ring.
Qed.

Lemma images_eigen eps big v w mu : enough ms (ny * nx) -> eigenvector nz (cov eps big) w mu ->
  pixel_sum ny nx (fun y x => projection nz ny nx (full d) ms v y x * projection nz ny nx (full d) ms w y x) =
  mu * divisor * dot nz v w.
Proof.
  intros N E. rewrite (images_product eps big v w N). unfold dot.
  rewrite (Rmult_comm mu), Rmult_assoc. f_equal. rewrite <- rsum_scal. apply rsum_ext. intros i Hi. rewrite (E i Hi). ring.
Qed.
End Full.

Lemma mean_zero ny nx (f : nat -> nat -> R) : (1 <= ny * nx)%nat ->
  pixel_sum ny nx (fun y x => f y x - rmean (flat ny nx f)) = 0.
Proof.
  intros N. transitivity (pixel_sum ny nx f - INR (ny * nx) * rmean (flat ny nx f)).
  - unfold pixel_sum at 1. rewrite mult_INR. transitivity (rsum ny (fun y => rsum nx (f y) - INR nx * rmean (flat ny nx f))).
    + apply rsum_ext. intros y _. rewrite rsum_minus, rsum_const. reflexivity.
    + rewrite rsum_minus, rsum_const. unfold pixel_sum. ring.
  - unfold rmean. rewrite lsum_flat, flat_length. field. apply not_0_INR. lia.
Qed.

Lemma images_sum_zero nz ny nx d v : (1 <= ny * nx)%nat ->
  pixel_sum ny nx (projection nz ny nx (full d) true v) = 0.
Proof.
  intros N. etransitivity; [apply pixel_sum_ext; intros; apply projection_full|].
  rewrite pixel_sum_rsum. apply rsum_zero. intros c Hc.
  transitivity (v c * pixel_sum ny nx (deviation ny nx d true c)).
  - rewrite <- pixel_sum_scal. apply pixel_sum_ext. intros; ring.
  - unfold deviation. rewrite mean_zero by exact N. ring.
Qed.

Lemma reconstruction nz ny nx d ms V c y x : orthonormal nz V -> (c < nz)%nat -> (y < ny)%nat -> (x < nx)%nat ->
  rsum nz (fun k => V c k * projection nz ny nx (full d) ms (fun j => V j k) y x) = deviation ny nx d ms c y x.
Proof.
  intros O Hc Hy Hx.
  transitivity (rsum nz (fun k => rsum nz (fun j => deviation ny nx d ms j y x * (V c k * V j k)))).
  - apply rsum_ext. intros k Hk. rewrite projection_full, <- rsum_scal. apply rsum_ext. intros; ring.
  - rewrite rsum_exchange. transitivity (rsum nz (fun j => deviation ny nx d ms j y x * if Nat.eqb c j then 1 else 0)).
    + apply rsum_ext. intros j Hj. rewrite rsum_scal. now rewrite (proj1 (O c j Hc Hj)).
    + rewrite (rsum_single nz _ c Hc).
      * rewrite Nat.eqb_refl. ring.
      * intros i Hi Hne. destruct (Nat.eqb_spec c i); [congruence|ring].
Qed.

Lemma total_variance nz ny nx d ms V eps big lam : enough ms (ny * nx) ->
  orthonormal nz V -> (forall k, (k < nz)%nat -> eigenvector nz (cov nz ny nx d ms eps big) (fun j => V j k) (lam k)) ->
  rsum nz lam = rsum nz (fun c => cov nz ny nx d ms eps big c c).
Proof.
  intros N O E.
  transitivity (rsum nz (fun c => rsum nz (fun k => rsum nz (fun j => cov nz ny nx d ms eps big c j * (V c k * V j k))))).
  - symmetry. transitivity (rsum nz (fun c => rsum nz (fun k => lam k * (V c k * V c k)))).
    + apply rsum_ext. intros c Hc. apply rsum_ext. intros k Hk.
      transitivity (V c k * rsum nz (fun j => cov nz ny nx d ms eps big c j * V j k)).
      * rewrite <- rsum_scal. apply rsum_ext. intros; ring.
      * rewrite (E k Hk c Hc). ring.
    + rewrite rsum_exchange. apply rsum_ext. intros k Hk. rewrite rsum_scal.
      assert (X : rsum nz (fun c => V c k * V c k) = 1).
      { rewrite (proj2 (O k k Hk Hk)), Nat.eqb_refl. reflexivity. }
      rewrite X. ring.
  - apply rsum_ext. intros c Hc. rewrite rsum_exchange. rewrite (rsum_single nz _ c Hc).
    + rewrite rsum_scal, (proj1 (O c c Hc Hc)), Nat.eqb_refl. ring.
    + intros i Hi Hne. rewrite rsum_scal, (proj1 (O c i Hc Hi)). destruct (Nat.eqb_spec c i); [congruence|ring].
Qed.

Lemma eigimage_full nz ny nx d ms v y x : (y < ny)%nat -> (x < nx)%nat ->
  eigimage nz ny nx (full d) ms v y x = projection nz ny nx (full d) ms v y x.
Proof. intros. apply eigimage_projection; auto. apply full_blankable. Qed.

Lemma eigimage_eigen nz ny nx d ms eps big v w mu : enough ms (ny * nx) ->
  eigenvector nz (at2 0 (var_cov_cube eps big (map (map Fin) (channels nz ny nx d)) ms)) w mu ->
  pixel_sum ny nx (fun y x => eigimage nz ny nx (full d) ms v y x * eigimage nz ny nx (full d) ms w y x) =
  mu * degrees ny nx ms * dot nz v w.
Proof.
  intros N E. rewrite <- (images_eigen nz ny nx d ms eps big v w mu N E).
  apply pixel_sum_ext. intros y x Hy Hx. now rewrite !eigimage_full.
Qed.

Lemma eigimage_sum_zero nz ny nx d v : (1 <= ny * nx)%nat -> pixel_sum ny nx (eigimage nz ny nx (full d) true v) = 0.
Proof.
  intros N. rewrite <- (images_sum_zero nz ny nx d v N). apply pixel_sum_ext. intros. now apply eigimage_full.
Qed.

Lemma eigimage_reconstruction nz ny nx d ms V c y x : orthonormal nz V -> (c < nz)%nat -> (y < ny)%nat -> (x < nx)%nat ->
  rsum nz (fun k => V c k * eigimage nz ny nx (full d) ms (fun j => V j k) y x) = deviation ny nx d ms c y x.
Proof.
  intros O Hc Hy Hx. rewrite <- (reconstruction nz ny nx d ms V c y x O Hc Hy Hx).
  apply rsum_ext. intros k Hk. now rewrite eigimage_full.
Qed.

Lemma total_of_variances nz ny nx d ms V eps big lam : let M := at2 0 (var_cov_cube eps big (map (map Fin) (channels nz ny nx d)) ms) in
  enough ms (ny * nx) -> orthonormal nz V -> (forall k, (k < nz)%nat -> eigenvector nz M (fun j => V j k) (lam k)) ->
  rsum nz lam = rsum nz (fun c => covariance ms (flat ny nx (d c)) (flat ny nx (d c))).
Proof.
  intros M N O E. rewrite (total_variance nz ny nx d ms V eps big lam N O E).
  apply rsum_ext. intros c Hc. rewrite covariance_flat, <- (cov_pixels nz ny nx d ms eps big c c N Hc Hc).
  assert (0 < degrees ny nx ms) by (revert N; unfold enough, degrees; destruct ms; intros N; apply le_INR in N; cbn [INR] in N; lra). field. lra.
Qed.

(** ** Beam contribution *)
Lemma fwhm_sigma_of fwhm sigma : 0 < fwhm -> gaussian_of_fwhm fwhm sigma -> fwhm / sqrt (8 * ln 2) = sigma.
Proof.
  intros F [S E]. apply (f_equal ln) in E. rewrite ln_exp in E.
  replace (1 / 2) with (/ 2) in E by lra. rewrite ln_Rinv in E by lra.
  assert (L : 0 < ln 2) by (rewrite <- ln_1; apply ln_increasing; lra).
  assert (Q : fwhm ^ 2 = 8 * ln 2 * sigma ^ 2).
  { assert (X : - (fwhm / 2) ^ 2 = - ln 2 * (2 * sigma ^ 2)).
    { rewrite <- E. field. lra. }
    lra. }
  assert (P : fwhm = sqrt (8 * ln 2) * sigma).
  { apply Rsqr_inj; [lra| |].
    - apply Rmult_le_pos; [apply sqrt_pos|lra].
    - rewrite Rsqr_mult, Rsqr_sqrt by lra. unfold Rsqr. lra. }
  rewrite P. field. apply Rgt_not_eq, sqrt_lt_R0. lra.
Qed.

Lemma beam_contribution fwhm cdelt sigma y x : 0 < fwhm -> cdelt <> 0 -> gaussian_of_fwhm fwhm sigma ->
  let t := sigma / (4 * sqrt 2 * Rabs cdelt) in
  beam_corrected_scale true (Some fwhm) (Some cdelt) y x = Ok (sqrt ((y - t) ^ 2 + (x - t) ^ 2)).
Proof.
  intros F C G t. unfold beam_corrected_scale, brunt_term2.
  assert (T : 3 / ((1 + 2) * (1 + 3)) * (fwhm / Rabs cdelt / sqrt (8 * ln 2) / sqrt 2) = t).
  { unfold t. rewrite <- (fwhm_sigma_of fwhm sigma F G).
    assert (L : 0 < ln 2) by (rewrite <- ln_1; apply ln_increasing; lra).
    field. repeat split; apply Rgt_not_eq; first [now apply Rabs_pos_lt | apply sqrt_lt_R0; lra]. }
  cbv zeta. rewrite T. do 2 f_equal. ring.
Qed.

Lemma ex_gaussian : gaussian_of_fwhm (sqrt (8 * ln 2)) 1.
Proof.
  assert (L : 0 < ln 2) by (rewrite <- ln_1; apply ln_increasing; lra).
  split; [lra|]. replace (- (sqrt (8 * ln 2) / 2) ^ 2 / (2 * 1 ^ 2)) with (- (Rsqr (sqrt (8 * ln 2)) / 8)) by (unfold Rsqr; field).
  rewrite Rsqr_sqrt by lra. replace (- (8 * ln 2 / 8)) with (- ln 2) by field.
  rewrite exp_Ropp, exp_ln by lra. lra.
Qed.

(** ** Examples *)
Definition ex_cube : nat -> nat -> nat -> R := fun c _ x => match c, x with 0%nat, 0%nat => 1 | 1%nat, 0%nat => 2 | _, _ => 0 end.
Definition ex_basis : nat -> nat -> R := fun c k => if Nat.eqb c k then 1 else 0.
Lemma ex_orthonormal : orthonormal 2 ex_basis.
Proof.
  intros i j Hi Hj. unfold ex_basis. destruct i as [|[|i]], j as [|[|j]]; try lia; cbn; split; ring.
Qed.
Definition ex_cube2 : nat -> nat -> nat -> R := fun c _ x => match c, x with 0%nat, 0%nat => 1 | 1%nat, 1%nat => 2 | _, _ => 0 end.
Lemma ex_eigen : enough false (1 * 2) /\ eigenvector 2 (at2 0 (var_cov_cube (1 / 4) 9 (map (map Fin) (channels 2 1 2 ex_cube2)) false)) (fun c => ex_basis c 1) 2 /\
  eigenvector 2 (at2 0 (var_cov_cube (1 / 4) 9 (map (map Fin) (channels 2 1 2 ex_cube2)) false)) (fun c => ex_basis c 0) (1 / 2).
Proof.
  assert (N : enough false (1 * 2)) by (cbn; lia). split; [exact N|].
  assert (V : forall i j, (i < 2)%nat -> (j < 2)%nat -> at2 0 (var_cov_cube (1 / 4) 9 (map (map Fin) (channels 2 1 2 ex_cube2)) false) i j =
     pixel_sum 1 2 (fun y x => deviation 1 2 ex_cube2 false i y x * deviation 1 2 ex_cube2 false j y x) / 2).
  { intros i j Hi Hj. pose proof (cov_pixels 2 1 2 ex_cube2 false (1 / 4) 9 i j N Hi Hj) as H. unfold cov in H. rewrite <- H.
    unfold degrees. cbn [INR Nat.mul Nat.add]. lra. }
  split; intros i Hi; cbn [rsum]; rewrite !V by lia; unfold pixel_sum, deviation, ex_cube2, ex_basis; cbn [rsum];
  destruct i as [|[|i]]; try lia; cbn; lra.
Qed.
