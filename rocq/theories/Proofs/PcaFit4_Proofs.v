(** Proofs about Model/PcaFit.v: lists of spectra and widths, sampled sonic lengths, gamma,
    errors of the widths, signs (C194-C196, C201-C205). *)
From Coq Require Import String Reals List ZArith Lia Lra Arith Bool Sorted Permutation.
From Coquelicot Require Import Complex.
From Coq Require Import List.
From Verif Require Import Lib.PyBase Lib.RSum Lib.Fl Lib.Arr Lib.DFT Lib.DFT2 Spec.Blank Spec.Components Spec.SizeWidth
  Model.StatsUtils Model.Psds Model.Pca Model.EllipPlaw Model.PcaFit Proofs.Psds_Proofs Proofs.Pca2_Proofs Proofs.EllipFit_Proofs Proofs.Pdf_Proofs
  Proofs.PcaFit_Proofs Proofs.PcaFit2_Proofs Proofs.PcaFit3_Proofs.
Import ListNotations.
Local Open Scope R_scope.

(** ** Spectra *)
Lemma spec_ok nz eigvecs n : (2 <= n <= Z.of_nat nz)%Z ->
  autocorr_spec nz eigvecs n = Ok (map (fun idx => autocorr_vector nz (fun channel => eigvecs channel idx)) (seq 0 (Z.to_nat n))).
Proof.
  intros H. unfold autocorr_spec. destruct (Z.leb_spec n 0); [lia|]. destruct (Z.ltb_spec (Z.of_nat nz) n); [lia|]. destruct (Z.eqb_spec n 1); [lia|]. reflexivity.
Qed.

Lemma spec_values nz eigvecs n : (2 <= n <= Z.of_nat nz)%Z ->
  exists l, autocorr_spec nz eigvecs n = Ok l /\ length l = Z.to_nat n /\
    forall idx, (idx < Z.to_nat n)%nat -> length (nth idx l []) = nz /\
      forall d, (d < nz)%nat -> nth d (nth idx l []) 0 = spectrum_acf nz (drop_first (fun channel => eigvecs channel idx)) d.
Proof.
  intros H. eexists. split; [now apply spec_ok|]. split; [now rewrite map_length, seq_length|]. intros idx Hi.
  set (F := fun idx => autocorr_vector nz (fun channel => eigvecs channel idx)).
  rewrite (nth_indep _ [] (F 0%nat)) by now rewrite map_length, seq_length.
  rewrite map_nth, seq_nth by auto. cbn [Nat.add]. split; [apply acf_vector_length|]. intros d Hd. now apply acf_vector_value.
Qed.

Lemma drop_first_id n v d : v 0%nat = 0 -> spectrum_acf n (drop_first v) d = spectrum_acf n v d.
Proof.
  intros H. assert (E : forall c, drop_first v c = v c) by (intros [|c]; [symmetry; exact H|reflexivity]).
  unfold spectrum_acf. apply rsum_ext. intros. now rewrite !E.
Qed.

Definition ex_basis (channel idx : nat) : R := if Nat.eqb channel idx then 1 else 0.

Lemma spec_refuted : exists nz eigvecs n l, autocorr_spec nz eigvecs n = Ok l /\ (2 <= n <= Z.of_nat nz)%Z /\
  (forall i, (i < nz)%nat -> rsum nz (fun c => eigvecs c i * eigvecs c i) = 1) /\
  nth 0 (nth 0 l []) 0 = 0 /\ spectrum_acf nz (fun channel => eigvecs channel 0%nat) 0 = 1.
Proof.
  destruct (spec_values 2 ex_basis 2 ltac:(cbn; lia)) as [l [H [_ K]]].
  exists 2%nat, ex_basis, 2%Z, l. split; [exact H|]. split; [cbn; lia|]. split; [|split].
  - intros i Hi. destruct i as [|[|i]]; [| |lia]; cbn; ring.
  - destruct (K 0%nat ltac:(cbn; lia)) as [_ E]. rewrite E by lia. rewrite spectrum_acf_0. cbn. ring.
  - rewrite spectrum_acf_0. cbn. ring.
Qed.

Lemma spec_single nz eigvecs : (1 <= nz)%nat -> autocorr_spec nz eigvecs 1 = Err ValueError /\ find_spectral_widths nz eigvecs 1 = Err ValueError.
Proof.
  intros H. assert (E : autocorr_spec nz eigvecs 1 = Err ValueError).
  { unfold autocorr_spec. cbn [Z.leb Z.compare]. destruct (Z.ltb_spec (Z.of_nat nz) 1); [lia|]. reflexivity. }
  split; [exact E|]. unfold find_spectral_widths. now rewrite E.
Qed.

Lemma spec_negative nz eigvecs n : (n < 0)%Z -> autocorr_spec nz eigvecs n = Err UnboundLocalError.
Proof. intros H. unfold autocorr_spec. destruct (Z.leb_spec n 0); [reflexivity|lia]. Qed.

Lemma widths_each nz eigvecs n : (2 <= n <= Z.of_nat nz)%Z ->
  exists l, find_spectral_widths nz eigvecs n = Ok l /\ length l = Z.to_nat n /\
  forall idx, (idx < Z.to_nat n)%nat ->
    let acf := spectrum_acf nz (drop_first (fun channel => eigvecs channel idx)) in
    ((acf 0%nat = 0 \/ forall d, (d < nz)%nat -> exp (-1) * acf 0%nat <= acf d) /\ nth idx l (NaN, NaN) = (NaN, NaN)) \/
    exists d w, (1 <= d)%nat /\ (2 * d <= nz)%nat /\ acf d < exp (-1) * acf 0%nat /\ (forall j, (j < d)%nat -> exp (-1) * acf 0%nat <= acf j) /\
      nth idx l (NaN, NaN) = (Fin w, Fin (1 / 2)) /\ 0 < w /\ INR d - 1 <= w < INR d /\
      acf (d - 1)%nat + (w - (INR d - 1)) * (acf d - acf (d - 1)%nat) = exp (-1) * acf 0%nat.
Proof.
  intros H. unfold find_spectral_widths. rewrite spec_ok by auto. cbn [bind]. rewrite map_map. eexists. split; [reflexivity|].
  split; [now rewrite map_length, seq_length|]. intros idx Hi.
  set (F := fun idx => snd (walk_down (autocorr_vector nz (fun channel => eigvecs channel idx)))).
  assert (E : nth idx (map F (seq 0 (Z.to_nat n))) (NaN, NaN) = F idx).
  { rewrite (nth_indep _ (NaN, NaN) (F 0%nat)) by now rewrite map_length, seq_length. rewrite map_nth, seq_nth by auto. reflexivity. }
  fold F. rewrite E. apply spectral_width. lia.
Qed.

(** A spectrum with a width *)
Definition ex_ramp (channel idx : nat) : R := if Nat.eqb channel 1 then 1 else 0.
Lemma ex_width : exists l w, find_spectral_widths 4 ex_ramp 2 = Ok l /\ nth 0 l (NaN, NaN) = (Fin w, Fin (1 / 2)) /\ 0 < w < 1.
Proof.
  destruct (widths_each 4 ex_ramp 2 ltac:(cbn; lia)) as [l [H [_ K]]]. specialize (K 0%nat ltac:(cbn; lia)). cbv zeta in K.
  assert (A0 : spectrum_acf 4 (drop_first (fun channel => ex_ramp channel 0)) 0 = 1) by (rewrite spectrum_acf_0; cbn; ring).
  assert (A1 : spectrum_acf 4 (drop_first (fun channel => ex_ramp channel 0)) 1 = 0) by (unfold spectrum_acf; cbn; ring).
  assert (e1 : 0 < exp (-1)) by apply exp_pos.
  destruct K as [[[K|K] _]|[d [w [Hd [_ [C [B [E [P [Q _]]]]]]]]]].
  - lra.
  - specialize (K 1%nat ltac:(lia)). rewrite A0, A1 in K. lra.
  - exists l, w. split; [exact H|]. split; [exact E|]. split; [exact P|].
    assert (d = 1%nat). { destruct (Nat.eq_dec d 1); [auto|]. specialize (B 1%nat ltac:(lia)). rewrite A0, A1 in B. lra. }
    subst d. cbn in Q. lra.
Qed.

(** ** Sampled sonic lengths *)
Lemma percentile_bounds l q : l <> [] -> 0 <= q <= 100 -> exists lo hi, is_min lo l /\ is_max hi l /\ lo <= percentile (sort_r l) q <= hi.
Proof.
  intros Hl Hq. pose proof (sort_ne l Hl) as N.
  exists (nth 0 (sort_r l) 0), (nth (length (sort_r l) - 1) (sort_r l) 0). split; [now apply sort_min|]. split; [now apply sort_max|].
  rewrite <- (percentile_0 _ N), <- (percentile_100 _ N). split; apply percentile_mono; auto; try apply sort_sorted; lra.
Qed.

Lemma percentile_const l q v : l <> [] -> (forall y, In y l -> y = v) -> 0 <= q <= 100 -> percentile (sort_r l) q = v.
Proof.
  intros Hl Hv Hq. destruct (percentile_bounds l q Hl Hq) as [lo [hi [[A _] [[B _] C]]]]. rewrite (Hv lo A), (Hv hi B) in C. lra.
Qed.

Lemma bayes_blind c_s g f (samps : list (R * R)) i0 : samps <> [] -> (forall sm, In sm samps -> snd sm = i0) ->
  let r := sonic_range_bayes c_s g f samps in fst r = snd r.
Proof.
  intros Hs Hi. unfold sonic_range_bayes. cbv zeta. cbn [fst snd].
  set (l := map _ samps). assert (L : l <> []) by (unfold l; destruct samps; [congruence|discriminate]).
  assert (V : forall y, In y l -> y = Rpower (c_s / Rpower 10 i0) (1 / used_index g f)).
  { intros y Hy. unfold l in Hy. apply in_map_iff in Hy. destruct Hy as [sm [<- Hm]]. now rewrite (Hi sm Hm). }
  rewrite (percentile_const l 15 _ L V), (percentile_const l 85 _ L V) by lra. reflexivity.
Qed.

Lemma sonic_of_2 : sonic_of 2 1 0 = 2 /\ sonic_of 2 (1 / 2) 0 = 4.
Proof.
  unfold sonic_of. destruct rpow10 as [_ [B _]]. rewrite B. replace (2 / 1) with 2 by field. replace (1 / 1) with 1 by field. replace (1 / (1 / 2)) with (1 + 1) by field.
  rewrite Rpower_plus, Rpower_1 by lra. lra.
Qed.

Lemma int_part_0 r : 0 <= r < 1 -> Int_part r = 0%Z.
Proof.
  intros H. destruct (base_Int_part r) as [A B].
  assert (Int_part r < 1)%Z by (apply lt_IZR; lra). assert (-1 < Int_part r)%Z by (apply lt_IZR; change (IZR (-1)) with (-1); lra). lia.
Qed.

Lemma bayes_refuted : exists c_s f samps, 0 < c_s /\ 0 < f_index f /\
  (forall sm, In sm samps -> 0 < fst sm) /\
  (let r := sonic_range_bayes c_s false f samps in fst r = snd r) /\
  percentile (sort_r (map (fun sm => sonic_of c_s (fst sm) (snd sm)) samps)) 15 < percentile (sort_r (map (fun sm => sonic_of c_s (fst sm) (snd sm)) samps)) 85.
Proof.
  exists 2, (odr_fitted 1 0 0 1), [(1, 0); (1 / 2, 0)]. split; [lra|]. split; [cbn; lra|]. split; [|split].
  - intros sm [<-|[<-|[]]]; cbn; lra.
  - apply (bayes_blind _ _ _ _ 0); [discriminate|]. intros sm [<-|[<-|[]]]; reflexivity.
  - cbn [map fst snd]. destruct sonic_of_2 as [A B]. rewrite A, B. unfold sort_r. cbn [fold_right insert_r]. destruct (Rleb_spec 2 4); [|lra].
    unfold percentile. cbv zeta. cbn [length]. change (INR 2) with 2.
    assert (I1 : Int_part (15 / 100 * (2 - 1)) = 0%Z) by (apply int_part_0; lra).
    assert (I2 : Int_part (85 / 100 * (2 - 1)) = 0%Z) by (apply int_part_0; lra).
    rewrite I1, I2. cbn. lra.
Qed.

Lemma bayes_same_slope c_s (g : bool) f (samps : list (R * R)) : (forall sm, In sm samps -> (if g then brunt_index_correct (fst sm) else fst sm) = used_index g f) ->
  sonic_range_bayes c_s g f samps =
  (percentile (sort_r (map (fun sm => sonic_of c_s (if g then brunt_index_correct (fst sm) else fst sm) (snd sm)) samps)) 15,
   percentile (sort_r (map (fun sm => sonic_of c_s (if g then brunt_index_correct (fst sm) else fst sm) (snd sm)) samps)) 85).
Proof.
  intros H. unfold sonic_range_bayes. cbv zeta.
  assert (E : map (fun sm => Rpower (c_s / Rpower 10 (snd sm)) (1 / used_index g f)) samps =
              map (fun sm => sonic_of c_s (if g then brunt_index_correct (fst sm) else fst sm) (snd sm)) samps).
  { apply map_ext_in. intros sm Hm. unfold sonic_of. now rewrite (H sm Hm). }
  now rewrite E.
Qed.

Lemma bayes_ordered c_s g f samps : samps <> [] -> fst (sonic_range_bayes c_s g f samps) <= snd (sonic_range_bayes c_s g f samps).
Proof.
  intros H. unfold sonic_range_bayes. cbv zeta. cbn [fst snd]. apply percentile_mono; try lra.
  - apply sort_sorted.
  - apply sort_ne. destruct samps; [congruence|discriminate].
Qed.

(** ** gamma *)
Lemma gamma_bracket lo a hi : - (10 / 9) <= lo -> lo <= a <= hi ->
  fst (brunt_index_correct_range lo hi) <= brunt_index_correct a <= snd (brunt_index_correct_range lo hi).
Proof. intros H1 H2. unfold brunt_index_correct_range, brunt_index_correct. cbn [fst snd]. lra. Qed.

Lemma gamma_outside : exists lo a hi, lo <= a <= hi /\ ~ fst (brunt_index_correct_range lo hi) <= brunt_index_correct a.
Proof. exists (-2), (-2), (-1). unfold brunt_index_correct_range, brunt_index_correct. cbn [fst]. lra. Qed.

Lemma gamma_relation beta gamma alpha : alpha = 33 / 100 * beta - 5 / 100 -> beta = 2 * gamma + 1 ->
  0 <= alpha <= 2 -> 22 / 100 < brunt_index_correct alpha - gamma < 26 / 100.
Proof. intros -> -> H. unfold brunt_index_correct. lra. Qed.

(** ** Errors of the spatial widths *)
Lemma combined_error t y x ey ex : 0 <= ey -> 0 <= ex -> (y <> t \/ x <> t) ->
  exists w e, combine_widths (Fin t) (Fin y) (Fin x) (Fin ey) (Fin ex) = (Fin w, Fin e) /\
    w = sqrt ((y - t) ^ 2 + (x - t) ^ 2) /\ 0 < w /\ Rmin ey ex <= e <= Rmax ey ex.
Proof.
  intros Hy Hx Hn. unfold combine_widths. cbv zeta. unfold fsub, fsqr. cbn [fneg fadd fmul fabs].
  replace (1 * 1) with 1 by ring. rewrite Rabs_R1, !Rmult_1_l.
  set (a := y + - t). set (b := x + - t). set (S2 := a * a + b * b).
  assert (Qa : 0 <= a * a) by apply Rle_0_sqr. assert (Qb : 0 <= b * b) by apply Rle_0_sqr.
  assert (Sp : 0 < S2).
  { unfold S2. destruct Hn as [K|K].
    - assert (0 < a * a) by (apply Rsqr_pos_lt; unfold a; lra). lra.
    - assert (0 < b * b) by (apply Rsqr_pos_lt; unfold b; lra). lra. }
  set (T2 := b * ex * (b * ex) + a * ey * (a * ey)).
  assert (Tp : 0 <= T2) by (unfold T2; apply Rplus_le_le_0_compat; apply Rle_0_sqr).
  rewrite (fsqrt_fin S2), (fsqrt_fin T2) by lra.
  assert (W : 0 < sqrt S2) by now apply sqrt_lt_R0.
  cbn [fdiv]. destruct (Reqb_spec (sqrt S2) 0) as [E|_]; [lra|].
  exists (sqrt S2), (sqrt T2 / sqrt S2). split; [reflexivity|]. split.
  { f_equal. unfold S2, a, b. ring. }
  split; [exact W|].
  set (m := Rmin ey ex). set (M := Rmax ey ex).
  assert (m0 : 0 <= m) by (unfold m; apply Rmin_glb; auto).
  assert (my : m <= ey) by apply Rmin_l. assert (mx : m <= ex) by apply Rmin_r.
  assert (My : ey <= M) by apply Rmax_l. assert (Mx : ex <= M) by apply Rmax_r.
  assert (L : m * m * S2 <= T2).
  { assert (m * m <= ex * ex) by (apply Rmult_le_compat; auto). assert (m * m <= ey * ey) by (apply Rmult_le_compat; auto).
    assert (a * a * (m * m) <= a * a * (ey * ey)) by (apply Rmult_le_compat_l; auto). assert (b * b * (m * m) <= b * b * (ex * ex)) by (apply Rmult_le_compat_l; auto).
    unfold T2, S2. lra. }
  assert (U : T2 <= M * M * S2).
  { assert (ex * ex <= M * M) by (apply Rmult_le_compat; auto). assert (ey * ey <= M * M) by (apply Rmult_le_compat; auto).
    assert (a * a * (ey * ey) <= a * a * (M * M)) by (apply Rmult_le_compat_l; auto). assert (b * b * (ex * ex) <= b * b * (M * M)) by (apply Rmult_le_compat_l; auto).
    unfold T2, S2. lra. }
  assert (M0 : 0 <= M) by lra.
  assert (E : forall r, 0 <= r -> sqrt (r * r * S2) = r * sqrt S2).
  { intros r Hr. rewrite sqrt_mult by (try lra; apply Rle_0_sqr). now rewrite sqrt_square. }
  split.
  - apply (Rmult_le_reg_r (sqrt S2)); [exact W|]. unfold Rdiv. rewrite Rmult_assoc, Rinv_l, Rmult_1_r by lra.
    rewrite <- E by auto. now apply sqrt_le_1_alt.
  - apply (Rmult_le_reg_r (sqrt S2)); [exact W|]. unfold Rdiv. rewrite Rmult_assoc, Rinv_l, Rmult_1_r by lra.
    rewrite <- E by auto. now apply sqrt_le_1_alt.
Qed.

Lemma combined_zero t ey ex : combine_widths (Fin t) (Fin t) (Fin t) (Fin ey) (Fin ex) = (Fin 0, NaN).
Proof.
  unfold combine_widths. cbv zeta. unfold fsub, fsqr. cbn [fneg fadd fmul fabs]. rewrite Rplus_opp_r, !Rmult_0_l, Rplus_0_r.
  rewrite fsqrt_fin by lra. rewrite sqrt_0. cbn [fdiv]. destruct (Reqb_spec 0 0) as [_|E]; [|congruence]. unfold sinf. destruct (Rltb_spec 0 0); [lra|]. reflexivity.
Qed.

(** ** Signs *)
Lemma sign_sqr s idx : sign_choice s -> s idx * s idx = 1.
Proof. intros H. destruct (H idx) as [E|E]; rewrite E; ring. Qed.

Lemma nth_eq_r (l l' : list R) : length l = length l' -> (forall d, (d < length l)%nat -> nth d l 0 = nth d l' 0) -> l = l'.
Proof. intros L H. now apply (nth_ext l l' 0 0). Qed.

Lemma vector_sign n v s : s * s = 1 -> autocorr_vector n (fun c => s * v c) = autocorr_vector n v.
Proof.
  intros H. apply nth_eq_r; [now rewrite !acf_vector_length|]. rewrite acf_vector_length. intros d Hd.
  rewrite !acf_vector_value by auto. rewrite <- (spectrum_acf_sign n (drop_first v) d s H).
  unfold spectrum_acf. apply rsum_ext. intros c Hc.
  assert (E : forall i, drop_first (fun c => s * v c) i = s * drop_first v i) by (intros [|i]; cbn; ring). now rewrite !E.
Qed.

Lemma spec_sign nz eigvecs s n : sign_choice s -> autocorr_spec nz (signed s eigvecs) n = autocorr_spec nz eigvecs n.
Proof.
  intros H. unfold autocorr_spec. destruct (n <=? 0)%Z; [reflexivity|]. destruct (Z.of_nat nz <? n)%Z; [reflexivity|]. destruct (n =? 1)%Z; [reflexivity|].
  f_equal. apply map_ext. intros idx. unfold signed. apply (vector_sign nz (fun channel => eigvecs channel idx)). now apply sign_sqr.
Qed.

Lemma widths_sign nz eigvecs s n : sign_choice s -> find_spectral_widths nz (signed s eigvecs) n = find_spectral_widths nz eigvecs n.
Proof. intros H. unfold find_spectral_widths. now rewrite spec_sign. Qed.

Lemma eigimage_sign nz ny nx data ms vec s y x : eigimage nz ny nx data ms (fun c => s * vec c) y x = s * eigimage nz ny nx data ms vec y x.
Proof.
  unfold eigimage. cbv zeta. rewrite <- rsum_scal. apply rsum_ext. intros c Hc.
  assert (Z : forall r, nan_to_num (sinf r) = 0) by (intros r; unfold sinf; destruct (Rltb_spec 0 r); [reflexivity|]; destruct (Rltb_spec r 0); reflexivity).
  assert (Z' : forall r, nan_to_num (fneg (sinf r)) = 0) by (intros r; unfold sinf; destruct (Rltb_spec 0 r); [reflexivity|]; destruct (Rltb_spec r 0); reflexivity).
  set (v := if ms then _ else _). destruct v; cbn [fmul]; rewrite ?Z, ?Z'; try ring; cbn [nan_to_num]; ring.
Qed.

Lemma image_sign n0 n1 img s i j : (i < n0)%nat -> (j < n1)%nat -> s * s = 1 ->
  at2 0 (autocorr_image n0 n1 (fun y x => s * img y x)) i j = at2 0 (autocorr_image n0 n1 img) i j.
Proof.
  intros Hi Hj H. rewrite !autocorr_image_value by auto. unfold circular_acf. apply rsum_ext. intros y Hy. apply rsum_ext. intros x Hx.
  assert (E : forall a b, without_first (fun y x => s * img y x) a b = s * without_first img a b) by (intros [|a] [|b]; cbn; ring).
  rewrite !E. transitivity ((s * s) * (without_first img (wrap n0 (Z.of_nat y + (Z.of_nat i - Z.of_nat (n0 / 2)))) (wrap n1 (Z.of_nat x + (Z.of_nat j - Z.of_nat (n1 / 2)))) * without_first img y x)); [ring|].
  rewrite H. ring.
Qed.

Lemma image_ext n0 n1 f g i j : (i < n0)%nat -> (j < n1)%nat -> (forall y x, f y x = g y x) -> at2 0 (autocorr_image n0 n1 f) i j = at2 0 (autocorr_image n0 n1 g) i j.
Proof.
  intros Hi Hj H. rewrite !autocorr_image_value by auto. apply circular_acf_ext. intros [|y] [|x]; cbn; auto.
Qed.

Lemma images_sign nz ny nx data ms eps eigvals eigvecs s n : sign_choice s ->
  autocorr_images nz ny nx data ms eps eigvals (signed s eigvecs) n = autocorr_images nz ny nx data ms eps eigvals eigvecs n.
Proof.
  intros H. unfold autocorr_images, eigimages.
  destruct (if (0 <? n)%Z then _ else _) as [idxs|e]; cbn [bind]; [|reflexivity].
  destruct (existsb _ idxs); [reflexivity|]. cbv zeta.
  destruct idxs as [|i [|i' idxs]]; [reflexivity|reflexivity|]. cbn [bind]. f_equal. rewrite !map_map. apply map_ext. intros idx.
  unfold transpose. apply tab2_ext. intros y x Hy Hx. pose proof (sign_sqr s idx H) as Q.
  rewrite (image_ext nx ny (fun x0 y0 => eigimage nz ny nx data ms (fun channel => signed s eigvecs channel idx) y0 x0)
             (fun x0 y0 => s idx * eigimage nz ny nx data ms (fun channel => eigvecs channel idx) y0 x0)) by (auto; intros; apply eigimage_sign).
  now apply (image_sign nx ny (fun x0 y0 => eigimage nz ny nx data ms (fun channel => eigvecs channel idx) y0 x0)).
Qed.

Lemma noise_sign nz ny nx data ms eps eigvals eigvecs s n : sign_choice s ->
  noise_ACF nz ny nx data ms eps eigvals (signed s eigvecs) n = noise_ACF nz ny nx data ms eps eigvals eigvecs n.
Proof. intros H. unfold noise_ACF. now rewrite images_sign. Qed.
