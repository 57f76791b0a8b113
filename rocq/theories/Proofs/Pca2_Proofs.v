(** Proofs about Model/Pca.v: autocorrelations, noise, widths (C25-C28, C80, C83). *)
From Coq Require Import String Reals List ZArith Lia Lra Arith Bool.
From Coquelicot Require Import Complex.
From Verif Require Import Lib.PyBase Lib.RSum Lib.Fl Lib.PySlice Lib.Arr Lib.DFT Lib.DFT2 Lib.ListMore Spec.Components
  Model.StatsUtils Model.Psds Model.Pca Proofs.Psds_Proofs Proofs.Pca_Proofs.
Import ListNotations.
Local Open Scope R_scope.

(** ** Fourier side *)
Lemma dft_minus_mean n0 n1 img ky kx : (0 < n0)%nat -> (0 < n1)%nat ->
  Cminus (dft2 n0 n1 (fun i j => RtoC (img i j)) ky kx)
    (Cmult (RtoC (/ (INR n0 * INR n1))) (csum n0 (fun i => csum n1 (fun j => dft2 n0 n1 (fun i j => RtoC (img i j)) i j))))
  = dft2 n0 n1 (fun i j => RtoC (without_first img i j)) ky kx.
Proof.
  intros H0 H1.
  assert (M : Cmult (RtoC (/ (INR n0 * INR n1))) (csum n0 (fun i => csum n1 (fun j => dft2 n0 n1 (fun i j => RtoC (img i j)) i j))) = RtoC (img 0%nat 0%nat)).
  { rewrite <- (idft2_dft2 n0 n1 (fun i j => RtoC (img i j)) 0 0) by auto. unfold idft2, idft1.
    rewrite Rinv_mult, RtoC_mult, <- Cmult_assoc. f_equal. rewrite <- csum_scal. apply csum_ext. intros i Hi.
    rewrite tw_0_l, Cconj_RtoC, Cmult_1_r. f_equal. apply csum_ext. intros j Hj. rewrite tw_0_l, Cconj_RtoC. ring. }
  rewrite M. unfold dft2.
  rewrite <- (Cmult_1_r (RtoC (img 0%nat 0%nat))).
  transitivity (Cminus (csum n0 (fun y => csum n1 (fun x => Cmult (RtoC (img y x)) (Cmult (tw n0 y ky) (tw n1 x kx)))))
    (csum n0 (fun y => csum n1 (fun x => match y, x with O, O => RtoC (img 0%nat 0%nat) | _, _ => RtoC 0 end)))).
  - f_equal. rewrite (csum_single n0 _ 0).
    + rewrite (csum_single n1 _ 0); auto; [ring|]. intros [|i] Hi Hn; [lia|reflexivity].
    + auto.
    + intros [|i] Hi Hn; [lia|]. apply csum_zero. reflexivity.
  - rewrite <- csum_minus. apply csum_ext. intros y Hy. rewrite <- csum_minus. apply csum_ext. intros x Hx.
    unfold without_first. destruct y; destruct x; try ring. rewrite !tw_0_l. ring.
Qed.

Lemma conj_minus_mean n0 n1 (X : nat -> nat -> C) ky kx :
  Cminus (Cconj (X ky kx)) (Cmult (RtoC (/ (INR n0 * INR n1))) (csum n0 (fun i => csum n1 (fun j => Cconj (X i j)))))
  = Cconj (Cminus (X ky kx) (Cmult (RtoC (/ (INR n0 * INR n1))) (csum n0 (fun i => csum n1 (fun j => X i j))))).
Proof.
  rewrite (csum_ext n0 (fun i => csum n1 (fun j => Cconj (X i j))) (fun i => Cconj (csum n1 (fun j => X i j)))) by (intros; now rewrite csum_conj).
  rewrite <- csum_conj. set (s := csum n0 _). set (x := X ky kx). set (r := / _).
  apply Ceq; cbn; ring.
Qed.

Definition acf_nat (n0 n1 : nat) (b : nat -> nat -> R) (i j : nat) : R :=
  rsum n0 (fun y => rsum n1 (fun x => b ((y + i) mod n0)%nat ((x + j) mod n1)%nat * b y x)).

Lemma autocorr_image_nat n0 n1 img i j : (i < n0)%nat -> (j < n1)%nat ->
  at2 0 (autocorr_image n0 n1 img) i j = acf_nat n0 n1 (without_first img) (unshift n0 i) (unshift n1 j).
Proof.
  intros Hi Hj. unfold autocorr_image. cbv zeta. rewrite fftshift2_tab, at2_tab by auto.
  assert (Ui : (unshift n0 i < n0)%nat) by (apply Nat.mod_upper_bound; lia).
  assert (Uj : (unshift n1 j < n1)%nat) by (apply Nat.mod_upper_bound; lia).
  rewrite (idft2_ext n0 n1 _ (fun ky kx => Cmult (dft2 n0 n1 (fun i j => RtoC (without_first img i j)) ky kx)
     (Cconj (dft2 n0 n1 (fun i j => RtoC (without_first img i j)) ky kx)))).
  - rewrite (correlation2 n0 n1 (fun i j => RtoC (without_first img i j)) (fun i j => RtoC (without_first img i j))) by auto.
    rewrite csum_fst. apply rsum_ext. intros y Hy. rewrite csum_fst. apply rsum_ext. intros x Hx. cbn. ring.
  - intros ky kx Hky Hkx. rewrite conj_minus_mean. rewrite dft_minus_mean by lia. reflexivity.
Qed.

Lemma wrap_lt n d : (0 < n)%nat -> (wrap n d < n)%nat.
Proof. intros H. unfold wrap. pose proof (Z.mod_pos_bound d (Z.of_nat n)). lia. Qed.

Lemma wrap_add n y d : (0 < n)%nat -> ((y + wrap n d) mod n)%nat = wrap n (Z.of_nat y + d).
Proof.
  intros H. unfold wrap. pose proof (Z.mod_pos_bound d (Z.of_nat n) ltac:(lia)) as B.
  apply Nat2Z.inj. rewrite Nat2Z.inj_mod, Nat2Z.inj_add, !Z2Nat.id.
  - now rewrite Zplus_mod_idemp_r.
  - apply Z.mod_pos_bound. lia.
  - lia.
Qed.

Lemma unshift_wrap n i : (i < n)%nat -> unshift n i = wrap n (Z.of_nat i - Z.of_nat (n / 2)).
Proof.
  intros H. unfold unshift. unfold Z.sub. rewrite <- (wrap_add n i (- Z.of_nat (n / 2))) by lia.
  assert (n / 2 <= n)%nat by (apply Nat.div_le_upper_bound; lia).
  rewrite <- (Nat.add_mod_idemp_r i (n - n / 2)) by lia. f_equal. f_equal. unfold wrap.
  apply Nat2Z.inj. rewrite Nat2Z.inj_mod, Z2Nat.id by (apply Z.mod_pos_bound; lia).
  replace (Z.of_nat (n - n / 2)) with (- Z.of_nat (n / 2) + 1 * Z.of_nat n)%Z by lia.
  now rewrite Z.mod_add by lia.
Qed.

Lemma autocorr_image_value n0 n1 img i j : (i < n0)%nat -> (j < n1)%nat ->
  at2 0 (autocorr_image n0 n1 img) i j =
  circular_acf n0 n1 (without_first img) (Z.of_nat i - Z.of_nat (n0 / 2)) (Z.of_nat j - Z.of_nat (n1 / 2)).
Proof.
  intros Hi Hj. rewrite autocorr_image_nat, !unshift_wrap by auto. unfold acf_nat, circular_acf.
  apply rsum_ext. intros y Hy. apply rsum_ext. intros x Hx. now rewrite !wrap_add by lia.
Qed.

Lemma wrap_small n y : (y < n)%nat -> wrap n (Z.of_nat y) = y.
Proof. intros H. unfold wrap. rewrite Z.mod_small by lia. lia. Qed.

Lemma wrap_wrap n d e : (0 < n)%nat -> wrap n (Z.of_nat (wrap n d) + e) = wrap n (d + e).
Proof.
  intros H. unfold wrap. rewrite Z2Nat.id by (apply Z.mod_pos_bound; lia). now rewrite Zplus_mod_idemp_l.
Qed.

Lemma wrap_inj n d y y' : (y < n)%nat -> (y' < n)%nat -> wrap n (Z.of_nat y + d) = wrap n (Z.of_nat y' + d) -> y = y'.
Proof.
  intros H H' E. rewrite <- (wrap_small n y H), <- (wrap_small n y' H').
  replace (Z.of_nat y) with (Z.of_nat y + d + - d)%Z by lia. replace (Z.of_nat y') with (Z.of_nat y' + d + - d)%Z by lia.
  rewrite <- !(wrap_wrap n (_ + d)) by lia. now rewrite E.
Qed.

Lemma rsum_wrap n d f : rsum n (fun y => f (wrap n (Z.of_nat y + d))) = rsum n f.
Proof.
  destruct n as [|n]; [reflexivity|].
  apply (rsum_reindex (S n) f (fun y => wrap (S n) (Z.of_nat y + d))).
  - intros. apply wrap_lt. lia.
  - intros i j Hi Hj. now apply wrap_inj.
Qed.

Lemma rsum2_wrap n0 n1 dy dx (f : nat -> nat -> R) :
  rsum n0 (fun y => rsum n1 (fun x => f (wrap n0 (Z.of_nat y + dy)) (wrap n1 (Z.of_nat x + dx)))) = rsum n0 (fun y => rsum n1 (f y)).
Proof.
  rewrite (rsum_wrap n0 dy (fun y => rsum n1 (fun x => f y (wrap n1 (Z.of_nat x + dx))))).
  apply rsum_ext. intros y Hy. apply (rsum_wrap n1 dx (f y)).
Qed.

Lemma circular_acf_sym n0 n1 b dy dx : circular_acf n0 n1 b (- dy) (- dx) = circular_acf n0 n1 b dy dx.
Proof.
  unfold circular_acf.
  rewrite <- (rsum2_wrap n0 n1 dy dx (fun y x => b (wrap n0 (Z.of_nat y + - dy)) (wrap n1 (Z.of_nat x + - dx)) * b y x)).
  apply rsum_ext. intros y Hy. apply rsum_ext. intros x Hx. rewrite !wrap_wrap by lia.
  replace (Z.of_nat y + dy + - dy)%Z with (Z.of_nat y) by lia. replace (Z.of_nat x + dx + - dx)%Z with (Z.of_nat x) by lia.
  rewrite !wrap_small by auto. ring.
Qed.

Lemma circular_acf_peak n0 n1 b dy dx : Rabs (circular_acf n0 n1 b dy dx) <= circular_acf n0 n1 b 0 0.
Proof.
  assert (Z0 : circular_acf n0 n1 b 0 0 = rsum n0 (fun y => rsum n1 (fun x => b y x * b y x))).
  { unfold circular_acf. apply rsum_ext. intros y Hy. apply rsum_ext. intros x Hx.
    rewrite !Z.add_0_r, !wrap_small by auto. reflexivity. }
  assert (S : forall s, (s = 1 \/ s = -1) -> s * circular_acf n0 n1 b dy dx <= circular_acf n0 n1 b 0 0).
  { intros s Hs. rewrite Z0.
    apply Rle_trans with (rsum n0 (fun y => rsum n1 (fun x =>
       (b (wrap n0 (Z.of_nat y + dy)) (wrap n1 (Z.of_nat x + dx)) * b (wrap n0 (Z.of_nat y + dy)) (wrap n1 (Z.of_nat x + dx)) + b y x * b y x) * / 2))).
    - unfold circular_acf. rewrite <- rsum_scal. apply rsum_le. intros y Hy. rewrite <- rsum_scal. apply rsum_le. intros x Hx.
      set (u := b (wrap _ _) _). set (v := b y x). pose proof (Rle_0_sqr (u - v)). pose proof (Rle_0_sqr (u + v)). unfold Rsqr in *.
      destruct Hs as [->| ->]; lra.
    - right. rewrite (rsum_ext n0 _ (fun y => (rsum n1 (fun x => b (wrap n0 (Z.of_nat y + dy)) (wrap n1 (Z.of_nat x + dx)) * b (wrap n0 (Z.of_nat y + dy)) (wrap n1 (Z.of_nat x + dx)))
         + rsum n1 (fun x => b y x * b y x)) * / 2)) by (intros; now rewrite rsum_scal_r, rsum_plus).
      rewrite rsum_scal_r, rsum_plus, (rsum2_wrap n0 n1 dy dx (fun y x => b y x * b y x)). lra. }
  apply Rabs_le. pose proof (S 1 (or_introl eq_refl)). pose proof (S (-1) (or_intror eq_refl)). lra.
Qed.

Lemma circular_acf_transpose n0 n1 b dy dx : circular_acf n1 n0 (fun x y => b y x) dx dy = circular_acf n0 n1 b dy dx.
Proof. unfold circular_acf. now rewrite rsum_exchange. Qed.

Lemma circular_acf_ext n0 n1 b c dy dx : (forall y x, b y x = c y x) -> circular_acf n0 n1 b dy dx = circular_acf n0 n1 c dy dx.
Proof. intros H. unfold circular_acf. apply rsum_ext. intros. apply rsum_ext. intros. now rewrite !H. Qed.

Lemma transposed_value ny nx img y x : (y < ny)%nat -> (x < nx)%nat ->
  at2 0 (transpose ny nx (autocorr_image nx ny (fun x y => img y x))) y x =
  circular_acf ny nx (without_first img) (Z.of_nat y - Z.of_nat (ny / 2)) (Z.of_nat x - Z.of_nat (nx / 2)).
Proof.
  intros Hy Hx. unfold transpose. rewrite at2_tab by auto.
  rewrite autocorr_image_value by auto. rewrite <- circular_acf_transpose.
  apply circular_acf_ext. intros a b. unfold without_first. destruct a, b; reflexivity.
Qed.

(** ** autocorr_images *)
Section Images.
Variables (nz ny nx : nat) (data : nat -> nat -> nat -> fl) (mean_sub : bool) (eps : R) (eigvals : list R) (eigvecs : nat -> nat -> R).
Let img (idx : nat) : nat -> nat -> R := eigimage nz ny nx data mean_sub (fun channel => eigvecs channel idx).
Let acf (idx y x : nat) : R :=
  circular_acf ny nx (without_first (img idx)) (Z.of_nat y - Z.of_nat (ny / 2)) (Z.of_nat x - Z.of_nat (nx / 2)).

Definition selected (n_eigs : Z) : list nat :=
  if (0 <? n_eigs)%Z then seq 0 (Z.to_nat n_eigs)
  else slice (Some n_eigs) None 1 (valid_eigenvectors eps eigvals).

Lemma autocorr_images_spec n : n <> 0%Z -> (2 <= length (selected n))%nat -> (forall i, In i (selected n) -> (i < nz)%nat) ->
  exists l, autocorr_images nz ny nx data mean_sub eps eigvals eigvecs n = Ok l /\ length l = length (selected n) /\
  forall k, (k < length l)%nat -> length (nth k l []) = ny /\
    (forall y, (y < ny)%nat -> length (nth y (nth k l []) []) = nx) /\
    forall y x, (y < ny)%nat -> (x < nx)%nat -> at2 0 (nth k l []) y x = acf (nth k (selected n) 0%nat) y x.
Proof.
  intros Hn H2 Hlt. unfold autocorr_images, eigimages.
  replace (if (0 <? n)%Z then Ok (seq 0 (Z.to_nat n)) else if (n <? 0)%Z then Ok (slice (Some n) None 1 (valid_eigenvectors eps eigvals)) else Err UnboundLocalError)
    with (Ok (selected n)).
  2: { unfold selected. destruct (Z.ltb_spec 0 n); [reflexivity|]. destruct (Z.ltb_spec n 0); [reflexivity|lia]. }
  cbn [bind].
  replace (existsb (fun i => (nz <=? i)%nat) (selected n)) with false.
  2: { symmetry. apply not_true_is_false. intros E. apply existsb_exists in E. destruct E as [i [Hi E]].
       apply Nat.leb_le in E. specialize (Hlt i Hi). lia. }
  remember (selected n) as sel eqn:Es. destruct sel as [|i0 [|i1 sel]]; [cbn in H2; lia|cbn in H2; lia|].
  cbn [bind]. rewrite map_map. eexists. split; [reflexivity|]. split; [now rewrite map_length|].
  rewrite map_length. intros k Hk.
  set (G := fun idx => transpose ny nx (autocorr_image nx ny (fun x y => img idx y x))).
  assert (E : nth k (map (fun x => transpose ny nx (autocorr_image nx ny (fun x0 y => eigimage nz ny nx data mean_sub (fun channel => eigvecs channel x) y x0))) (i0 :: i1 :: sel)) []
    = G (nth k (i0 :: i1 :: sel) 0%nat)).
  { change (fun x => transpose ny nx (autocorr_image nx ny (fun x0 y => eigimage nz ny nx data mean_sub (fun channel => eigvecs channel x) y x0))) with G.
    rewrite nth_indep with (d' := G 0%nat) by (now rewrite map_length). apply map_nth. }
  rewrite E. unfold G. split; [|split].
  - unfold transpose, tab2. apply tab1_length.
  - intros y Hy. unfold transpose, tab2. rewrite tab1_nth by auto. apply tab1_length.
  - intros y x Hy Hx. now apply transposed_value.
Qed.

Lemma autocorr_symmetric_peak n l : autocorr_images nz ny nx data mean_sub eps eigvals eigvecs n = Ok l ->
  forall A, In A l ->
  (forall dy dx : Z, let cy := Z.of_nat (ny / 2) in let cx := Z.of_nat (nx / 2) in
     (0 <= cy + dy < Z.of_nat ny)%Z -> (0 <= cx + dx < Z.of_nat nx)%Z -> (0 <= cy - dy < Z.of_nat ny)%Z -> (0 <= cx - dx < Z.of_nat nx)%Z ->
     at2 0 A (Z.to_nat (cy - dy)) (Z.to_nat (cx - dx)) = at2 0 A (Z.to_nat (cy + dy)) (Z.to_nat (cx + dx))) /\
  (forall y x, (y < ny)%nat -> (x < nx)%nat -> Rabs (at2 0 A y x) <= at2 0 A (ny / 2) (nx / 2)).
Proof.
  intros E A HA. unfold autocorr_images in E.
  destruct (eigimages nz ny nx data mean_sub eps eigvals eigvecs n) as [s|] eqn:Es; [|discriminate]. cbn [bind] in E.
  assert (X : exists im, A = transpose ny nx (autocorr_image nx ny (fun x y => im y x))).
  { unfold eigimages in Es. destruct (if (0 <? n)%Z then _ else _) as [idxs|] in Es; [|discriminate]. cbn [bind] in Es.
    destruct (existsb _ idxs); [discriminate|]. destruct idxs as [|i0 [|i1 sel]]; [discriminate| |].
    - injection Es as <-. destruct (ny =? 0)%nat; discriminate.
    - injection Es as <-. injection E as <-. change (fun x y => eigimage nz ny nx data mean_sub (fun channel => eigvecs channel i0) y x) with
        ((fun idx => fun x y => eigimage nz ny nx data mean_sub (fun channel => eigvecs channel idx) y x) i0) in HA.
      change (In A (map (fun img => transpose ny nx (autocorr_image nx ny img)) (map (fun idx => fun x y => eigimage nz ny nx data mean_sub (fun channel => eigvecs channel idx) y x) (i0 :: i1 :: sel)))) in HA.
      rewrite map_map in HA. apply in_map_iff in HA. destruct HA as [idx [<- _]].
      now exists (eigimage nz ny nx data mean_sub (fun channel => eigvecs channel idx)). }
  destruct X as [im ->]. split.
  - intros dy dx cy cx H1 H2 H3 H4.
    rewrite !transposed_value by lia. rewrite !Z2Nat.id by lia. unfold cy, cx.
    replace (Z.of_nat (ny / 2) - dy - Z.of_nat (ny / 2))%Z with (- dy)%Z by lia.
    replace (Z.of_nat (nx / 2) - dx - Z.of_nat (nx / 2))%Z with (- dx)%Z by lia.
    replace (Z.of_nat (ny / 2) + dy - Z.of_nat (ny / 2))%Z with dy by lia.
    replace (Z.of_nat (nx / 2) + dx - Z.of_nat (nx / 2))%Z with dx by lia.
    apply circular_acf_sym.
  - intros y x Hy Hx. assert (ny / 2 < ny)%nat by (apply Nat.div_lt; lia). assert (nx / 2 < nx)%nat by (apply Nat.div_lt; lia).
    rewrite !transposed_value by auto. rewrite !Z.sub_diag. apply circular_acf_peak.
Qed.

Lemma autocorr_single : (1 <= nz)%nat -> (1 <= ny)%nat ->
  autocorr_images nz ny nx data mean_sub eps eigvals eigvecs 1 = Err IndexError.
Proof.
  intros Hz Hy. unfold autocorr_images, eigimages.
  change (if (0 <? 1)%Z then Ok (seq 0 (Z.to_nat 1)) else _) with (Ok [0%nat]). cbn [bind existsb].
  destruct (Nat.leb_spec nz 0); [lia|]. cbn [orb bind].
  destruct (Nat.eqb_spec ny 0); [lia|reflexivity].
Qed.

Lemma selected_wanted n : available nz eps eigvals n -> selected n = wanted eps eigvals n /\ n <> 0%Z /\
  length (selected n) = Z.abs_nat n /\ forall i, In i (selected n) -> (i < nz)%nat.
Proof.
  intros [L [H|H]]; unfold selected, wanted.
  - destruct (Z.ltb_spec 0 n); [|lia]. split; [reflexivity|]. split; [lia|]. split; [rewrite seq_length; lia|].
    intros i Hi. apply in_seq in Hi. lia.
  - destruct (Z.ltb_spec 0 n); [lia|]. split; [|split; [lia|split]].
    + replace n with (- Z.of_nat (Z.to_nat (- n)))%Z at 1 by lia. apply slice_from_neg. fold (significant eps eigvals). change (valid_eigenvectors eps eigvals) with (significant eps eigvals). lia.
    + replace n with (- Z.of_nat (Z.to_nat (- n)))%Z at 1 by lia. change (valid_eigenvectors eps eigvals) with (significant eps eigvals). rewrite slice_from_neg by lia.
      rewrite skipn_length. lia.
    + intros i Hi. replace n with (- Z.of_nat (Z.to_nat (- n)))%Z in Hi at 1 by lia. change (valid_eigenvectors eps eigvals) with (significant eps eigvals) in Hi. rewrite slice_from_neg in Hi by lia.
      assert (In i (significant eps eigvals)).
      { rewrite <- (firstn_skipn (length (significant eps eigvals) - Z.to_nat (- n)) (significant eps eigvals)). apply in_or_app. now right. }
      apply filter_In in H1. destruct H1 as [H1 _]. apply in_seq in H1. lia.
Qed.

Lemma autocorr_wanted n : available nz eps eigvals n ->
  exists l, autocorr_images nz ny nx data mean_sub eps eigvals eigvecs n = Ok l /\ length l = Z.abs_nat n /\
  forall k, (k < length l)%nat -> length (nth k l []) = ny /\
    (forall y, (y < ny)%nat -> length (nth y (nth k l []) []) = nx) /\
    forall y x, (y < ny)%nat -> (x < nx)%nat ->
      at2 0 (nth k l []) y x =
      circular_acf ny nx (without_first (eigimage nz ny nx data mean_sub (fun channel => eigvecs channel (nth k (wanted eps eigvals n) 0%nat))))
        (Z.of_nat y - Z.of_nat (ny / 2)) (Z.of_nat x - Z.of_nat (nx / 2)).
Proof.
  intros H. destruct (selected_wanted n H) as [E [H0 [L I]]].
  destruct (autocorr_images_spec n H0) as [l [A [B C]]]; auto; [rewrite L; destruct H as [_ H]; lia|].
  exists l. rewrite <- E. rewrite <- L, <- B. auto.
Qed.

Lemma noise_acf_value n acors : autocorr_images nz ny nx data mean_sub eps eigvals eigvecs n = Ok acors -> n <> 0%Z ->
  length acors = Z.abs_nat n ->
  exists N, noise_ACF nz ny nx data mean_sub eps eigvals eigvecs n = Ok N /\
  forall y x, (y < ny)%nat -> (x < nx)%nat ->
    at2 NaN N y x = Fin ((if (n <? 0)%Z then -1 else 1) * (lsum (map (fun a => at2 0 a y x) acors) / INR (length acors))).
Proof.
  intros E Hn L. unfold noise_ACF. rewrite E. cbn [bind]. eexists. split; [reflexivity|].
  intros y x Hy Hx. unfold noise_acf_of. rewrite at2_tab by auto.
  rewrite fdiv_fin by (now apply not_0_IZR). f_equal. rewrite L, INR_IZR_INZ, Zabs2Nat.id_abs.
  assert (IZR n <> 0) by (now apply not_0_IZR).
  destruct (Z.ltb_spec n 0).
  - rewrite Z.abs_neq, opp_IZR by lia. field. auto.
  - rewrite Z.abs_eq by lia. field. auto.
Qed.

Lemma noise_positive n : available nz eps eigvals n -> (0 < n)%Z ->
  exists acors N, autocorr_images nz ny nx data mean_sub eps eigvals eigvecs n = Ok acors /\ length acors = Z.to_nat n /\
    noise_ACF nz ny nx data mean_sub eps eigvals eigvecs n = Ok N /\
    forall y x, (y < ny)%nat -> (x < nx)%nat -> at2 NaN N y x = Fin (mean_at acors y x).
Proof.
  intros H Hn. destruct (autocorr_wanted n H) as [l [A [B _]]].
  destruct (noise_acf_value n l A ltac:(lia) B) as [N [E V]]. exists l, N. split; [exact A|]. split; [lia|]. split; [exact E|].
  intros y x Hy Hx. rewrite V by auto. destruct (Z.ltb_spec n 0); [lia|]. unfold mean_at, at2. f_equal. ring.
Qed.
Lemma noise_negative n : available nz eps eigvals n -> (n < 0)%Z ->
  exists acors N, autocorr_images nz ny nx data mean_sub eps eigvals eigvecs n = Ok acors /\ length acors = Z.to_nat (- n) /\
    noise_ACF nz ny nx data mean_sub eps eigvals eigvecs n = Ok N /\
    forall y x, (y < ny)%nat -> (x < nx)%nat -> at2 NaN N y x = Fin (- mean_at acors y x).
Proof.
  intros H Hn. destruct (autocorr_wanted n H) as [l [A [B _]]].
  destruct (noise_acf_value n l A ltac:(lia) B) as [N [E V]]. exists l, N. split; [exact A|]. split; [lia|]. split; [exact E|].
  intros y x Hy Hx. rewrite V by auto. destruct (Z.ltb_spec n 0); [|lia]. unfold mean_at, at2. f_equal. ring.
Qed.
End Images.

(** *** Witness: two channels of shape 1 x 2 *)
Definition ex_data : nat -> nat -> nat -> fl := fun z _ x => match z, x with 0%nat, 1%nat => Fin 1 | _, _ => Fin 0 end.
Definition ex_vecs : nat -> nat -> R := fun c i => if Nat.eqb c i then 1 else 0.

Lemma ex_selected : selected (1 / 2) [1; 1] (-2) = [0%nat; 1%nat].
Proof.
  unfold selected. cbn [Z.ltb Z.compare]. unfold valid_eigenvectors. cbn [length seq filter nth].
  destruct (Rleb_spec (1 / 2) 1); [|lra]. reflexivity.
Qed.

Lemma ex_available : available 2 (1 / 2) [1; 1] (-2).
Proof.
  split; [reflexivity|]. right. unfold significant. cbn [length seq filter nth].
  destruct (Rleb_spec (1 / 2) 1); [cbn; lia|lra].
Qed.

Lemma ex_img0 x : eigimage 2 1 2 ex_data false (fun c => ex_vecs c 0) 0 x = match x with 1%nat => 1 | _ => 0 end.
Proof. unfold eigimage, ex_data, ex_vecs. destruct x as [|[|x]]; cbn; ring. Qed.
Lemma ex_img1 x : eigimage 2 1 2 ex_data false (fun c => ex_vecs c 1) 0 x = 0.
Proof. unfold eigimage, ex_data, ex_vecs. destruct x as [|[|x]]; cbn; ring. Qed.

Lemma ex_acors : exists a b, autocorr_images 2 1 2 ex_data false (1 / 2) [1; 1] ex_vecs (-2) = Ok [a; b] /\ at2 0 a 0 1 = 1 /\ at2 0 b 0 1 = 0.
Proof.
  destruct (autocorr_images_spec 2 1 2 ex_data false (1 / 2) [1; 1] ex_vecs (-2)) as [l [E [L V]]].
  - lia.
  - rewrite ex_selected. cbn. lia.
  - rewrite ex_selected. intros i [<-|[<-|[]]]; lia.
  - rewrite ex_selected in L, V. destruct l as [|a [|b [|c l]]]; try (cbn in L; lia).
    exists a, b. split; [exact E|]. split.
    + destruct (V 0%nat ltac:(cbn; lia)) as [_ [_ V0]]. cbn [nth] in V0. rewrite V0 by lia.
      unfold circular_acf, without_first. cbn [rsum]. cbn [Nat.div Nat.divmod fst Z.of_nat Z.sub Z.add Z.opp Z.pos_sub Pos.of_succ_nat].
      change (wrap 1 0) with 0%nat. change (wrap 2 0) with 0%nat. change (wrap 2 1) with 1%nat. rewrite !ex_img0. cbv iota. ring.
    + destruct (V 1%nat ltac:(cbn; lia)) as [_ [_ V0]]. cbn [nth] in V0. rewrite V0 by lia.
      unfold circular_acf, without_first. cbn [rsum]. cbn [Nat.div Nat.divmod fst Z.of_nat Z.sub Z.add Z.opp Z.pos_sub Pos.of_succ_nat].
      change (wrap 1 0) with 0%nat. change (wrap 2 0) with 0%nat. change (wrap 2 1) with 1%nat. rewrite !ex_img1. ring.
Qed.

Lemma noise_acf_refuted : exists nz ny nx data ms eps eigvals eigvecs acors N y x,
  autocorr_images nz ny nx data ms eps eigvals eigvecs (-2) = Ok acors /\ length acors = 2%nat /\
  noise_ACF nz ny nx data ms eps eigvals eigvecs (-2) = Ok N /\ (y < ny)%nat /\ (x < nx)%nat /\
  at2 NaN N y x <> Fin (mean_at acors y x).
Proof.
  destruct ex_acors as [a [b [E [A B]]]].
  destruct (noise_acf_value 2 1 2 ex_data false (1 / 2) [1; 1] ex_vecs (-2) [a; b] E ltac:(lia) eq_refl) as [N [EN V]].
  exists 2%nat, 1%nat, 2%nat, ex_data, false, (1 / 2), [1; 1], ex_vecs, [a; b], N, 0%nat, 1%nat.
  do 5 (split; [first [exact E|exact EN|reflexivity|lia]|]).
  rewrite V by lia. unfold mean_at. fold (at2 0 a 0 1) (at2 0 b 0 1). cbn [map]. fold (at2 0 a 0 1) (at2 0 b 0 1). rewrite A, B. cbn. intros C. injection C as C. lra.
Qed.

(** ** Position dependence (C83) *)
Lemma autocorr_position_refuted : exists n0 n1 img dy dx i j, (i < n0)%nat /\ (j < n1)%nat /\
  at2 0 (autocorr_image n0 n1 img) i j <>
  at2 0 (autocorr_image n0 n1 (fun y x => img (wrap n0 (Z.of_nat y + dy)) (wrap n1 (Z.of_nat x + dx)))) i j.
Proof.
  exists 1%nat, 2%nat, (fun _ x => match x with O => 1 | _ => 0 end), 0%Z, 1%Z, 0%nat, 1%nat.
  split; [lia|]. split; [lia|]. rewrite !autocorr_image_value by lia.
  unfold circular_acf, without_first. cbn [rsum]. cbn [Nat.div Nat.divmod fst Z.of_nat Z.sub Z.add Z.opp Z.pos_sub Pos.of_succ_nat Pos.add Pos.succ].
  change (wrap 1 0) with 0%nat. change (wrap 2 0) with 0%nat. change (wrap 2 1) with 1%nat. change (wrap 2 2) with 0%nat. cbv iota. change (wrap 2 (Z.of_nat 1 + 1)) with 0%nat. cbv iota. lra.
Qed.

Lemma without_first_id img y x : img 0%nat 0%nat = 0 -> without_first img y x = img y x.
Proof. intros H. unfold without_first. destruct y, x; auto. Qed.

Lemma autocorr_true n0 n1 img i j : (i < n0)%nat -> (j < n1)%nat -> img 0%nat 0%nat = 0 ->
  at2 0 (autocorr_image n0 n1 img) i j = circular_acf n0 n1 img (Z.of_nat i - Z.of_nat (n0 / 2)) (Z.of_nat j - Z.of_nat (n1 / 2)).
Proof.
  intros Hi Hj H0. rewrite autocorr_image_value by auto. apply circular_acf_ext. intros. now apply without_first_id.
Qed.
