From Coq Require Import Reals List ZArith Arith Bool Lia Lra.
From Coquelicot Require Import Complex.
From Verif Require Import Lib.PyBase Lib.PySlice Lib.Arr Lib.RSum Lib.Fl Lib.DFT Spec.Freq Spec.Velocity Model.RfftToFft Model.Psds
  Model.Beam Model.Mvc Proofs.RfftToFft_Proofs Proofs.Psds_Proofs Proofs.ThreeD_Proofs.
Import ListNotations.
Local Open Scope R_scope.

Lemma map_tab2 {A B} (g : A -> B) ny nx f : map (map g) (tab2 ny nx f) = tab2 ny nx (fun i j => g (f i j)).
Proof. unfold tab2. rewrite tab1_map. apply tab1_ext. intros i _. apply tab1_map. Qed.

Lemma map2_tab2 {A B C} (g : A -> B -> C) ny nx f h :
  map2 (map2 g) (tab2 ny nx f) (tab2 ny nx h) = tab2 ny nx (fun i j => g (f i j) (h i j)).
Proof. unfold tab2. rewrite map2_tab1. apply tab1_ext. intros i _. apply map2_tab1. Qed.

Lemma abs_fft_fin ny nx a r : (1 <= ny)%nat -> (1 <= nx)%nat ->
  (forall y x, (y < ny)%nat -> (x < nx)%nat -> a y x = Fin (r y x)) ->
  abs_fft ny nx a = tab2 ny nx (fun ky kx => Fin (ft_abs ny nx r ky kx)).
Proof.
  intros Y X H. unfold abs_fft.
  assert (E : forallb (fun p => is_fin (a (fst p) (snd p))) (pixels ny nx) = true).
  { apply forallb_forall. intros [y x] P. apply in_pixels in P. cbn [fst snd]. rewrite H by tauto. reflexivity. }
  rewrite E, rfft_2d by assumption. rewrite map_tab2. apply tab2_ext. intros ky kx _ _.
  unfold ft_abs. do 2 f_equal. apply dft2_ext. intros y x Hy Hx. now rewrite H.
Qed.

Lemma abs_fft_nan ny nx a y x : (y < ny)%nat -> (x < nx)%nat -> is_fin (a y x) = false ->
  abs_fft ny nx a = tab2 ny nx (fun _ _ => NaN).
Proof.
  intros Y X H. unfold abs_fft.
  assert (E : forallb (fun p => is_fin (a (fst p) (snd p))) (pixels ny nx) = false).
  { apply not_true_is_false. intros T. rewrite forallb_forall in T.
    specialize (T (y, x)). cbn [fst snd] in T. rewrite H in T. discriminate T. apply in_pixels. tauto. }
  now rewrite E.
Qed.

Lemma ft_abs_nonneg ny nx a ky kx : 0 <= ft_abs ny nx a ky kx.
Proof. apply Cmod_ge_0. Qed.
Lemma ft_abs_ext ny nx a b ky kx : (forall y x, (y < ny)%nat -> (x < nx)%nat -> a y x = b y x) -> ft_abs ny nx a ky kx = ft_abs ny nx b ky kx.
Proof. intros H. unfold ft_abs. f_equal. apply dft2_ext. intros. now rewrite H. Qed.

Lemma holds_at ny nx i j : (i < ny)%nat -> (j < nx)%nat -> holds ny nx i j (unshift ny (ny - 1 - i)) (unshift nx j).
Proof.
  intros I J. unfold holds. rewrite yy_freq_at, xx_freq_at by assumption.
  assert (unshift ny (ny - 1 - i) < ny)%nat by (apply unshift_lt; lia).
  assert (unshift nx j < nx)%nat by now apply unshift_lt.
  repeat split; try assumption; apply fftfreq_is_freq; assumption.
Qed.

Lemma holds_unique ny nx i j ky kx : (i < ny)%nat -> (j < nx)%nat -> holds ny nx i j ky kx ->
  ky = unshift ny (ny - 1 - i) /\ kx = unshift nx j.
Proof.
  intros I J (A & B & P & Q). destruct (holds_at ny nx i j I J) as (A' & B' & P' & Q').
  split; eapply is_freq_index; eauto.
Qed.

(** the division by the beam power *)
Lemma beam_pow_tab ny nx k : (1 <= ny)%nat -> (1 <= nx)%nat ->
  compute_beam_pspec ny nx (Some k) =
  Ok (tab2 ny nx (fun i j => let w := ft_abs ny nx k (unshift ny i) (unshift nx j) in
                             if Reqb (w * w) 0 then NaN else Fin (w * w))).
Proof.
  intros Y X. unfold compute_beam_pspec. rewrite (abs_fft_fin ny nx _ k) by auto.
  rewrite fftshift2_tab, !map_tab2. apply (f_equal Ok). apply tab2_ext. intros i j _ _. cbv zeta.
  set (w := ft_abs ny nx k (unshift ny i) (unshift nx j)).
  assert (W : 0 <= w) by apply ft_abs_nonneg.
  cbn [fsqr fmul fabs]. rewrite Rabs_pos_eq by (apply Rmult_le_pos; assumption).
  cbn [feqb]. reflexivity.
Qed.

Lemma pspec_at ny nx data k i j : (i < ny)%nat -> (j < nx)%nat ->
  exists ps, pspec_ps2D ny nx data None true (Some k) = Ok ps /\
  at2 NaN ps i j =
    let ky := unshift ny (ny - 1 - i) in let kx := unshift nx j in
    if Reqb (ft_abs ny nx k ky kx) 0 then NaN else Fin (ft_abs ny nx data ky kx ^ 2 / ft_abs ny nx k ky kx ^ 2).
Proof.
  intros I J. unfold pspec_ps2D, beam_divide. rewrite beam_pow_tab by lia. cbn [bind].
  rewrite (abs_fft_fin ny nx _ data) by (auto; lia).
  rewrite fftshift2_tab, map_tab2, map2_tab2, flip2_tab. eexists. split; [reflexivity|].
  rewrite at2_tab by assumption. cbv zeta.
  set (w := ft_abs ny nx k _ _). set (v := ft_abs ny nx data _ _).
  cbn [fsqr fmul].
  destruct (Reqb_spec w 0) as [E|E].
  - rewrite E. destruct (Reqb_spec (0 * 0) 0) as [_|Q]; [reflexivity|]. exfalso. apply Q. ring.
  - destruct (Reqb_spec (w * w) 0) as [Q|Q].
    + exfalso. apply Rmult_integral in Q. tauto.
    + cbn [fdiv]. destruct (Reqb_spec (w * w) 0) as [Q'|_]; [contradiction|].
      f_equal. now rewrite <- !Rsqr_pow2.
Qed.

(** the convolution theorem *)
Lemma dft1_conv n (x k : nat -> C) f : (0 < n)%nat ->
  dft1 n (fun j => csum n (fun v => Cmult (x ((j + (n - v)) mod n)%nat) (k v))) f = Cmult (dft1 n x f) (dft1 n k f).
Proof.
  intros N. unfold dft1 at 1.
  rewrite (csum_ext n _ (fun j => csum n (fun v => Cmult (Cmult (x ((j + (n - v)) mod n)%nat) (tw n j f)) (k v)))).
  2:{ intros j _. rewrite <- csum_scal_r. apply csum_ext. intros v _. ring. }
  rewrite csum_exchange.
  rewrite (csum_ext n _ (fun v => Cmult (Cmult (Cconj (tw n (n - v) f)) (k v)) (dft1 n x f))).
  2:{ intros v _. pose proof (dft1_roll n x (n - v) f N) as R. unfold dft1 at 1 in R. rewrite csum_scal_r, R. ring. }
  rewrite csum_scal_r. rewrite Cmult_comm. f_equal. unfold dft1. apply csum_ext. intros v V.
  rewrite Cmult_comm. f_equal. rewrite <- (tw_mod_l n (n - v)) by assumption.
  rewrite tw_neg_l by lia. apply Cconj_conj.
Qed.

Lemma dft2_conv ny nx (a k : nat -> nat -> R) ky kx : (0 < ny)%nat -> (0 < nx)%nat ->
  dft2 ny nx (fun y x => RtoC (convolved ny nx a k y x)) ky kx =
  Cmult (dft2 ny nx (fun y x => RtoC (a y x)) ky kx) (dft2 ny nx (fun y x => RtoC (k y x)) ky kx).
Proof.
  intros Y X. rewrite !dft2_rows.
  transitivity (dft1 ny (fun y => csum ny (fun v => Cmult (dft1 nx (fun x => RtoC (a ((y + (ny - v)) mod ny)%nat x)) kx)
                                                          (dft1 nx (fun x => RtoC (k v x)) kx))) ky).
  2:{ apply (dft1_conv ny (fun y => dft1 nx (fun x => RtoC (a y x)) kx)). assumption. }
  apply dft1_ext. intros y _.
  rewrite (csum_ext ny _ (fun v => dft1 nx (fun j => csum nx (fun u => Cmult (RtoC (a ((y + (ny - v)) mod ny)%nat ((j + (nx - u)) mod nx)%nat)) (RtoC (k v u)))) kx)).
  2:{ intros v _. symmetry. apply (dft1_conv nx (fun x => RtoC (a ((y + (ny - v)) mod ny)%nat x))). assumption. }
  unfold dft1. rewrite csum_exchange. apply csum_ext. intros x _. rewrite csum_scal_r. f_equal.
  unfold convolved. rewrite <- csum_RtoC. apply csum_ext. intros v _. rewrite <- csum_RtoC. apply csum_ext. intros u _.
  apply RtoC_mult.
Qed.

Lemma ft_abs_conv ny nx a k ky kx : (0 < ny)%nat -> (0 < nx)%nat ->
  ft_abs ny nx (convolved ny nx a k) ky kx = ft_abs ny nx a ky kx * ft_abs ny nx k ky kx.
Proof. intros Y X. unfold ft_abs. rewrite dft2_conv by assumption. apply Cmod_mult. Qed.

Lemma beam_recovers ny nx a k i j : (i < ny)%nat -> (j < nx)%nat ->
  exists ps, pspec_ps2D ny nx (convolved ny nx a k) None true (Some k) = Ok ps /\
  forall ky kx, holds ny nx i j ky kx ->
    (ft_abs ny nx k ky kx <> 0 -> at2 NaN ps i j = Fin (ft_abs ny nx a ky kx ^ 2)) /\
    (ft_abs ny nx k ky kx = 0 -> at2 NaN ps i j = NaN).
Proof.
  intros I J. destruct (pspec_at ny nx (convolved ny nx a k) k i j I J) as (ps & E & V). exists ps. split; [exact E|].
  intros ky kx H. destruct (holds_unique ny nx i j ky kx I J H) as [-> ->].
  rewrite V. cbv zeta. split; intros W.
  - destruct (Reqb_spec (ft_abs ny nx k (unshift ny (ny - 1 - i)) (unshift nx j)) 0); [contradiction|].
    rewrite ft_abs_conv by lia. f_equal. field. assumption.
  - destruct (Reqb_spec (ft_abs ny nx k (unshift ny (ny - 1 - i)) (unshift nx j)) 0); [reflexivity|contradiction].
Qed.

(** the radial position of the kernel does not matter *)
Lemma ft_abs_moved ny nx sy sx a ky kx : (0 < ny)%nat -> (0 < nx)%nat ->
  ft_abs ny nx (moved ny nx sy sx a) ky kx = ft_abs ny nx a ky kx.
Proof.
  intros Y X. unfold ft_abs, moved. rewrite !dft2_rows.
  rewrite (dft1_ext ny _ (fun y => Cmult (Cconj (tw nx sx kx)) (dft1 nx (fun x => RtoC (a ((y + sy) mod ny)%nat x)) kx))).
  2:{ intros y _. apply (dft1_roll nx (fun x => RtoC (a ((y + sy) mod ny)%nat x))). assumption. }
  transitivity (Cmod (Cmult (Cconj (tw nx sx kx)) (Cmult (Cconj (tw ny sy ky)) (dft1 ny (fun y => dft1 nx (fun x => RtoC (a y x)) kx) ky)))).
  - f_equal. rewrite <- (dft1_roll ny (fun y => dft1 nx (fun x => RtoC (a y x)) kx)) by assumption.
    set (g := fun y => dft1 nx (fun x => RtoC (a ((y + sy) mod ny)%nat x)) kx). change (dft1 ny (fun y => Cmult (Cconj (tw nx sx kx)) (g y)) ky = Cmult (Cconj (tw nx sx kx)) (dft1 ny g ky)).
    unfold dft1. rewrite <- csum_scal. apply csum_ext. intros y _. ring.
  - rewrite !Cmod_mult. rewrite !Cmod_conj. rewrite !Cmod_norm2, !tw_norm, sqrt_1. ring.
Qed.

Lemma ft_abs_symmetric ny nx a ky kx : (ky < ny)%nat -> (kx < nx)%nat ->
  ft_abs ny nx a ((ny - ky) mod ny)%nat ((nx - kx) mod nx)%nat = ft_abs ny nx a ky kx.
Proof. intros Y X. unfold ft_abs. rewrite dft2_hermitian by lia. apply Cmod_conj. Qed.

Lemma ft_abs_scal ny nx s a ky kx : ft_abs ny nx (fun y x => s * a y x) ky kx = Rabs s * ft_abs ny nx a ky kx.
Proof.
  unfold ft_abs. rewrite <- Cmod_real, <- Cmod_mult. f_equal. unfold dft2. rewrite <- csum_scal. apply csum_ext. intros y _.
  rewrite <- csum_scal. apply csum_ext. intros x _. rewrite RtoC_mult. ring.
Qed.
