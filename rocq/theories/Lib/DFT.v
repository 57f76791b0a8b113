(** The discrete Fourier transform, by its textbook definition, and the facts
    used about it: Hermitian symmetry for real data, orthogonality,
    inversion and Parseval's identity. *)
From Coq Require Import Reals Lia Lra Arith.
From Coquelicot Require Import Complex.
From Verif Require Import Lib.RSum.
Local Open Scope R_scope.

(** e^{i t} *)
Definition cis (t : R) : C := (cos t, sin t).

Fixpoint csum (n : nat) (f : nat -> C) : C :=
  match n with
  | O => RtoC 0
  | S k => Cplus (csum k f) (f k)
  end.

(** The kernel e^{-2 pi i j k / n}. *)
Definition tw (n j k : nat) : C := cis (- (2 * PI * INR (j * k) / INR n)).

(** np.fft.fft *)
Definition dft1 (n : nat) (x : nat -> C) (k : nat) : C :=
  csum n (fun j => Cmult (x j) (tw n j k)).

(** np.fft.fft2 *)
Definition dft2 (ny nx : nat) (a : nat -> nat -> C) (ky kx : nat) : C :=
  csum ny (fun y => csum nx (fun x => Cmult (a y x) (Cmult (tw ny y ky) (tw nx x kx)))).

(** np.fft.fftn of a cube *)
Definition dft3 (nz ny nx : nat) (a : nat -> nat -> nat -> C) (kz ky kx : nat) : C :=
  csum nz (fun z => csum ny (fun y => csum nx (fun x =>
    Cmult (a z y x) (Cmult (tw nz z kz) (Cmult (tw ny y ky) (tw nx x kx)))))).

(** np.fft.ifft *)
Definition idft1 (n : nat) (X : nat -> C) (j : nat) : C :=
  Cmult (RtoC (/ INR n)) (csum n (fun k => Cmult (X k) (Cconj (tw n j k)))).

(** Squared modulus. *)
Definition Cnorm2 (z : C) : R := (fst z)² + (snd z)².

(** ** Complex sums *)

Lemma Ceq (a b : C) : fst a = fst b -> snd a = snd b -> a = b.
Proof. destruct a, b; cbn; intros -> ->; reflexivity. Qed.

Lemma csum_fst n f : fst (csum n f) = rsum n (fun i => fst (f i)).
Proof. induction n as [|n IH]; cbn [csum rsum]; [reflexivity|]. cbn. now rewrite IH. Qed.
Lemma csum_snd n f : snd (csum n f) = rsum n (fun i => snd (f i)).
Proof. induction n as [|n IH]; cbn [csum rsum]; [reflexivity|]. cbn. now rewrite IH. Qed.

Lemma csum_ext n f g : (forall i, (i < n)%nat -> f i = g i) -> csum n f = csum n g.
Proof.
  induction n as [|n IH]; intros H; cbn [csum]; [reflexivity|].
  rewrite IH, H; auto.
Qed.

Lemma csum_plus n f g : csum n (fun i => Cplus (f i) (g i)) = Cplus (csum n f) (csum n g).
Proof. induction n as [|n IH]; cbn [csum]; [|rewrite IH]; ring. Qed.

Lemma csum_minus n f g : csum n (fun i => Cminus (f i) (g i)) = Cminus (csum n f) (csum n g).
Proof. induction n as [|n IH]; cbn [csum]; [|rewrite IH]; ring. Qed.

Lemma csum_scal n c f : csum n (fun i => Cmult c (f i)) = Cmult c (csum n f).
Proof. induction n as [|n IH]; cbn [csum]; [|rewrite IH]; ring. Qed.

Lemma csum_scal_r n c f : csum n (fun i => Cmult (f i) c) = Cmult (csum n f) c.
Proof. induction n as [|n IH]; cbn [csum]; [|rewrite IH]; ring. Qed.

Lemma csum_0 n : csum n (fun _ => RtoC 0) = RtoC 0.
Proof. induction n as [|n IH]; cbn [csum]; [reflexivity|rewrite IH; ring]. Qed.

Lemma csum_zero n f : (forall i, (i < n)%nat -> f i = RtoC 0) -> csum n f = RtoC 0.
Proof. intros H. rewrite (csum_ext n f (fun _ => RtoC 0)); auto using csum_0. Qed.

Lemma csum_RtoC n f : csum n (fun i => RtoC (f i)) = RtoC (rsum n f).
Proof.
  induction n as [|n IH]; cbn [csum rsum]; [reflexivity|].
  now rewrite IH, RtoC_plus.
Qed.

Lemma csum_exchange m n (f : nat -> nat -> C) :
  csum m (fun i => csum n (fun j => f i j)) = csum n (fun j => csum m (fun i => f i j)).
Proof.
  induction m as [|m IH]; cbn [csum].
  - now rewrite csum_0.
  - now rewrite IH, <- csum_plus.
Qed.

Lemma csum_mult m n f g :
  Cmult (csum m f) (csum n g) = csum m (fun i => csum n (fun j => Cmult (f i) (g j))).
Proof.
  rewrite <- csum_scal_r. apply csum_ext; intros i Hi. now rewrite csum_scal.
Qed.

Lemma csum_single n f k : (k < n)%nat -> (forall i, (i < n)%nat -> i <> k -> f i = RtoC 0) ->
  csum n f = f k.
Proof.
  intros Hk H. apply Ceq.
  - rewrite csum_fst. apply (rsum_single n (fun i => fst (f i)) k); auto.
    intros i Hi Hn. now rewrite H.
  - rewrite csum_snd. apply (rsum_single n (fun i => snd (f i)) k); auto.
    intros i Hi Hn. now rewrite H.
Qed.

Lemma csum_reindex n f (p : nat -> nat) :
  (forall i, (i < n)%nat -> (p i < n)%nat) ->
  (forall i j, (i < n)%nat -> (j < n)%nat -> p i = p j -> i = j) ->
  csum n (fun i => f (p i)) = csum n f.
Proof.
  intros H1 H2. apply Ceq.
  - rewrite !csum_fst. apply (rsum_reindex n (fun i => fst (f i)) p); auto.
  - rewrite !csum_snd. apply (rsum_reindex n (fun i => snd (f i)) p); auto.
Qed.

Lemma csum_conj n f : Cconj (csum n f) = csum n (fun i => Cconj (f i)).
Proof.
  apply Ceq; cbn.
  - rewrite !csum_fst. reflexivity.
  - rewrite !csum_snd. cbn. now rewrite rsum_opp.
Qed.

Lemma Cmod_csum n f : Cmod (csum n f) <= rsum n (fun i => Cmod (f i)).
Proof.
  induction n as [|n IH]; cbn [csum rsum]; [rewrite Cmod_0; lra|].
  eapply Rle_trans; [apply Cmod_triangle|]. lra.
Qed.

(** ** Conjugation and modulus *)

Lemma Cconj_conj z : Cconj (Cconj z) = z.
Proof. destruct z; unfold Cconj; cbn. now rewrite Ropp_involutive. Qed.
Lemma Cconj_mult a b : Cconj (Cmult a b) = Cmult (Cconj a) (Cconj b).
Proof. destruct a, b; apply Ceq; cbn; ring. Qed.
Lemma Cconj_plus a b : Cconj (Cplus a b) = Cplus (Cconj a) (Cconj b).
Proof. destruct a, b; apply Ceq; cbn; ring. Qed.
Lemma Cconj_RtoC r : Cconj (RtoC r) = RtoC r.
Proof. apply Ceq; cbn; ring. Qed.
Lemma Cmod_conj z : Cmod (Cconj z) = Cmod z.
Proof. unfold Cmod, Cconj; cbn [fst snd]. f_equal. ring. Qed.

Lemma Cmod_sqr z : Cmod z * Cmod z = Cnorm2 z.
Proof.
  unfold Cmod, Cnorm2. rewrite sqrt_sqrt.
  - unfold Rsqr; cbn; ring.
  - pose proof (pow2_ge_0 (fst z)); pose proof (pow2_ge_0 (snd z)); lra.
Qed.

Lemma Cmod_norm2 z : Cmod z = sqrt (Cnorm2 z).
Proof. unfold Cmod, Cnorm2. f_equal. unfold Rsqr; cbn; ring. Qed.

Lemma Cnorm2_conj z : Cnorm2 (Cconj z) = Cnorm2 z.
Proof. unfold Cnorm2, Cconj, Rsqr; cbn; ring. Qed.

Lemma Cmult_conj z : Cmult z (Cconj z) = RtoC (Cnorm2 z).
Proof. destruct z; apply Ceq; unfold Cnorm2, Rsqr; cbn; ring. Qed.

Lemma Cnorm2_mult a b : Cnorm2 (Cmult a b) = Cnorm2 a * Cnorm2 b.
Proof. destruct a, b; unfold Cnorm2, Rsqr; cbn; ring. Qed.

Lemma Cnorm2_nonneg z : 0 <= Cnorm2 z.
Proof. unfold Cnorm2. pose proof (Rle_0_sqr (fst z)); pose proof (Rle_0_sqr (snd z)); lra. Qed.

Lemma Cnorm2_RtoC r : Cnorm2 (RtoC r) = r².
Proof. unfold Cnorm2, Rsqr; cbn; ring. Qed.

Lemma RtoC_inj a b : RtoC a = RtoC b -> a = b.
Proof. intros H. now injection H. Qed.

(** ** The unit circle *)

Lemma cis_plus a b : cis (a + b) = Cmult (cis a) (cis b).
Proof. apply Ceq; cbn; [rewrite cos_plus|rewrite sin_plus]; ring. Qed.
Lemma cis_0 : cis 0 = RtoC 1.
Proof. apply Ceq; cbn; [apply cos_0|apply sin_0]. Qed.
Lemma cis_opp t : cis (- t) = Cconj (cis t).
Proof. apply Ceq; cbn; [apply cos_neg|apply sin_neg]. Qed.
Lemma cis_norm t : Cnorm2 (cis t) = 1.
Proof. unfold Cnorm2, cis; cbn. rewrite Rplus_comm. apply sin2_cos2. Qed.
Lemma cis_conj_r t : Cmult (cis t) (Cconj (cis t)) = RtoC 1.
Proof. now rewrite Cmult_conj, cis_norm. Qed.
Lemma cis_2PI k : cis (2 * PI * INR k) = RtoC 1.
Proof.
  apply Ceq; cbn.
  - replace (2 * PI * INR k) with (0 + 2 * INR k * PI) by ring.
    now rewrite cos_period, cos_0.
  - replace (2 * PI * INR k) with (0 + 2 * INR k * PI) by ring.
    now rewrite sin_period, sin_0.
Qed.

Lemma cis_ne_1 t : 0 < Rabs t < 2 * PI -> cis t <> RtoC 1.
Proof.
  intros [H1 H2] E. assert (Hc : cos t = 1) by (injection E; auto).
  assert (Hs : sin (Rabs t / 2) = 0).
  { assert (Hc' : cos (Rabs t) = 1).
    { unfold Rabs; destruct (Rcase_abs t); [rewrite cos_neg|]; auto. }
    replace (Rabs t) with (2 * (Rabs t / 2)) in Hc' by field.
    rewrite cos_2a_sin in Hc'. nra. }
  assert (0 < sin (Rabs t / 2)) by (apply sin_gt_0; lra). lra.
Qed.

(** ** Twiddle factors *)

Lemma tw_norm n j k : Cnorm2 (tw n j k) = 1.
Proof. apply cis_norm. Qed.

Lemma tw_0_r n j : tw n j 0 = RtoC 1.
Proof. unfold tw. rewrite Nat.mul_0_r. cbn. unfold Rdiv. rewrite Rmult_0_r, Rmult_0_l, Ropp_0. apply cis_0. Qed.

Lemma tw_0_l n k : tw n 0 k = RtoC 1.
Proof. unfold tw. rewrite Nat.mul_0_l. cbn. unfold Rdiv. rewrite Rmult_0_r, Rmult_0_l, Ropp_0. apply cis_0. Qed.

Lemma tw_sym n j k : tw n j k = tw n k j.
Proof. unfold tw. now rewrite Nat.mul_comm. Qed.

Lemma tw_conj n j k : Cconj (tw n j k) = cis (2 * PI * INR (j * k) / INR n).
Proof. unfold tw. now rewrite cis_opp, Cconj_conj. Qed.

Lemma tw_conj_r n j k : Cmult (tw n j k) (Cconj (tw n j k)) = RtoC 1.
Proof. now rewrite Cmult_conj, tw_norm. Qed.

Lemma tw_add_l n i j k : tw n (i + j) k = Cmult (tw n i k) (tw n j k).
Proof.
  unfold tw. rewrite <- cis_plus. f_equal. rewrite Nat.mul_add_distr_r, plus_INR.
  unfold Rdiv; ring.
Qed.

Lemma tw_n_l n k : (0 < n)%nat -> tw n n k = RtoC 1.
Proof.
  intros Hn. unfold tw. rewrite mult_INR.
  replace (2 * PI * (INR n * INR k) / INR n) with (2 * PI * INR k).
  - now rewrite cis_opp, cis_2PI, Cconj_RtoC.
  - field. apply not_0_INR; lia.
Qed.

Lemma tw_mul_l n q k : (0 < n)%nat -> tw n (n * q) k = RtoC 1.
Proof.
  intros Hn. induction q as [|q IH]; [rewrite Nat.mul_0_r; apply tw_0_l|].
  rewrite Nat.mul_succ_r, tw_add_l, IH, tw_n_l by auto. ring.
Qed.

Lemma tw_mod_l n j k : (0 < n)%nat -> tw n (j mod n) k = tw n j k.
Proof.
  intros Hn. rewrite (Nat.div_mod j n) at 2 by lia.
  rewrite tw_add_l, tw_mul_l by auto. ring.
Qed.

Lemma tw_mod_r n j k : (0 < n)%nat -> tw n j (k mod n) = tw n j k.
Proof. intros. rewrite tw_sym, tw_mod_l, tw_sym; auto. Qed.

(** Negative frequency = conjugate. *)
Lemma tw_neg_r n j k : (k <= n)%nat -> (0 < n)%nat -> tw n j ((n - k) mod n) = Cconj (tw n j k).
Proof.
  intros Hk Hn. rewrite tw_mod_r by auto.
  assert (E : Cmult (tw n j (n - k)) (tw n j k) = RtoC 1).
  { rewrite !(tw_sym n j), <- tw_add_l. replace (n - k + k)%nat with n by lia. now apply tw_n_l. }
  transitivity (Cmult (tw n j (n - k)) (Cmult (tw n j k) (Cconj (tw n j k)))).
  - rewrite tw_conj_r. ring.
  - rewrite Cmult_assoc, E. ring.
Qed.

Lemma tw_neg_l n j k : (j <= n)%nat -> (0 < n)%nat -> tw n ((n - j) mod n) k = Cconj (tw n j k).
Proof. intros. rewrite tw_sym, tw_neg_r by auto. now rewrite tw_sym. Qed.

(** ** Orthogonality *)

Fixpoint cpow (z : C) (n : nat) : C := match n with O => RtoC 1 | S k => Cmult (cpow z k) z end.

Lemma geometric z n : Cmult (Cminus z (RtoC 1)) (csum n (cpow z)) = Cminus (cpow z n) (RtoC 1).
Proof.
  induction n as [|n IH]; cbn [csum cpow]; [ring|].
  replace (Cmult (Cminus z (RtoC 1)) (Cplus (csum n (cpow z)) (cpow z n)))
    with (Cplus (Cmult (Cminus z (RtoC 1)) (csum n (cpow z))) (Cmult (Cminus z (RtoC 1)) (cpow z n))) by ring.
  rewrite IH. ring.
Qed.

Lemma cpow_cis t n : cpow (cis t) n = cis (INR n * t).
Proof.
  induction n as [|n IH]; cbn [cpow].
  - cbn. now rewrite Rmult_0_l, cis_0.
  - rewrite IH, <- cis_plus, S_INR. f_equal. ring.
Qed.

Lemma Cmult_integral_r a b : a <> RtoC 0 -> Cmult a b = RtoC 0 -> b = RtoC 0.
Proof.
  intros Ha E. replace b with (Cmult (Cinv a) (Cmult a b)).
  - rewrite E. ring.
  - rewrite Cmult_assoc, Cinv_l by auto. ring.
Qed.

Lemma tw_orth n j l : (j < n)%nat -> (l < n)%nat ->
  csum n (fun k => Cmult (tw n j k) (Cconj (tw n l k))) =
  if Nat.eqb j l then RtoC (INR n) else RtoC 0.
Proof.
  intros Hj Hl. assert (Hn : INR n <> 0) by (apply not_0_INR; lia).
  destruct (Nat.eqb_spec j l) as [->|Hne].
  - rewrite (csum_ext n _ (fun _ => RtoC 1)) by (intros; apply tw_conj_r).
    rewrite csum_RtoC, rsum_const. f_equal; ring.
  - set (t := 2 * PI * (INR l - INR j) / INR n).
    rewrite (csum_ext n _ (cpow (cis t))).
    + assert (Hz : cis t <> RtoC 1).
      { apply cis_ne_1. unfold t.
        assert (Hn' : 0 < INR n) by (apply lt_0_INR; lia).
        pose proof PI_RGT_0 as HPI.
        assert (Habs : Rabs (2 * PI * (INR l - INR j) / INR n) = 2 * PI * (Rabs (INR l - INR j) / INR n)).
        { unfold Rdiv. rewrite !Rabs_mult. rewrite (Rabs_pos_eq 2), (Rabs_pos_eq PI) by lra.
          rewrite (Rabs_pos_eq (/ INR n)) by (left; apply Rinv_0_lt_compat; auto). ring. }
        rewrite Habs.
        assert (0 < Rabs (INR l - INR j) < INR n).
        { split.
          - apply Rabs_pos_lt. intros E. apply Hne. apply INR_eq. lra.
          - pose proof (lt_INR j n Hj). pose proof (lt_INR l n Hl).
            pose proof (pos_INR j). pose proof (pos_INR l).
            apply Rabs_def1; lra. }
        assert (0 < Rabs (INR l - INR j) / INR n < 1).
        { split; [apply Rdiv_lt_0_compat; tauto|].
          apply Rmult_lt_reg_r with (INR n); auto.
          unfold Rdiv. rewrite Rmult_assoc, Rinv_l by auto. lra. }
        nra. }
      apply Cmult_integral_r with (Cminus (cis t) (RtoC 1)).
      * intros E. apply Hz. replace (cis t) with (Cplus (Cminus (cis t) (RtoC 1)) (RtoC 1)) by ring.
        rewrite E. ring.
      * rewrite geometric, cpow_cis. unfold t.
        replace (INR n * (2 * PI * (INR l - INR j) / INR n)) with (2 * PI * INR l + - (2 * PI * INR j))
          by (field; auto).
        rewrite cis_plus, cis_opp, !cis_2PI, Cconj_RtoC. ring.
    + intros k Hk. rewrite cpow_cis, tw_conj. unfold tw. rewrite <- cis_plus. f_equal.
      unfold t. rewrite !mult_INR. field. auto.
Qed.

Lemma tw_orth_l n j l : (j < n)%nat -> (l < n)%nat ->
  csum n (fun k => Cmult (tw n k j) (Cconj (tw n k l))) =
  if Nat.eqb j l then RtoC (INR n) else RtoC 0.
Proof.
  intros. rewrite <- tw_orth by auto. apply csum_ext; intros. now rewrite !(tw_sym n i).
Qed.

(** ** Inversion *)

Theorem idft1_dft1 n x j : (j < n)%nat -> idft1 n (dft1 n x) j = x j.
Proof.
  intros Hj. unfold idft1, dft1.
  assert (Hn : INR n <> 0) by (apply not_0_INR; lia).
  transitivity (Cmult (RtoC (/ INR n)) (csum n (fun l => Cmult (x l)
     (if Nat.eqb l j then RtoC (INR n) else RtoC 0)))).
  - f_equal.
    rewrite (csum_ext n _ (fun k => csum n (fun l => Cmult (x l) (Cmult (tw n l k) (Cconj (tw n j k)))))).
    + rewrite csum_exchange. apply csum_ext. intros l Hl.
      now rewrite csum_scal, tw_orth.
    + intros k Hk. rewrite <- csum_scal_r. apply csum_ext. intros; ring.
  - rewrite (csum_single n _ j); auto.
    + rewrite Nat.eqb_refl. rewrite (Cmult_comm (x j)), Cmult_assoc, <- RtoC_mult.
      rewrite Rinv_l by auto. ring.
    + intros i Hi Hne. destruct (Nat.eqb_spec i j); [contradiction|]. ring.
Qed.

(** ** Parseval *)

Lemma sum_norm2_C n f : RtoC (rsum n (fun k => Cnorm2 (f k))) = csum n (fun k => Cmult (f k) (Cconj (f k))).
Proof. rewrite <- csum_RtoC. apply csum_ext. intros; now rewrite Cmult_conj. Qed.

Theorem parseval n x : rsum n (fun k => Cnorm2 (dft1 n x k)) = INR n * rsum n (fun j => Cnorm2 (x j)).
Proof.
  apply RtoC_inj. rewrite sum_norm2_C.
  rewrite (csum_ext n _ (fun k => csum n (fun j => csum n (fun l =>
    Cmult (Cmult (x j) (Cconj (x l))) (Cmult (tw n j k) (Cconj (tw n l k))))))).
  2:{ intros k Hk. unfold dft1. rewrite csum_conj, csum_mult.
      apply csum_ext; intros j Hj. apply csum_ext; intros l Hl. rewrite Cconj_mult. ring. }
  rewrite csum_exchange.
  rewrite RtoC_mult, sum_norm2_C, <- csum_scal. apply csum_ext; intros j Hj.
  rewrite csum_exchange.
  rewrite (csum_single n _ j); auto.
  - rewrite csum_scal, tw_orth, Nat.eqb_refl by auto. ring.
  - intros l Hl Hne. rewrite csum_scal, tw_orth by auto.
    destruct (Nat.eqb_spec j l); [subst; contradiction|]. ring.
Qed.

(** ** Row-column structure and Hermitian symmetry *)

Lemma dft2_rows ny nx a ky kx :
  dft2 ny nx a ky kx = dft1 ny (fun y => dft1 nx (a y) kx) ky.
Proof.
  unfold dft2, dft1. apply csum_ext; intros y Hy. rewrite <- csum_scal_r.
  apply csum_ext; intros; ring.
Qed.

Lemma dft2_cols ny nx a ky kx :
  dft2 ny nx a ky kx = dft1 nx (fun x => dft1 ny (fun y => a y x) ky) kx.
Proof.
  unfold dft2, dft1. rewrite csum_exchange. apply csum_ext; intros x Hx. rewrite <- csum_scal_r.
  apply csum_ext; intros; ring.
Qed.

Lemma dft3_z nz ny nx a kz ky kx :
  dft3 nz ny nx a kz ky kx = dft1 nz (fun z => dft2 ny nx (a z) ky kx) kz.
Proof.
  unfold dft3, dft2, dft1. apply csum_ext; intros z Hz. rewrite <- csum_scal_r.
  apply csum_ext; intros y Hy. rewrite <- csum_scal_r. apply csum_ext; intros; ring.
Qed.

Lemma dft3_yx nz ny nx a kz ky kx :
  dft3 nz ny nx a kz ky kx = dft2 ny nx (fun y x => dft1 nz (fun z => a z y x) kz) ky kx.
Proof.
  unfold dft3, dft2, dft1. rewrite csum_exchange. apply csum_ext; intros y Hy.
  rewrite csum_exchange. apply csum_ext; intros x Hx. rewrite <- csum_scal_r.
  apply csum_ext; intros; ring.
Qed.

Lemma dft1_ext n x y k : (forall j, (j < n)%nat -> x j = y j) -> dft1 n x k = dft1 n y k.
Proof. intros H. apply csum_ext; intros j Hj. now rewrite H. Qed.

Lemma dft2_ext ny nx a b ky kx :
  (forall y x, (y < ny)%nat -> (x < nx)%nat -> a y x = b y x) -> dft2 ny nx a ky kx = dft2 ny nx b ky kx.
Proof. intros H. apply csum_ext; intros y Hy. apply csum_ext; intros x Hx. now rewrite H. Qed.

Theorem dft2_hermitian ny nx (a : nat -> nat -> R) ky kx :
  (ky <= ny)%nat -> (kx <= nx)%nat -> (0 < ny)%nat -> (0 < nx)%nat ->
  dft2 ny nx (fun y x => RtoC (a y x)) ((ny - ky) mod ny) ((nx - kx) mod nx)
  = Cconj (dft2 ny nx (fun y x => RtoC (a y x)) ky kx).
Proof.
  intros H1 H2 H3 H4. unfold dft2. rewrite csum_conj. apply csum_ext; intros y Hy.
  rewrite csum_conj. apply csum_ext; intros x Hx.
  rewrite !tw_neg_r by auto. now rewrite !Cconj_mult, Cconj_RtoC.
Qed.

Theorem dft3_hermitian nz ny nx (a : nat -> nat -> nat -> R) kz ky kx :
  (kz <= nz)%nat -> (ky <= ny)%nat -> (kx <= nx)%nat ->
  (0 < nz)%nat -> (0 < ny)%nat -> (0 < nx)%nat ->
  dft3 nz ny nx (fun z y x => RtoC (a z y x)) ((nz - kz) mod nz) ((ny - ky) mod ny) ((nx - kx) mod nx)
  = Cconj (dft3 nz ny nx (fun z y x => RtoC (a z y x)) kz ky kx).
Proof.
  intros H1 H2 H3 H4 H5 H6. unfold dft3. rewrite csum_conj. apply csum_ext; intros z Hz.
  rewrite csum_conj. apply csum_ext; intros y Hy.
  rewrite csum_conj. apply csum_ext; intros x Hx.
  rewrite !tw_neg_r by auto. now rewrite !Cconj_mult, Cconj_RtoC.
Qed.
