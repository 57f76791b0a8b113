(** Forward transform of the inverse transform, and the real inverse transform
    of a Hermitian map. *)
From Coq Require Import Reals Lia Lra Arith Bool.
From Coquelicot Require Import Complex.
From Verif Require Import Lib.RSum Lib.DFT Lib.DFT2.
Local Open Scope R_scope.

Theorem dft1_idft1 n X k : (k < n)%nat -> dft1 n (idft1 n X) k = X k.
Proof.
  intros Hk. unfold idft1, dft1.
  assert (Hn : INR n <> 0) by (apply not_0_INR; lia).
  transitivity (Cmult (RtoC (/ INR n)) (csum n (fun l => Cmult (X l)
     (if Nat.eqb k l then RtoC (INR n) else RtoC 0)))).
  - rewrite (csum_ext n _ (fun j => Cmult (RtoC (/ INR n)) (csum n (fun l => Cmult (X l) (Cmult (tw n j k) (Cconj (tw n j l))))))).
    + rewrite csum_scal. f_equal. rewrite csum_exchange. apply csum_ext. intros l Hl.
      rewrite csum_scal. f_equal.
      rewrite (csum_ext n _ (fun j => Cmult (tw n k j) (Cconj (tw n l j)))) by (intros; now rewrite (tw_sym n k), (tw_sym n l)).
      now rewrite tw_orth.
    + intros j Hj. rewrite <- Cmult_assoc. f_equal. rewrite <- csum_scal_r. apply csum_ext. intros; ring.
  - rewrite (csum_single n _ k); auto.
    + rewrite Nat.eqb_refl. rewrite (Cmult_comm (X k)), Cmult_assoc, <- RtoC_mult.
      rewrite Rinv_l by auto. ring.
    + intros i Hi Hne. destruct (Nat.eqb_spec k i); [subst; contradiction|]. ring.
Qed.

Theorem dft2_idft2 ny nx X ky kx : (ky < ny)%nat -> (kx < nx)%nat -> dft2 ny nx (idft2 ny nx X) ky kx = X ky kx.
Proof.
  intros Hy Hx. rewrite dft2_rows.
  rewrite (dft1_ext ny _ (fun y => idft1 ny (fun ky => X ky kx) y)).
  - change (fun y => idft1 ny (fun ky0 => X ky0 kx) y) with (idft1 ny (fun ky0 => X ky0 kx)).
    now rewrite dft1_idft1.
  - intros y Hy'. rewrite (dft1_ext nx _ (idft1 nx (fun kx => idft1 ny (fun ky => X ky kx) y))).
    + now rewrite dft1_idft1.
    + intros x _. apply idft2_swap.
Qed.

(** The transform over the last axis first. *)
Lemma dft3_last n0 n1 n2 a k0 k1 k2 :
  dft3 n0 n1 n2 a k0 k1 k2 = dft2 n0 n1 (fun i j => dft1 n2 (fun k => a i j k) k2) k0 k1.
Proof.
  unfold dft3, dft2, dft1. apply csum_ext; intros i _. apply csum_ext; intros j _.
  rewrite <- csum_scal_r. apply csum_ext; intros k _. ring.
Qed.

(** Inverse over the last axis of inverses over the first two. *)
Definition idft3 (n0 n1 n2 : nat) (X : nat -> nat -> nat -> C) (a b c : nat) : C :=
  idft1 n2 (fun k2 => idft2 n0 n1 (fun k0 k1 => X k0 k1 k2) a b) c.

Theorem dft3_idft3 n0 n1 n2 X k0 k1 k2 : (k0 < n0)%nat -> (k1 < n1)%nat -> (k2 < n2)%nat ->
  dft3 n0 n1 n2 (idft3 n0 n1 n2 X) k0 k1 k2 = X k0 k1 k2.
Proof.
  intros H0 H1 H2. rewrite dft3_last.
  rewrite (dft2_ext n0 n1 _ (idft2 n0 n1 (fun k0 k1 => X k0 k1 k2))).
  - now rewrite dft2_idft2.
  - intros i j _ _. change (fun k => idft3 n0 n1 n2 X i j k) with (idft1 n2 (fun k2 => idft2 n0 n1 (fun k0 k1 => X k0 k1 k2) i j)).
    now rewrite dft1_idft1.
Qed.

Lemma dft3_ext n0 n1 n2 a b k0 k1 k2 :
  (forall i j k, (i < n0)%nat -> (j < n1)%nat -> (k < n2)%nat -> a i j k = b i j k) -> dft3 n0 n1 n2 a k0 k1 k2 = dft3 n0 n1 n2 b k0 k1 k2.
Proof.
  intros H. unfold dft3. apply csum_ext; intros i Hi. apply csum_ext; intros j Hj. apply csum_ext; intros k Hk. now rewrite H.
Qed.

(** Conjugating and reversing the coefficients conjugates the inverse. *)
Lemma idft1_conj_neg n X j : idft1 n (fun k => Cconj (X ((n - k) mod n)%nat)) j = Cconj (idft1 n X j).
Proof.
  destruct (Nat.eq_dec n 0) as [->|Hn].
  - unfold idft1. cbn [csum]. rewrite !Cmult_0_r. symmetry. apply Cconj_RtoC.
  - unfold idft1. rewrite Cconj_mult, Cconj_RtoC, csum_conj. f_equal.
    rewrite <- (csum_reindex n (fun k => Cconj (Cmult (X k) (Cconj (tw n j k)))) (fun k => ((n - k) mod n)%nat)).
    + apply csum_ext. intros k Hk. rewrite Cconj_mult. f_equal. f_equal. rewrite tw_neg_r by lia. now rewrite Cconj_conj.
    + intros i Hi. apply Nat.mod_upper_bound. lia.
    + intros i i' Hi Hi'. rewrite !neg_mod_val by auto. destruct (Nat.eqb_spec i 0), (Nat.eqb_spec i' 0); lia.
Qed.

Lemma idft2_conj_neg n0 n1 X a b :
  idft2 n0 n1 (fun k0 k1 => Cconj (X ((n0 - k0) mod n0)%nat ((n1 - k1) mod n1)%nat)) a b = Cconj (idft2 n0 n1 X a b).
Proof.
  unfold idft2. rewrite <- idft1_conj_neg. apply idft1_ext. intros k0 H0. now rewrite <- idft1_conj_neg.
Qed.

Lemma neg_neg n k : (k < n)%nat -> ((n - (n - k) mod n) mod n = k)%nat.
Proof.
  intros H. rewrite (neg_mod_val n k H). destruct (Nat.eqb_spec k 0) as [->|E].
  - rewrite Nat.sub_0_r. apply Nat.mod_same. lia.
  - replace (n - (n - k))%nat with k by lia. apply Nat.mod_small. exact H.
Qed.

(** The sum of a Hermitian sequence over an even number of points. *)
Lemma herm_sum m (h : nat -> C) : (1 <= m)%nat ->
  (forall k, (k < 2 * m)%nat -> h ((2 * m - k) mod (2 * m))%nat = Cconj (h k)) ->
  csum (2 * m) h = RtoC (rsum (S m) (fun k => (if Nat.eqb k 0 || Nat.eqb k m then 1 else 2) * fst (h k))).
Proof.
  intros Hm Hh. set (n := (2 * m)%nat) in *.
  assert (Hre : forall k, (0 < k < n)%nat -> fst (h (n - k)%nat) = fst (h k)).
  { intros k Hk. specialize (Hh k ltac:(lia)). rewrite neg_mod_val in Hh by lia. destruct (Nat.eqb_spec k 0); [lia|]. rewrite Hh. reflexivity. }
  apply Ceq.
  - rewrite csum_fst. cbn [RtoC fst].
    replace n with (S m + (m - 1))%nat by (unfold n; lia). rewrite rsum_split.
    assert (T : rsum (m - 1) (fun i => fst (h (S m + i)%nat)) = rsum (m - 1) (fun i => fst (h (S i)))).
    { rewrite <- (rsum_rev (m - 1) (fun i => fst (h (S i)))). apply rsum_ext. intros i Hi.
      rewrite <- Hre by (unfold n; lia). f_equal. f_equal. unfold n; lia. }
    rewrite T. destruct m as [|m']; [lia|]. replace (S m' - 1)%nat with m' by lia. clear T.
    rewrite !(rsum_S_l (S m')). cbn [rsum].
    rewrite Nat.eqb_refl. cbn [Nat.eqb orb].
    rewrite (rsum_ext m' (fun i => (if Nat.eqb i m' then 1 else 2) * fst (h (S i))) (fun i => 2 * fst (h (S i)))).
    + rewrite rsum_scal, Nat.eqb_refl. lra.
    + intros i Hi. destruct (Nat.eqb_spec i m'); [lia|reflexivity].
  - rewrite csum_snd. cbn [RtoC snd].
    assert (E : rsum n (fun i => snd (h i)) = - rsum n (fun i => snd (h i))); [|lra].
    rewrite <- rsum_neg at 1. rewrite <- rsum_opp. apply rsum_ext. intros i Hi. now rewrite Hh.
Qed.
