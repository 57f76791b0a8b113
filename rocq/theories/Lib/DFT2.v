(** Two-dimensional inverse DFT and circular correlation. *)
From Coq Require Import Reals List Lia Lra Arith.
From Coquelicot Require Import Complex.
From Verif Require Import Lib.RSum Lib.DFT.
Local Open Scope R_scope.

(** np.fft.ifft2 *)
Definition idft2 (ny nx : nat) (X : nat -> nat -> C) (y x : nat) : C :=
  idft1 ny (fun ky => idft1 nx (X ky) x) y.

Lemma idft1_ext n X Y j : (forall k, (k < n)%nat -> X k = Y k) -> idft1 n X j = idft1 n Y j.
Proof. intros H. unfold idft1. f_equal. apply csum_ext. intros k Hk. now rewrite H. Qed.

Lemma idft2_ext ny nx X Y y x :
  (forall ky kx, (ky < ny)%nat -> (kx < nx)%nat -> X ky kx = Y ky kx) -> idft2 ny nx X y x = idft2 ny nx Y y x.
Proof. intros H. unfold idft2. apply idft1_ext. intros ky Hy. apply idft1_ext. auto. Qed.

Lemma idft2_swap ny nx X y x : idft2 ny nx X y x = idft1 nx (fun kx => idft1 ny (fun ky => X ky kx) y) x.
Proof.
  unfold idft2, idft1.
  transitivity (Cmult (Cmult (RtoC (/ INR ny)) (RtoC (/ INR nx)))
    (csum ny (fun ky => csum nx (fun kx => Cmult (X ky kx) (Cmult (Cconj (tw nx x kx)) (Cconj (tw ny y ky))))))).
  - rewrite <- Cmult_assoc. f_equal. rewrite <- csum_scal. apply csum_ext. intros ky Hy.
    rewrite <- Cmult_assoc. f_equal. rewrite <- csum_scal_r. apply csum_ext. intros; ring.
  - rewrite csum_exchange. rewrite (Cmult_comm (RtoC (/ INR ny))), <- Cmult_assoc. f_equal.
    rewrite <- csum_scal. apply csum_ext. intros kx Hx.
    rewrite <- Cmult_assoc. f_equal. rewrite <- csum_scal_r. apply csum_ext. intros; ring.
Qed.

Theorem idft2_dft2 ny nx a y x : (y < ny)%nat -> (x < nx)%nat -> idft2 ny nx (dft2 ny nx a) y x = a y x.
Proof.
  intros Hy Hx. unfold idft2.
  rewrite (idft1_ext ny _ (dft1 ny (fun y => a y x))).
  - now apply idft1_dft1 with (x := fun y => a y x).
  - intros ky Hk. rewrite (idft1_ext nx _ (dft1 nx (fun x => dft1 ny (fun y => a y x) ky))).
    + now apply idft1_dft1 with (x := fun x => dft1 ny (fun y => a y x) ky).
    + intros kx Hkx. apply dft2_cols.
Qed.

(** Circular cross-correlation theorem. *)
Theorem correlation1 n (u v : nat -> C) l : (l < n)%nat ->
  idft1 n (fun k => Cmult (dft1 n u k) (Cconj (dft1 n v k))) l =
  csum n (fun j => Cmult (u ((j + l) mod n)%nat) (Cconj (v j))).
Proof.
  intros Hl. assert (Hn : INR n <> 0) by (apply not_0_INR; lia).
  unfold idft1.
  transitivity (Cmult (RtoC (/ INR n)) (csum n (fun j => csum n (fun i => Cmult (Cmult (u i) (Cconj (v j)))
     (csum n (fun k => Cmult (tw n i k) (Cconj (tw n ((j + l) mod n) k)))))))).
  - f_equal.
    transitivity (csum n (fun k => csum n (fun j => csum n (fun i => Cmult (Cmult (u i) (Cconj (v j))) (Cmult (tw n i k) (Cconj (tw n ((j + l) mod n) k))))))).
    + apply csum_ext. intros k Hk. unfold dft1. rewrite csum_conj. rewrite (Cmult_comm (csum n _) (csum n _)).
      rewrite csum_mult. rewrite <- csum_scal_r. apply csum_ext. intros j Hj. rewrite <- csum_scal_r. apply csum_ext. intros i Hi.
      rewrite tw_mod_l by lia. rewrite tw_add_l, !Cconj_mult. ring.
    + rewrite csum_exchange. apply csum_ext. intros j Hj. rewrite csum_exchange. apply csum_ext. intros i Hi.
      now rewrite csum_scal.
  - rewrite <- csum_scal. apply csum_ext. intros j Hj.
    assert (Hm : ((j + l) mod n < n)%nat) by (apply Nat.mod_upper_bound; lia).
    rewrite (csum_single n _ ((j + l) mod n)); [|exact Hm|].
    + rewrite tw_orth, Nat.eqb_refl by auto.
      rewrite (Cmult_comm (RtoC (/ INR n))), <- Cmult_assoc, <- RtoC_mult, Rinv_r by auto. ring.
    + intros i Hi Hne. rewrite tw_orth by auto. destruct (Nat.eqb_spec i ((j + l) mod n)); [contradiction|ring].
Qed.

Theorem correlation2 ny nx (a b : nat -> nat -> C) ly lx : (ly < ny)%nat -> (lx < nx)%nat ->
  idft2 ny nx (fun ky kx => Cmult (dft2 ny nx a ky kx) (Cconj (dft2 ny nx b ky kx))) ly lx =
  csum ny (fun y => csum nx (fun x => Cmult (a ((y + ly) mod ny)%nat ((x + lx) mod nx)%nat) (Cconj (b y x)))).
Proof.
  intros Hy Hx. rewrite idft2_swap.
  rewrite (idft1_ext nx _ (fun kx => csum ny (fun y => Cmult (dft1 nx (a ((y + ly) mod ny)%nat) kx) (Cconj (dft1 nx (b y) kx))))).
  - unfold idft1.
    rewrite (csum_ext nx _ (fun kx => csum ny (fun y => Cmult (Cmult (dft1 nx (a ((y + ly) mod ny)%nat) kx) (Cconj (dft1 nx (b y) kx))) (Cconj (tw nx lx kx)))))
      by (intros; now rewrite csum_scal_r).
    rewrite csum_exchange, <- csum_scal. apply csum_ext. intros y Hy'.
    exact (correlation1 nx (a ((y + ly) mod ny)%nat) (b y) lx Hx).
  - intros kx Hk. rewrite <- (correlation1 ny (fun y => dft1 nx (a y) kx) (fun y => dft1 nx (b y) kx)) by auto.
    apply idft1_ext. intros ky Hky. now rewrite !dft2_rows.
Qed.
