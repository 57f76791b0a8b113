(** Proofs about Model/PcaFit.v: autocorrelation spectra and spectral widths (C194-C196, C205). *)
From Coq Require Import String Reals List ZArith Lia Lra Arith Bool.
From Coquelicot Require Import Complex.
From Coq Require Import List.
From Verif Require Import Lib.PyBase Lib.RSum Lib.Fl Lib.Arr Lib.DFT Lib.DFT2 Lib.ListMore Spec.Components Spec.SizeWidth
  Model.StatsUtils Model.Psds Model.Pca Model.PcaFit Proofs.Psds_Proofs Proofs.Pca_Proofs Proofs.Pca2_Proofs Proofs.Pca3_Proofs.
Import ListNotations.
Local Open Scope R_scope.

Lemma dft1_minus_mean n v k : (0 < n)%nat ->
  Cminus (dft1 n (fun j => RtoC (v j)) k) (Cmult (RtoC (/ INR n)) (csum n (dft1 n (fun j => RtoC (v j)))))
  = dft1 n (fun j => RtoC (drop_first v j)) k.
Proof.
  intros H.
  assert (M : Cmult (RtoC (/ INR n)) (csum n (dft1 n (fun j => RtoC (v j)))) = RtoC (v 0%nat)).
  { rewrite <- (idft1_dft1 n (fun j => RtoC (v j)) 0) by auto. unfold idft1. f_equal.
    apply csum_ext. intros j Hj. rewrite tw_0_l, Cconj_RtoC. ring. }
  rewrite M. unfold dft1.
  transitivity (Cminus (csum n (fun j => Cmult (RtoC (v j)) (tw n j k))) (csum n (fun j => match j with O => RtoC (v 0%nat) | _ => RtoC 0 end))).
  - f_equal. rewrite (csum_single n _ 0); auto. intros [|i] Hi Hn; [lia|reflexivity].
  - rewrite <- csum_minus. apply csum_ext. intros j Hj. unfold drop_first. destruct j; [rewrite tw_0_l|]; ring.
Qed.

Lemma conj1_minus_mean n (X : nat -> C) k :
  Cminus (Cconj (X k)) (Cmult (RtoC (/ INR n)) (csum n (fun i => Cconj (X i)))) = Cconj (Cminus (X k) (Cmult (RtoC (/ INR n)) (csum n X))).
Proof.
  rewrite <- csum_conj. set (s := csum n _). set (x := X k). set (r := / _). apply Ceq; cbn; ring.
Qed.

Lemma acf_vector_value n v d : (d < n)%nat -> nth d (autocorr_vector n v) 0 = spectrum_acf n (drop_first v) d.
Proof.
  intros H. unfold autocorr_vector. cbv zeta. rewrite tab1_nth by auto.
  assert (E : idft1 n (fun k => Cmult (Cminus (dft1 n (fun j => RtoC (v j)) k) (Cmult (RtoC (/ INR n)) (csum n (dft1 n (fun j => RtoC (v j))))))
      (Cminus (Cconj (dft1 n (fun j => RtoC (v j)) k)) (Cmult (RtoC (/ INR n)) (csum n (fun k => Cconj (dft1 n (fun j => RtoC (v j)) k)))))) d
    = idft1 n (fun k => Cmult (dft1 n (fun j => RtoC (drop_first v j)) k) (Cconj (dft1 n (fun j => RtoC (drop_first v j)) k))) d).
  { unfold idft1. f_equal. apply csum_ext. intros k Hk. f_equal. rewrite conj1_minus_mean, dft1_minus_mean by lia. reflexivity. }
  rewrite E. rewrite (correlation1 n (fun j => RtoC (drop_first v j)) (fun j => RtoC (drop_first v j))) by auto.
  rewrite csum_fst. apply rsum_ext. intros c Hc. cbn. ring.
Qed.

Lemma acf_vector_length n v : length (autocorr_vector n v) = n.
Proof. unfold autocorr_vector. cbv zeta. apply tab1_length. Qed.

Lemma spectrum_circular n v d : spectrum_acf n v d = circular_acf 1 n (fun _ x => v x) 0 (Z.of_nat d).
Proof.
  unfold spectrum_acf, circular_acf. cbn [rsum]. rewrite Rplus_0_l. apply rsum_ext. intros c Hc.
  f_equal. f_equal. rewrite <- wrap_add by lia. rewrite <- (Nat.add_mod_idemp_r c d) by lia. f_equal. f_equal.
  unfold wrap. rewrite <- Nat2Z.inj_mod. lia.
Qed.

Lemma spectrum_acf_sym n v d : (1 <= d < n)%nat -> spectrum_acf n v d = spectrum_acf n v (n - d).
Proof.
  intros H. rewrite !spectrum_circular. rewrite <- (circular_acf_sym 1 n _ 0 (Z.of_nat d)). unfold circular_acf.
  apply rsum_ext. intros y Hy. apply rsum_ext. intros c Hc. f_equal. f_equal. unfold wrap. f_equal.
  replace (Z.of_nat c + - Z.of_nat d)%Z with (Z.of_nat c + Z.of_nat (n - d) + (-1) * Z.of_nat n)%Z by lia.
  apply Z.mod_add. lia.
Qed.

Lemma spectrum_acf_peak n v d : Rabs (spectrum_acf n v d) <= spectrum_acf n v 0.
Proof. rewrite !spectrum_circular. apply circular_acf_peak. Qed.

Lemma spectrum_acf_0 n v : spectrum_acf n v 0 = rsum n (fun c => v c * v c).
Proof. unfold spectrum_acf. apply rsum_ext. intros c Hc. now rewrite Nat.add_0_r, Nat.mod_small. Qed.

Lemma spectrum_acf_sign n v d (s : R) : s * s = 1 -> spectrum_acf n (fun c => s * v c) d = spectrum_acf n v d.
Proof. intros H. unfold spectrum_acf. apply rsum_ext. intros c Hc. transitivity ((s * s) * (v ((c + d) mod n)%nat * v c)); [ring|]. rewrite H. ring. Qed.

Lemma walk_nan n y : forall r i, (i + length r = n)%nat -> r <> [] -> (forall v, In v r -> v = NaN) -> walk_loop n y i r = (NaN, NaN).
Proof.
  induction r as [|v r IH]; intros i H Hne HN; [congruence|]. cbn [walk_loop].
  rewrite (HN v) by now left. cbn [fltb]. destruct (Nat.eqb_spec i (n - 1)); [reflexivity|].
  apply IH; [cbn [length] in H; lia| |intros; apply HN; now right].
  intros ->. cbn [length] in H. lia.
Qed.

Lemma walk_down_zero y : y <> [] -> (forall v, In v y -> v = 0) -> snd (walk_down y) = (NaN, NaN).
Proof.
  intros Hne H0. unfold walk_down. cbv zeta. cbn [snd].
  assert (E : map (fun v => fdiv (Fin v) (Fin (fmax_list y))) y = map (fun _ => NaN) y).
  { assert (F : fmax_list y = 0).
    { destruct y as [|a y]; [congruence|]. unfold fmax_list. cbn [hd]. rewrite (H0 a) by now left.
      assert (K : forall l, (forall v, In v l -> v = 0) -> fold_right Rmax 0 l = 0).
      { induction l as [|b l IH]; intros K; [reflexivity|]. cbn [fold_right]. rewrite (K b) by now left. rewrite IH by (intros; apply K; now right).
        apply Rmax_left. lra. }
      apply K. intros v [<-|Hv]; [reflexivity|]. apply H0. now right. }
    rewrite F. apply map_ext_in. intros v Hv. rewrite (H0 v Hv). unfold fdiv. destruct (Reqb_spec 0 0); [|congruence]. unfold sinf. destruct (Rltb_spec 0 0); [lra|]. reflexivity. }
  rewrite E. apply walk_nan.
  - reflexivity.
  - destruct y; [congruence|discriminate].
  - intros v Hv. apply in_map_iff in Hv. destruct Hv as [a [<- _]]. reflexivity.
Qed.

Lemma spectral_width n v : (1 <= n)%nat ->
  let acf := spectrum_acf n (drop_first v) in
  let wd := snd (walk_down (autocorr_vector n v)) in
  ((acf 0%nat = 0 \/ forall d, (d < n)%nat -> exp (-1) * acf 0%nat <= acf d) /\ wd = (NaN, NaN)) \/
  exists d w, (1 <= d)%nat /\ (2 * d <= n)%nat /\ acf d < exp (-1) * acf 0%nat /\ (forall j, (j < d)%nat -> exp (-1) * acf 0%nat <= acf j) /\
    wd = (Fin w, Fin (1 / 2)) /\ 0 < w /\ INR d - 1 <= w < INR d /\
    acf (d - 1)%nat + (w - (INR d - 1)) * (acf d - acf (d - 1)%nat) = exp (-1) * acf 0%nat.
Proof.
  intros Hn acf wd. set (y := autocorr_vector n v).
  assert (Ly : length y = n) by apply acf_vector_length.
  assert (Ny : forall d, (d < n)%nat -> nth d y 0 = acf d) by (intros; now apply acf_vector_value).
  assert (Yne : y <> []) by (intros E; rewrite E in Ly; cbn in Ly; lia).
  assert (P0 : 0 <= acf 0%nat) by (unfold acf; eapply Rle_trans; [apply Rabs_pos|apply (spectrum_acf_peak _ _ 0)]).
  assert (Pk : forall d, acf d <= acf 0%nat) by (intros d; eapply Rle_trans; [apply Rle_abs|apply spectrum_acf_peak]).
  destruct (Req_dec (acf 0%nat) 0) as [Z0|NZ].
  { left. split; [now left|]. apply walk_down_zero; [exact Yne|]. intros a Ha. destruct (In_nth y a 0 Ha) as [d [Hd <-]].
    rewrite Ly in Hd. rewrite Ny by auto. pose proof (spectrum_acf_peak n (drop_first v) d) as B. fold (acf d) in B. fold (acf 0%nat) in B.
    pose proof (Rabs_pos (acf d)). assert (E : Rabs (acf d) = 0) by lra. destruct (Req_dec (acf d) 0); [auto|]. apply Rabs_no_R0 in H0. lra. }
  assert (Pos : 0 < acf 0%nat) by lra.
  destruct (walk_down_width y Yne) as [[A B]|[i [w [Hi [A [B [C [D E]]]]]]]].
  - rewrite Ny by lia. lra.
  - intros a Ha. destruct (In_nth y a 0 Ha) as [d [Hd <-]]. rewrite Ly in Hd. rewrite !Ny by lia. apply Pk.
  - intros k Hk. rewrite Ly in *. rewrite !Ny by lia. now apply spectrum_acf_sym.
  - left. split; [right|exact B]. intros d Hd. rewrite Ly in A. specialize (A d Hd). rewrite !Ny in A by lia.
    apply (Rmult_le_compat_r (acf 0%nat)) in A; [|lra]. unfold Rdiv in A. rewrite Rmult_assoc, Rinv_l in A by lra. lra.
  - right. rewrite Ly in Hi. rewrite !Ny in A by lia.
    assert (A' : acf i < exp (-1) * acf 0%nat).
    { apply (Rmult_lt_compat_r (acf 0%nat)) in A; [|lra]. unfold Rdiv in A. rewrite Rmult_assoc, Rinv_l in A by lra. lra. }
    assert (B' : forall j, (j < i)%nat -> exp (-1) * acf 0%nat <= acf j).
    { intros j Hj. specialize (B j Hj). rewrite !Ny in B by lia.
      apply (Rmult_le_compat_r (acf 0%nat)) in B; [|lra]. unfold Rdiv in B. rewrite Rmult_assoc, Rinv_l in B by lra. lra. }
    assert (E' : acf (i - 1)%nat + (w - (INR i - 1)) * (acf i - acf (i - 1)%nat) = exp (-1) * acf 0%nat).
    { rewrite !Ny in E by lia. rewrite <- E. field. lra. }
    exists i, w. split; [lia|]. split; [|split; [exact A'|split; [exact B'|split; [exact C|split; [|split; [exact D|exact E']]]]]].
    + destruct (le_lt_dec (2 * i) n) as [K|K]; [exact K|exfalso].
      assert (S : acf i = acf (n - i)%nat) by (apply spectrum_acf_sym; lia).
      specialize (B' (n - i)%nat ltac:(lia)). rewrite <- S in B'. lra.
    + destruct (le_lt_dec 2 i) as [K|K].
      * apply le_INR in K. change (INR 2) with 2 in K. lra.
      * assert (i = 1%nat) by lia. subst i. change (INR 1) with 1 in *. change (1 - 1)%nat with 0%nat in E'.
        assert (e1 : exp (-1) < 1) by (rewrite <- exp_0; apply exp_increasing; lra).
        destruct (Rle_lt_dec w 0); [|assumption]. exfalso. assert (w = 0) by lra. subst w.
        assert (acf 0%nat = exp (-1) * acf 0%nat) by lra. assert (0 < (1 - exp (-1)) * acf 0%nat) by (apply Rmult_lt_0_compat; lra). lra.
Qed.
