(** The fitted width of a Gaussian, and small curves *)
From Coq Require Import String Reals List Bool Arith Lra Lia.
From Verif Require Import Lib.PyBase Lib.RSum Lib.Fl Model.StatsUtils Model.Pca Model.WidthMethods Spec.WidthMethods Proofs.WidthMethods_Proofs.
Import ListNotations.
Local Open Scope R_scope.

Lemma gauss_falls A s a b : 0 < A -> s <> 0 -> 0 <= a < b -> gauss A s b < gauss A s a.
Proof.
  intros HA Hs H. unfold gauss. apply Rmult_lt_compat_l; [exact HA|]. apply exp_increasing. apply Ropp_lt_contravar.
  assert (0 < 2 * s ^ 2) by (assert (0 < s ^ 2) by (rewrite <- Rsqr_pow2; apply Rsqr_pos_lt; exact Hs); lra).
  apply Rmult_lt_compat_r; [apply Rinv_0_lt_compat; assumption|]. nra.
Qed.
Lemma gauss_even A s x : gauss A s (- x) = gauss A s x.
Proof. unfold gauss. do 4 f_equal. ring. Qed.
Lemma gauss_0 A s : s <> 0 -> gauss A s 0 = A.
Proof. intro H. unfold gauss. replace (0 ^ 2 / (2 * s ^ 2)) with 0 by (field; exact H). rewrite Ropp_0, exp_0. ring. Qed.
Lemma gauss_width A s : 0 < s -> gauss A s (s * sqrt 2) = A * exp (-1).
Proof.
  intro H. unfold gauss. do 2 f_equal. replace ((s * sqrt 2) ^ 2) with (s ^ 2 * (sqrt 2 * sqrt 2)) by ring. rewrite sqrt_sqrt by lra. field. lra.
Qed.
Lemma lag_high n i : (2 * i > n)%nat -> (i < n)%nat -> lag n i = - INR (n - i).
Proof.
  intros H1 H2. unfold lag, fftfreq. assert (E : Nat.ltb i ((n - 1) / 2 + 1) = false).
  { apply Nat.ltb_ge. assert ((n - 1) / 2 <= i - 1)%nat; [|lia]. apply Nat.div_le_upper_bound; lia. }
  rewrite E. assert (N : INR n <> 0) by (apply not_0_INR; lia). unfold Rdiv. rewrite Rmult_assoc, Rinv_l by exact N. rewrite minus_INR by lia. lra.
Qed.

Lemma gc_nth A s m i : (i < 2 * m)%nat -> nth i (gauss_curve A s (2 * m)) 0 = gauss A s (lag (2 * m) i).
Proof.
  intro H. unfold gauss_curve. set (f := fun i => gauss A s (INR (Nat.min i (2 * m - i)))). rewrite (nth_indep _ 0 (f 0%nat)) by (rewrite map_length, seq_length; lia). rewrite (map_nth f), seq_nth by lia.
  unfold f. cbn [Nat.add]. destruct (Nat.lt_trichotomy i m) as [L|[E|G]].
  - rewrite lag_low by lia. do 2 f_equal. lia.
  - subst i. rewrite lag_middle, gauss_even by lia. do 2 f_equal. lia.
  - rewrite lag_high, gauss_even by lia. do 2 f_equal. lia.
Qed.
Lemma gc_len A s n : length (gauss_curve A s n) = n.
Proof. unfold gauss_curve. rewrite map_length, seq_length. reflexivity. Qed.
Lemma gc_symmetric A s m : symmetric (gauss_curve A s (2 * m)).
Proof.
  intros k Hk. rewrite gc_len in *. rewrite !gc_nth by lia. destruct (Nat.lt_trichotomy k m) as [L|[E|G]].
  - rewrite (lag_low _ k), (lag_high _ (2 * m - k)) by lia. rewrite gauss_even. do 2 f_equal. lia.
  - subst k. replace (2 * m - m)%nat with m by lia. reflexivity.
  - rewrite (lag_high _ k), (lag_low _ (2 * m - k)) by lia. apply gauss_even.
Qed.
Lemma gc_falling A s m : 0 < A -> s <> 0 -> (1 <= m)%nat -> falling (gauss_curve A s (2 * m)) m.
Proof.
  intros HA Hs Hm i Hi. rewrite !gc_nth by lia. rewrite (lag_low _ i) by lia. assert (P : 0 <= INR i) by apply pos_INR. destruct (Nat.eq_dec (S i) m) as [E|N].
  - rewrite E, lag_middle, gauss_even by lia. apply gauss_falls; auto. split; [exact P|]. apply lt_INR. lia.
  - rewrite (lag_low _ (S i)) by lia. apply gauss_falls; auto. rewrite S_INR. lra.
Qed.

Lemma cost_cons A p l s : cost A (p :: l) s = Rsqr (snd p - gauss A s (fst p)) + cost A l s.
Proof. reflexivity. Qed.
Lemma cost_nonneg A pts s : 0 <= cost A pts s.
Proof. induction pts as [|p l IH]; [right; reflexivity|]. rewrite cost_cons. pose proof (Rle_0_sqr (snd p - gauss A s (fst p))). lra. Qed.
Lemma cost_zero A pts s : cost A pts s <= 0 -> forall p, In p pts -> snd p = gauss A s (fst p).
Proof.
  induction pts as [|q l IH]; intros H p Hp; [contradiction|]. rewrite cost_cons in H.
  pose proof (Rle_0_sqr (snd q - gauss A s (fst q))) as P. pose proof (cost_nonneg A l s) as Q.
  destruct Hp as [<-|Hp]; [|apply IH; [lra|exact Hp]]. assert (E : Rsqr (snd q - gauss A s (fst q)) = 0) by lra. apply Rsqr_0_uniq in E. lra.
Qed.
Lemma cost_exact A pts s : (forall p, In p pts -> snd p = gauss A s (fst p)) -> cost A pts s = 0.
Proof. induction pts as [|q l IH]; intro H; [reflexivity|]. rewrite cost_cons, IH by (intros p Hp; apply H; right; exact Hp). rewrite H by (left; reflexivity). unfold Rsqr. ring. Qed.

Lemma same_sigma A s t : 0 < A -> s <> 0 -> 0 < t -> gauss A s 1 = gauss A t 1 -> Rabs s = t.
Proof.
  intros HA Hs Ht E. unfold gauss in E. apply Rmult_eq_reg_l in E; [|lra]. apply exp_inv in E.
  assert (Ss : 0 < s ^ 2) by (rewrite <- Rsqr_pow2; apply Rsqr_pos_lt; exact Hs).
  assert (X : s ^ 2 = t ^ 2).
  { assert (E' : / (2 * s ^ 2) = / (2 * t ^ 2)) by (unfold Rdiv in E; rewrite pow1, !Rmult_1_l in E; lra). apply (f_equal Rinv) in E'. rewrite !Rinv_inv in E'. lra. }
  rewrite <- (Rabs_pos_eq t) by lra.
  rewrite <- !Rsqr_pow2 in X. apply Rsqr_eq_abs_0 in X. exact X.
Qed.

Theorem fitted_gauss : forall fit A s m, best_fits fit -> 0 < A -> 0 < s -> (1 < m)%nat ->
  (forall pts, (forall p, In p pts -> snd p = gauss A s (fst p)) -> fit A pts <> None) ->
  exists e, width_1D fit "fit" (gauss_curve A s (2 * m)) = Ok (Fin (s * sqrt 2), Fin e).
Proof.
  intros fit A s m B HA Hs Hm Ans. assert (Ns : s <> 0) by lra. set (y := gauss_curve A s (2 * m)).
  assert (M : minima y = [m]) by (apply minima_even; [exact Hm|apply gc_len|apply gc_symmetric|apply gc_falling; auto; lia]).
  unfold width_1D. cbn [String.eqb Ascii.eqb Bool.eqb]. unfold width_fit. rewrite M. replace (Nat.ltb 1 m) with true by (symmetry; apply Nat.ltb_lt; exact Hm).
  assert (Y0 : nth 0 y 0 = A) by (unfold y; rewrite gc_nth, lag_low by lia; cbn; apply gauss_0; exact Ns). rewrite Y0.
  set (pts := map (fun i => (Rabs (lag (length y) i), nth i y 0)) (seq 0 m)).
  assert (Ex : forall p, In p pts -> snd p = gauss A s (fst p)).
  { intros p Hp. unfold pts in Hp. apply in_map_iff in Hp. destruct Hp as (i & <- & Hi). apply in_seq in Hi. cbn [fst snd]. unfold y. rewrite gc_len, gc_nth by lia.
    rewrite lag_low by lia. rewrite Rabs_pos_eq by apply pos_INR. reflexivity. }
  destruct (fit A pts) as [[t e]|] eqn:Ft; [|exfalso; exact (Ans pts Ex Ft)].
  destruct (B A pts t e Ft) as [Nt Bt]. specialize (Bt s Ns). rewrite (cost_exact A pts s Ex) in Bt.
  assert (In1 : In (1, gauss A s 1) pts).
  { unfold pts. apply in_map_iff. exists 1%nat. split; [|apply in_seq; lia]. unfold y. rewrite gc_len, gc_nth by lia. rewrite lag_low by lia. cbn. rewrite Rabs_R1. reflexivity. }
  pose proof (cost_zero A pts t Bt _ In1) as Q. cbn in Q. rewrite (same_sigma A t s) by auto. eexists. reflexivity.
Qed.
(** A fitter for which this holds: it recognises Gaussians of width 2 *)
Definition fit2 (A : R) (pts : list (R * R)) : option (R * R) := if forallb (fun p => Reqb (snd p) (gauss A 2 (fst p))) pts then Some (2, 0) else None.
Lemma fit2_best : best_fits fit2 /\ forall A pts, (forall p, In p pts -> snd p = gauss A 2 (fst p)) -> fit2 A pts <> None.
Proof.
  split.
  - intros A pts s e. unfold fit2. destruct (forallb _ pts) eqn:E; [|discriminate]. intro H. injection H as <- <-. split; [lra|]. intros t Ht.
    rewrite (cost_exact A pts 2); [apply cost_nonneg|]. intros p Hp. rewrite forallb_forall in E. specialize (E p Hp). destruct (Reqb_spec (snd p) (gauss A 2 (fst p))) as [Q|Q]; [exact Q|discriminate].
  - intros A pts H. unfold fit2. replace (forallb _ pts) with true; [discriminate|]. symmetry. apply forallb_forall. intros p Hp. destruct (Reqb_spec (snd p) (gauss A 2 (fst p))) as [Q|Q]; [reflexivity|]. exfalso. apply Q. exact (H p Hp).
Qed.

(** Small curves *)
Lemma e_bounds : 1 / 3 <= exp (-1) < 1 / 2.
Proof.
  assert (E : exp (-1) * exp 1 = 1) by (rewrite <- exp_plus; replace (-1 + 1) with 0 by lra; apply exp_0). assert (P : 0 < exp (-1)) by apply exp_pos.
  assert (exp 1 <= 3) by apply exp_le_3. assert (2 < exp 1) by (assert (1 + 1 < exp 1) by (apply exp_ineq1; lra); lra). split; nra.
Qed.
Definition six : list R := [1; 1/4; 1/5; 1/8; 1/5; 1/4].
Definition four : list R := [1; 1/2; 1/10; 1/2].
Definition five : list R := [1; 1/2; 1/4; 1/4; 1/2].
Definition high : list R := [1; 9/10; 8/10; 9/10].
Lemma six_curve : curve six /\ crosses six 0.
Proof.
  pose proof e_bounds. split; [split; [reflexivity|split]|unfold crosses; cbn; lra].
  - intros k Hk. cbn in Hk. do 6 (destruct k as [|k]; [cbn; try lra; lia|]). lia.
  - intros i Hi. cbn in Hi. do 3 (destruct i as [|i]; [cbn; lra|]). lia.
Qed.
Lemma four_curve : curve four /\ nth 2 four 0 < exp (-1) < nth 1 four 0.
Proof.
  pose proof e_bounds. split; [split; [reflexivity|split]|cbn; lra].
  - intros k Hk. cbn in Hk. do 4 (destruct k as [|k]; [cbn; try lra; lia|]). lia.
  - intros i Hi. cbn in Hi. do 2 (destruct i as [|i]; [cbn; lra|]). lia.
Qed.
Lemma five_curve : curve five /\ crosses five 1.
Proof.
  pose proof e_bounds. split; [split; [reflexivity|split]|unfold crosses; cbn; lra].
  - intros k Hk. cbn in Hk. do 5 (destruct k as [|k]; [cbn; try lra; lia|]). lia.
  - intros i Hi. cbn in Hi. do 2 (destruct i as [|i]; [cbn; lra|]). lia.
Qed.
Lemma high_curve : curve high /\ exp (-1) < nth 2 high 0.
Proof.
  pose proof e_bounds. split; [split; [reflexivity|split]|cbn; lra].
  - intros k Hk. cbn in Hk. do 4 (destruct k as [|k]; [cbn; try lra; lia|]). lia.
  - intros i Hi. cbn in Hi. do 2 (destruct i as [|i]; [cbn; lra|]). lia.
Qed.
