(** The bispectrum of an image turned by half (C312). *)
From Coq Require Import Reals List ZArith Arith Bool Lia Lra.
From Coquelicot Require Import Complex.
From Verif Require Import Lib.PyBase Lib.Arr Lib.DFT Lib.Fl Lib.RSum Model.Bispec Spec.Waves Proofs.Bispec_Proofs Proofs.Bispec2_Proofs.
Import ListNotations.
Local Open Scope R_scope.

Lemma csum_back n f : csum n (fun i => f (n - 1 - i)%nat) = csum n f.
Proof. apply Ceq; rewrite ?csum_fst, ?csum_snd; [apply (rsum_rev n (fun i => fst (f i)))|apply (rsum_rev n (fun i => snd (f i)))]. Qed.
Lemma cis_turns z : cis (2 * PI * IZR z) = RtoC 1.
Proof.
  destruct z as [|p|p]; [rewrite Rmult_0_r; apply cis_0| |].
  - rewrite <- (cis_2PI (Pos.to_nat p)). now rewrite INR_IZR_INZ, positive_nat_Z.
  - change (Z.neg p) with (- Z.pos p)%Z. rewrite opp_IZR, Ropp_mult_distr_r_reverse, cis_opp.
    replace (IZR (Z.pos p)) with (INR (Pos.to_nat p)) by (now rewrite INR_IZR_INZ, positive_nat_Z). rewrite cis_2PI. apply Cconj_RtoC.
Qed.
Lemma mode_half ny nx d k : (0 < ny)%nat -> (0 < nx)%nat -> mode ny nx (half_turned ny nx d) k = Cmult (phase ny nx 1 1 k) (Cconj (mode ny nx d k)).
Proof.
  intros Y X. unfold mode at 2. rewrite csum_conj, <- csum_scal. unfold mode.
  rewrite <- (csum_back ny (fun i => Cmult (phase ny nx 1 1 k) _)). apply csum_ext. intros i Hi. rewrite csum_conj, <- csum_scal.
  rewrite <- (csum_back nx (fun j => Cmult (phase ny nx 1 1 k) _)). apply csum_ext. intros j Hj.
  unfold half_turned. rewrite Cconj_mult, Cconj_RtoC. rewrite <- cis_opp, Ropp_involutive. unfold phase. rewrite (Cmult_comm (RtoC _) (cis _)) at 1. rewrite (Cmult_comm (RtoC _) (cis _)), Cmult_assoc, <- cis_plus. apply (f_equal2 Cmult); [|reflexivity].
  rewrite !minus_INR by lia. cbn [INR].
  assert (INR ny <> 0) by (apply not_0_INR; lia). assert (INR nx <> 0) by (apply not_0_INR; lia).
  replace (2 * PI * (IZR (fst k) * 1 / INR ny + IZR (snd k) * 1 / INR nx) + 2 * PI * (IZR (fst k) * (INR ny - 1 - INR i) / INR ny + IZR (snd k) * (INR nx - 1 - INR j) / INR nx))
    with (- (2 * PI * (IZR (fst k) * INR i / INR ny + IZR (snd k) * INR j / INR nx)) + 2 * PI * IZR (fst k + snd k)) by (rewrite plus_IZR; field; auto).
  rewrite cis_plus, cis_turns, Cmult_1_r. reflexivity.
Qed.
Lemma first_half {A} ny nx (d : nat -> nat -> A) i j : (i < ny)%nat -> (j < nx)%nat -> about_first ny nx d i j = rolled ny nx (ny - 1) (nx - 1) (half_turned ny nx d) i j.
Proof.
  intros I J. unfold about_first, rolled, half_turned.
  assert (K : forall n a, (a < n)%nat -> ((n - a) mod n = n - 1 - (a + (n - 1)) mod n)%nat).
  { intros n a H. rewrite neg_mod_val by exact H. destruct (Nat.eqb_spec a 0) as [->|N].
    - rewrite Nat.mod_small by lia. lia.
    - replace (a + (n - 1))%nat with ((a - 1) + 1 * n)%nat by lia. rewrite Nat.mod_add, Nat.mod_small by lia. lia. }
  rewrite (K ny i I), (K nx j J). reflexivity.
Qed.
Lemma mode_first ny nx d k : (0 < ny)%nat -> (0 < nx)%nat -> mode ny nx (about_first ny nx d) k = Cconj (mode ny nx d k).
Proof.
  intros Y X. rewrite (mode_ext ny nx _ (rolled ny nx (ny - 1) (nx - 1) (half_turned ny nx d)) k) by (intros; now apply first_half).
  rewrite mode_roll, mode_half, Cmult_assoc by assumption. unfold phase. rewrite <- cis_plus.
  assert (INR ny <> 0) by (apply not_0_INR; lia). assert (INR nx <> 0) by (apply not_0_INR; lia).
  match goal with |- Cmult (cis ?t) _ = _ => replace t with (2 * PI * IZR (fst k + snd k)) end.
  - rewrite cis_turns. apply Cmult_1_l.
  - rewrite !minus_INR, plus_IZR by lia. cbn [INR]. field. auto.
Qed.
Lemma total_half ny nx (g : nat -> nat -> R) : rsum ny (fun i => rsum nx (fun j => half_turned ny nx g i j)) = rsum ny (fun i => rsum nx (fun j => g i j)).
Proof.
  unfold half_turned. rewrite (rsum_rev ny (fun i => rsum nx (fun j => g i (nx - 1 - j)%nat))). apply rsum_ext. intros i _. apply (rsum_rev nx (fun j => g i j)).
Qed.
Lemma total_first ny nx (g : nat -> nat -> R) : rsum ny (fun i => rsum nx (fun j => about_first ny nx g i j)) = rsum ny (fun i => rsum nx (fun j => g i j)).
Proof.
  unfold about_first. rewrite (rsum_neg ny (fun i => rsum nx (fun j => g i ((nx - j) mod nx)%nat))). apply rsum_ext. intros i _. apply (rsum_neg nx (fun j => g i j)).
Qed.
Lemma used_half ny nx img ms i j : used_data ny nx (half_turned ny nx img) ms i j = half_turned ny nx (used_data ny nx img ms) i j.
Proof. destruct ms; [|reflexivity]. unfold used_data. change (pix_data (half_turned ny nx img)) with (half_turned ny nx (pix_data img)). rewrite total_half. reflexivity. Qed.
Lemma used_first ny nx img ms i j : used_data ny nx (about_first ny nx img) ms i j = about_first ny nx (used_data ny nx img ms) i j.
Proof. destruct ms; [|reflexivity]. unfold used_data. change (pix_data (about_first ny nx img)) with (about_first ny nx (pix_data img)). rewrite total_first. reflexivity. Qed.
Lemma Cconj_Cconj c : Cconj (Cconj c) = c.
Proof. destruct c. unfold Cconj. cbn. now rewrite Ropp_involutive. Qed.
Lemma csum_list_conj l : csum_list (map Cconj l) = Cconj (csum_list l).
Proof. induction l as [|c l IH]; [symmetry; apply Cconj_RtoC|]. cbn [map csum_list fold_right]. fold (csum_list (map Cconj l)). rewrite IH. unfold csum_list. destruct c, (fold_right Cplus 0 l). unfold Cconj, Cplus. cbn. f_equal. ring. Qed.

Lemma conj_surfaces ny nx img img' ms angles r r' k1 k2 : fits ny nx -> (forall k1 k2, (k1 < ny / 2)%nat -> (k2 < nx / 2)%nat -> angles k1 k2 <> []) ->
  (k1 < ny / 2)%nat -> (k2 < nx / 2)%nat -> samples ny nx img' ms angles k1 k2 = map Cconj (samples ny nx img ms angles k1 k2) ->
  compute_bispectrum ny nx img ms angles = Ok r -> compute_bispectrum ny nx img' ms angles = Ok r' ->
  s_bispectrum r' k1 k2 = Cconj (s_bispectrum r k1 k2) /\ s_bicoherence r' k1 k2 = s_bicoherence r k1 k2 /\ s_logamp r' k1 k2 = s_logamp r k1 k2.
Proof.
  intros F N K1 K2 S E E'.
  destruct (compute_value ny nx img ms angles) as [q [Q [_ V]]]; [intros; now apply fits_inside | assumption |].
  destruct (compute_value ny nx img' ms angles) as [q' [Q' [_ V']]]; [intros; now apply fits_inside | assumption |].
  assert (q = r) by (rewrite E in Q; now inversion Q). assert (q' = r') by (rewrite E' in Q'; now inversion Q'). subst q q'.
  destruct (V k1 k2 K1 K2) as [-> [-> ->]]. destruct (V' k1 k2 K1 K2) as [-> [-> ->]].
  rewrite S, csum_list_conj, Cmod_conj, map_map. rewrite (map_ext (fun c => Cmod (Cconj c)) Cmod Cmod_conj). auto.
Qed.
Lemma positive_sides ny nx k1 k2 : (k1 < ny / 2)%nat -> (k2 < nx / 2)%nat -> (0 < ny)%nat /\ (0 < nx)%nat.
Proof. intros K1 K2. destruct ny; [cbn in K1; lia|]. destruct nx; [cbn in K2; lia|]. lia. Qed.
Lemma turned_first ny nx img ms angles r r' k1 k2 : fits ny nx -> (forall k1 k2, (k1 < ny / 2)%nat -> (k2 < nx / 2)%nat -> angles k1 k2 <> []) ->
  (k1 < ny / 2)%nat -> (k2 < nx / 2)%nat ->
  compute_bispectrum ny nx img ms angles = Ok r -> compute_bispectrum ny nx (about_first ny nx img) ms angles = Ok r' ->
  s_bispectrum r' k1 k2 = Cconj (s_bispectrum r k1 k2) /\ s_bicoherence r' k1 k2 = s_bicoherence r k1 k2 /\ s_logamp r' k1 k2 = s_logamp r k1 k2.
Proof.
  intros F N K1 K2. destruct (positive_sides _ _ _ _ K1 K2) as [Y X]. apply conj_surfaces; try assumption. unfold samples. rewrite map_map. apply map_ext. intros phi. unfold triple.
  rewrite !(mode_ext ny nx (used_data ny nx (about_first ny nx img) ms) (about_first ny nx (used_data ny nx img ms))) by (intros; apply used_first).
  rewrite !mode_first by assumption. now rewrite !Cconj_mult.
Qed.
Lemma turned_closed ny nx img ms angles r r' k1 k2 : fits ny nx -> (forall k1 k2, (k1 < ny / 2)%nat -> (k2 < nx / 2)%nat -> angles k1 k2 <> []) ->
  (k1 < ny / 2)%nat -> (k2 < nx / 2)%nat ->
  (forall phi w1 w2 w3, In phi (angles k1 k2) -> draws k1 k2 phi w1 w2 w3 -> w3 = wave_sum w1 w2) ->
  compute_bispectrum ny nx img ms angles = Ok r -> compute_bispectrum ny nx (half_turned ny nx img) ms angles = Ok r' ->
  s_bispectrum r' k1 k2 = Cconj (s_bispectrum r k1 k2) /\ s_bicoherence r' k1 k2 = s_bicoherence r k1 k2 /\ s_logamp r' k1 k2 = s_logamp r k1 k2.
Proof.
  intros F N K1 K2 T. destruct (positive_sides _ _ _ _ K1 K2) as [Y X]. apply conj_surfaces; try assumption. unfold samples. rewrite map_map. apply map_ext_in. intros phi I.
  rewrite (T phi _ _ _ I (draws_waves k1 k2 phi)). unfold triple.
  rewrite !(mode_ext ny nx (used_data ny nx (half_turned ny nx img) ms) (half_turned ny nx (used_data ny nx img ms))) by (intros; apply used_half).
  rewrite !mode_half by assumption. rewrite <- phase_sum. set (a := phase ny nx 1 1 _). set (b := phase ny nx 1 1 _). rewrite !Cconj_mult, !Cconj_Cconj.
  assert (A : Cmult a (Cconj a) = RtoC 1) by apply cis_conj_r. assert (B : Cmult b (Cconj b) = RtoC 1) by apply cis_conj_r.
  set (u := Cconj _). set (v := Cconj (mode _ _ _ (wave2 _ _ _))). set (w := mode _ _ _ (wave_sum _ _)).
  transitivity (Cmult (Cmult (Cmult a (Cconj a)) (Cmult b (Cconj b))) (Cmult (Cmult u v) w)).
  - generalize (Cconj a) (Cconj b). intros a' b'. apply Ceq; cbn; ring.
  - rewrite A, B. now rewrite !Cmult_1_l.
Qed.

(** ** Other cells: a point source *)
Lemma turned_breaks n : (4 <= n)%nat -> exists angles r r', (forall k1 k2, angles k1 k2 <> []) /\
  compute_bispectrum n n point false angles = Ok r /\ compute_bispectrum n n (half_turned n n point) false angles = Ok r' /\
  s_bicoherence r 1 1 = Fin 1 /\ exists v, s_bicoherence r' 1 1 = Fin v /\ v < 1.
Proof.
  intros N. exists (fun _ _ => skewed).
  destruct (compute_value n n point false (fun _ _ => skewed)) as [r [E [_ V]]]; [intros; now apply fits_inside; [apply fits_square | |] | discriminate |].
  destruct (compute_value n n (half_turned n n point) false (fun _ _ => skewed)) as [r' [E' [_ V']]]; [intros; now apply fits_inside; [apply fits_square | |] | discriminate |].
  exists r, r'. split; [discriminate |]. split; [exact E |]. split; [exact E' |].
  assert (H2 : (1 < n / 2)%nat) by (apply Nat.div_le_lower_bound; lia).
  destruct (V 1%nat 1%nat H2 H2) as [_ [-> _]]. destruct (V' 1%nat 1%nat H2 H2) as [_ [-> _]].
  destruct skewed_waves as [W1 [W2 [W3 [W4 [W5 W6]]]]].
  assert (P : (0 < INR n)) by (apply lt_0_INR; lia).
  assert (S : samples n n point false (fun _ _ => skewed) 1 1 = [RtoC 1; RtoC 1]).
  { unfold samples, skewed. cbn [map]. rewrite W1, W2, W3, W4, W5, W6. unfold triple. change (used_data n n point false) with (fun i j => fill (point i j)).
    rewrite !mode_point by lia. rewrite Cconj_RtoC, !Cmult_1_l. reflexivity. }
  set (t := 4 * PI / INR n).
  assert (S' : samples n n (half_turned n n point) false (fun _ _ => skewed) 1 1 = [cis (- t); RtoC 1]).
  { unfold samples. cbn [map skewed]. rewrite W1, W2, W3, W4, W5, W6.
    assert (M : forall k, mode n n (used_data n n (half_turned n n point) false) k = phase n n 1 1 k).
    { intro k. rewrite <- (Cmult_1_r (phase n n 1 1 k)). rewrite <- (Cconj_RtoC 1), <- (mode_point n k) by lia. rewrite <- mode_half by lia. reflexivity. }
    unfold triple. rewrite !M. rewrite <- (phase_sum n n 1 1 (1, 0)%Z (1, 0)%Z : _ = phase n n 1 1 (2, 0)%Z).
    assert (P0 : phase n n 1 1 (0, 0)%Z = RtoC 1) by (unfold phase; cbn [fst snd INR]; rewrite <- cis_0; f_equal; unfold Rdiv; ring).
    assert (P1 : phase n n 1 1 (1, 1)%Z = cis t) by (unfold phase, t; cbn [fst snd INR]; f_equal; field; lra).
    rewrite P0, P1, cis_opp, !Cmult_1_l. apply f_equal. apply (f_equal2 cons); [|reflexivity]. set (p := phase n n 1 1 (1, 0)%Z). rewrite Cconj_mult. assert (B : Cmult p (Cconj p) = RtoC 1) by apply cis_conj_r. transitivity (Cmult (Cmult p (Cconj p)) (Cmult p (Cconj p))); [generalize (Cconj p); intros p'; apply Ceq; cbn; ring|]. rewrite B. apply Cmult_1_l. }
  rewrite S, S'. cbn [map csum_list fold_right]. unfold lsum. cbn [fold_right].
  assert (MC : Cmod (cis (- t)) = 1) by (unfold Cmod, cis; cbn [fst snd]; rewrite <- sqrt_1; f_equal; pose proof (sin2_cos2 (- t)) as SC; unfold Rsqr in SC; simpl; lra).
  rewrite MC, Cmod_R, Rabs_R1.
  assert (A1 : Cmod (Cplus (RtoC 1) (Cplus (RtoC 1) (RtoC 0))) = 2).
  { rewrite Cplus_0_r. rewrite <- RtoC_plus. rewrite Cmod_R. rewrite Rabs_right; lra. }
  assert (A2 : Cmod (Cplus (cis (- t)) (Cplus (RtoC 1) (RtoC 0))) = sqrt (2 + 2 * cos t)).
  { unfold Cmod, cis, Cplus, RtoC. cbn [fst snd]. f_equal. rewrite cos_neg, sin_neg. pose proof (sin2_cos2 t) as SC. unfold Rsqr in SC. simpl. nra. }
  rewrite A1, A2. cbn [fdiv]. destruct (Reqb_spec (1 + (1 + 0)) 0); [lra |]. split; [apply f_equal; field |]. eexists. split; [reflexivity |].
  assert (T : 0 < t <= PI).
  { pose proof PI_RGT_0. assert (4 <= INR n) by (change 4 with (INR 4) at 1 || (replace 4 with (INR 4) by (cbn; lra)); apply le_INR; lia). unfold t. split; [apply Rdiv_lt_0_compat; lra|].
    apply Rmult_le_reg_r with (INR n); [lra|]. unfold Rdiv. rewrite Rmult_assoc, Rinv_l, Rmult_1_r by lra. nra. }
  assert (CT : cos t < 1) by (rewrite <- cos_0; apply cos_decreasing_1; lra).
  assert (sqrt (2 + 2 * cos t) < 2).
  { replace 2 with (sqrt 4) at 3 by (replace 4 with (2 * 2) by lra; apply sqrt_square; lra). apply sqrt_lt_1_alt. pose proof (COS_bound t). lra. }
  lra.
Qed.
