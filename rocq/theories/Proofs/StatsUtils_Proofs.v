From Coq Require Import String Reals List ZArith Lia Lra Arith Bool Permutation.
From Coquelicot Require Import Complex.
From Verif Require Import Lib.PyBase Lib.PySlice Lib.Arr Lib.DFT Lib.Fl Lib.RSum
  Spec.Blank Model.StatsUtils Proofs.Fl_Proofs.
Import ListNotations.
Local Open Scope R_scope.

(** ** np.roll *)

Lemma roll_nil {A} s : roll (@nil A) s = [].
Proof. unfold roll. now rewrite skipn_nil, firstn_nil. Qed.

Lemma roll_perm {A} (x : list A) s : Permutation (roll x s) x.
Proof.
  unfold roll. eapply Permutation_trans; [apply Permutation_app_comm|]. now rewrite firstn_skipn.
Qed.

Lemma roll_length {A} (x : list A) s : length (roll x s) = length x.
Proof. apply Permutation_length, roll_perm. Qed.

Lemma roll_nth {A} (x : list A) s i d : (i < length x)%nat ->
  nth i (roll x s) d = nth (Z.to_nat ((Z.of_nat i - s) mod Z.of_nat (length x))) x d.
Proof.
  intros Hi. unfold roll. set (n := length x) in *.
  set (k := Z.to_nat (s mod Z.of_nat n)).
  assert (Hk : (k < n)%nat).
  { unfold k. pose proof (Z.mod_pos_bound s (Z.of_nat n)). lia. }
  assert (Hsk : length (skipn (n - k) x) = k) by (rewrite skipn_length; fold n; lia).
  assert (Hmod : ((Z.of_nat i - s) mod Z.of_nat n = (Z.of_nat i - Z.of_nat k) mod Z.of_nat n)%Z).
  { unfold k. rewrite Z2Nat.id by (apply Z.mod_pos_bound; lia).
    now rewrite Zminus_mod_idemp_r. }
  rewrite Hmod.
  destruct (Nat.lt_ge_cases i k) as [L|L].
  - rewrite app_nth1 by (rewrite Hsk; auto).
    replace (Z.to_nat ((Z.of_nat i - Z.of_nat k) mod Z.of_nat n)) with (n - k + i)%nat.
    + rewrite <- (firstn_skipn (n - k) x) at 2.
      rewrite app_nth2 by (rewrite firstn_length; fold n; lia).
      f_equal. rewrite firstn_length; fold n; lia.
    + replace ((Z.of_nat i - Z.of_nat k) mod Z.of_nat n)%Z with (Z.of_nat i - Z.of_nat k + Z.of_nat n)%Z; [lia|].
      apply Z.mod_unique with (-1)%Z; lia.
  - rewrite app_nth2 by (rewrite Hsk; auto). rewrite Hsk.
    rewrite Z.mod_small by lia.
    rewrite <- (firstn_skipn (n - k) x) at 2.
    rewrite app_nth1 by (rewrite firstn_length; fold n; lia).
    f_equal. lia.
Qed.

Lemma roll_moves {A} (x : list A) s i : (i < length x)%nat ->
  nth_error (roll x s) (Z.to_nat ((Z.of_nat i + s) mod Z.of_nat (length x))) = nth_error x i.
Proof.
  intros Hi. destruct x as [|a x']; [cbn in Hi; lia|]. set (x := a :: x') in *.
  assert (Hn : (0 < Z.of_nat (length x))%Z) by lia.
  pose proof (Z.mod_pos_bound (Z.of_nat i + s) (Z.of_nat (length x)) Hn) as B.
  rewrite nth_error_nth' with (d := a) by (rewrite roll_length; lia).
  rewrite nth_error_nth' with (d := a) by lia.
  f_equal. rewrite roll_nth by lia. f_equal.
  rewrite Z2Nat.id by lia. rewrite Zminus_mod_idemp_l.
  replace (Z.of_nat i + s - s)%Z with (Z.of_nat i) by ring.
  rewrite Z.mod_small by lia. lia.
Qed.

Lemma roll_roll {A} (x : list A) s t : roll (roll x s) t = roll x (s + t).
Proof.
  destruct x as [|a x']; [now rewrite !roll_nil|]. set (x := a :: x').
  assert (Hn : (0 < Z.of_nat (length x))%Z) by (cbn; lia).
  apply nth_ext with (d := a) (d' := a); [now rewrite !roll_length|].
  intros i Hi. rewrite !roll_length in Hi.
  rewrite roll_nth by (rewrite roll_length; auto). rewrite roll_length.
  pose proof (Z.mod_pos_bound (Z.of_nat i - t) (Z.of_nat (length x)) Hn).
  rewrite roll_nth by lia. rewrite roll_nth by auto. f_equal.
  rewrite Z2Nat.id by lia. rewrite Zminus_mod_idemp_l. f_equal. f_equal. ring.
Qed.

Lemma roll_0 {A} (x : list A) : roll x 0 = x.
Proof.
  unfold roll. rewrite Zmod_0_l. cbn [Z.to_nat]. rewrite Nat.sub_0_r, skipn_all, firstn_all. reflexivity.
Qed.

Lemma Rtrunc_spec r : Rabs (IZR (Rtrunc r)) <= Rabs r < Rabs (IZR (Rtrunc r)) + 1 /\ 0 <= IZR (Rtrunc r) * r.
Proof.
  unfold Rtrunc. destruct (Rltb_spec r 0) as [L|L].
  - destruct (base_Int_part (- r)) as [B1 B2].
    assert (B3 : (0 <= Int_part (- r))%Z).
    { apply le_IZR. apply Rnot_lt_le. intros C. assert (Int_part (- r) < 0)%Z by (apply lt_IZR; auto).
      assert (IZR (Int_part (-r)) <= -1) by (apply (IZR_le _ (-1)); lia). lra. }
    apply IZR_le in B3. rewrite opp_IZR, Rabs_Ropp, (Rabs_left r), (Rabs_pos_eq (IZR _)) by lra.
    split; [lra|nra].
  - destruct (base_Int_part r) as [B1 B2].
    assert (B3 : (0 <= Int_part r)%Z).
    { apply le_IZR. apply Rnot_lt_le. intros C. assert (Int_part r < 0)%Z by (apply lt_IZR; auto).
      assert (IZR (Int_part r) <= -1) by (apply (IZR_le _ (-1)); lia). lra. }
    apply IZR_le in B3. rewrite (Rabs_pos_eq r), (Rabs_pos_eq (IZR _)) by lra.
    split; [lra|nra].
Qed.

(** ** Fourier shift *)

Lemma cis_period_Z t (k : Z) : cis (t + 2 * PI * IZR k) = cis t.
Proof.
  destruct (Z.le_gt_cases 0 k) as [L|L].
  - rewrite cis_plus. rewrite <- (Z2Nat.id k) by auto. rewrite <- INR_IZR_INZ, cis_2PI. ring.
  - rewrite cis_plus. replace (2 * PI * IZR k) with (- (2 * PI * INR (Z.to_nat (- k)))).
    + rewrite cis_opp, cis_2PI, Cconj_RtoC. ring.
    + rewrite INR_IZR_INZ, Z2Nat.id by lia. rewrite opp_IZR. ring.
Qed.

Lemma phase_tw n k s : (k < n)%nat ->
  cis (- (2 * PI * fftfreq n k * IZR s)) = tw n (Z.to_nat (s mod Z.of_nat n)) k.
Proof.
  intros Hk. assert (Hn : INR n <> 0) by (apply not_0_INR; lia).
  set (m := Z.to_nat (s mod Z.of_nat n)).
  assert (Em : exists q, s = (Z.of_nat m + q * Z.of_nat n)%Z).
  { exists (s / Z.of_nat n)%Z. unfold m. rewrite Z2Nat.id by (apply Z.mod_pos_bound; lia).
    pose proof (Z.div_mod s (Z.of_nat n)). lia. }
  destruct Em as [q Es].
  unfold tw. rewrite Es at 1. rewrite plus_IZR, mult_IZR, <- !INR_IZR_INZ, mult_INR.
  unfold fftfreq. destruct (Nat.ltb k ((n - 1) / 2 + 1)).
  - rewrite <- (cis_period_Z (- (2 * PI * (INR m * INR k) / INR n)) (- (q * Z.of_nat k))).
    f_equal. rewrite opp_IZR, mult_IZR, <- INR_IZR_INZ. field. auto.
  - rewrite <- (cis_period_Z (- (2 * PI * (INR m * INR k) / INR n)) (- (q * Z.of_nat k) + Z.of_nat m + q * Z.of_nat n)).
    f_equal. rewrite !plus_IZR, opp_IZR, !mult_IZR, <- !INR_IZR_INZ. field. auto.
Qed.

Lemma shifter_int n x s j : (j < n)%nat ->
  shifter n x (IZR s) j = x (Z.to_nat ((Z.of_nat j - s) mod Z.of_nat n)).
Proof.
  intros Hj. unfold shifter.
  set (m := Z.to_nat (s mod Z.of_nat n)).
  set (l := Z.to_nat ((Z.of_nat j - s) mod Z.of_nat n)).
  assert (Hm : (m < n)%nat) by (unfold m; pose proof (Z.mod_pos_bound s (Z.of_nat n)); lia).
  assert (Hl : (l < n)%nat) by (unfold l; pose proof (Z.mod_pos_bound (Z.of_nat j - s) (Z.of_nat n)); lia).
  assert (Hj' : ((m + l) mod n = j)%nat).
  { apply Nat2Z.inj. rewrite Nat2Z.inj_mod, Nat2Z.inj_add. unfold m, l.
    rewrite !Z2Nat.id by (apply Z.mod_pos_bound; lia).
    rewrite <- Zplus_mod. replace (s + (Z.of_nat j - s))%Z with (Z.of_nat j) by ring.
    apply Z.mod_small. lia. }
  assert (E : idft1 n (fun k => Cmult (dft1 n (fun j0 => RtoC (x j0)) k)
                 (cis (- (2 * PI * fftfreq n k * IZR s)))) j
            = idft1 n (dft1 n (fun j0 => RtoC (x j0))) l).
  { unfold idft1. f_equal. apply csum_ext. intros k Hk. rewrite phase_tw by auto. fold m.
    rewrite <- Cmult_assoc. f_equal.
    rewrite <- Hj', tw_mod_l, tw_add_l, Cconj_mult by lia.
    rewrite Cmult_assoc, tw_conj_r. ring. }
  rewrite E, idft1_dft1 by auto. reflexivity.
Qed.

(** A blank-aware view: infinities become blanks. *)
Definition blanked (x : fl) : fl := match x with Fin r => Fin r | _ => NaN end.

Lemma fourier_shift_int x s :
  fourier_shift x (IZR s) = map blanked (pixel_shift x (ShiftInt s)).
Proof.
  unfold fourier_shift, pixel_shift. cbv zeta. set (n := length x).
  apply nth_ext with (d := NaN) (d' := blanked NaN).
  - now rewrite tab1_length, map_length, roll_length.
  - rewrite tab1_length. intros j Hj. rewrite tab1_nth by auto. rewrite map_nth.
    rewrite roll_nth by auto. fold n. rewrite !shifter_int by auto.
    set (l := Z.to_nat ((Z.of_nat j - s) mod Z.of_nat n)).
    destruct (nth l x NaN) as [r| | |]; cbn [is_fin blanked].
    + destruct (Rltb_spec (1 / 2) 0); [lra|reflexivity].
    + destruct (Rltb_spec (1 / 2) 1); [reflexivity|lra].
    + destruct (Rltb_spec (1 / 2) 1); [reflexivity|lra].
    + destruct (Rltb_spec (1 / 2) 1); [reflexivity|lra].
Qed.

(** ** Hellinger distance *)

(** Difference of square roots at bin i (0 when blank in either). *)
Definition hterm (p q : list fl) (i : nat) : R :=
  match nth i p NaN, nth i q NaN with
  | Fin a, Fin b => sqrt a - sqrt b
  | _, _ => 0
  end.

Lemma hterms p q : Forall hist_value p -> Forall hist_value q -> length p = length q ->
  let l := map2 (fun a b => fsqr (fsub (fsqrt a) (fsqrt b))) p q in
  Forall blankable l /\ lsum (fins l) = rsum (length p) (fun i => (hterm p q i)²).
Proof.
  intros Hp. revert q. induction Hp as [|a p Ha Hp IH]; intros [|b q] Hq Hl; cbn in Hl; try discriminate.
  - split; [constructor|reflexivity].
  - inversion Hq as [|? ? Hb Hq']; subst.
    destruct (IH q Hq' (eq_add_S _ _ Hl)) as [IH1 IH2]. cbn [map2].
    cbn [length]. rewrite rsum_S_l.
    change (fun i => (hterm (a :: p) (b :: q) (S i))²) with (fun i => (hterm p q i)²).
    rewrite <- IH2. unfold hterm at 1. cbn [nth].
    destruct a as [a| | |], b as [b| | |]; cbn in Ha, Hb; try contradiction.
    + rewrite !fsqrt_fin by auto. rewrite fsub_fin, fsqr_fin.
      split; [constructor; [exact I|exact IH1]|]. rewrite fins_cons_Fin, lsum_cons. reflexivity.
    + replace (fsqr (fsub (fsqrt (Fin a)) (fsqrt NaN))) with NaN.
      * split; [constructor; [exact I|exact IH1]|]. rewrite fins_cons_NaN. unfold Rsqr; lra.
      * rewrite fsqrt_fin by auto. reflexivity.
    + split; [constructor; [exact I|exact IH1]|]. rewrite fins_cons_NaN. unfold Rsqr; lra.
    + split; [constructor; [exact I|exact IH1]|]. rewrite fins_cons_NaN. unfold Rsqr; lra.
Qed.

Lemma sqrt2_pos : 0 < sqrt 2.
Proof. apply sqrt_lt_R0; lra. Qed.

Lemma hellinger_val p q w : Forall hist_value p -> Forall hist_value q -> length p = length q ->
  hellinger p q w = Fin (w / sqrt 2 * sqrt (rsum (length p) (fun i => (hterm p q i)²))).
Proof.
  intros Hp Hq Hl. unfold hellinger. destruct (hterms p q Hp Hq Hl) as [H1 H2].
  rewrite nansum_fins by exact H1. rewrite H2. rewrite fsqrt_fin; [reflexivity|].
  apply rsum_nonneg; intros; apply Rle_0_sqr.
Qed.

Lemma hterm_sym p q i : (hterm p q i)² = (hterm q p i)².
Proof.
  unfold hterm. destruct (nth i p NaN), (nth i q NaN); try reflexivity. unfold Rsqr; ring.
Qed.

Lemma hellinger_sym p q w : Forall hist_value p -> Forall hist_value q -> length p = length q ->
  hellinger p q w = hellinger q p w.
Proof.
  intros Hp Hq Hl. rewrite !hellinger_val by auto. rewrite Hl. do 3 f_equal.
  apply rsum_ext. intros; apply hterm_sym.
Qed.

Lemma valid_pairs_in p q a b : length p = length q ->
  In (a, b) (valid_pairs p q) <-> exists i, (i < length p)%nat /\ nth i p NaN = Fin a /\ nth i q NaN = Fin b.
Proof.
  revert q. induction p as [|u p IH]; intros [|v q] Hl; cbn in Hl; try discriminate.
  - split; [intros []|]. intros [i [Hi _]]. cbn in Hi; lia.
  - unfold valid_pairs in *. cbn [combine flat_map]. rewrite in_app_iff, IH by lia. split.
    + intros [H|[i [Hi [E1 E2]]]].
      * exists 0%nat. cbn [nth length]. split; [lia|].
        destruct u, v; cbn in H; try contradiction. destruct H as [H|[]]. injection H as -> ->. auto.
      * exists (S i). cbn [nth length]. repeat split; auto; lia.
    + intros [[|i] [Hi [E1 E2]]]; cbn [nth] in *.
      * left. subst. now left.
      * right. exists i. cbn in Hi. repeat split; auto; lia.
Qed.

Lemma hellinger_zero p q w : 0 < w -> Forall hist_value p -> Forall hist_value q -> length p = length q ->
  exists d, hellinger p q w = Fin d /\ 0 <= d /\ (d = 0 <-> forall a b, In (a, b) (valid_pairs p q) -> a = b).
Proof.
  intros Hw Hp Hq Hl. rewrite hellinger_val by auto. eexists; split; [reflexivity|].
  set (s := rsum _ _).
  assert (Hs : 0 <= s) by (apply rsum_nonneg; intros; apply Rle_0_sqr).
  assert (Hc : 0 < w / sqrt 2) by (apply Rdiv_lt_0_compat; auto using sqrt2_pos).
  split; [apply Rmult_le_pos; [lra|apply sqrt_pos]|]. split.
  - intros E a b Hin. apply valid_pairs_in in Hin; auto. destruct Hin as [i [Hi [E1 E2]]].
    assert (Hsq : sqrt s = 0) by (apply Rmult_integral in E; destruct E; [lra|auto]).
    apply sqrt_eq_0 in Hsq; auto.
    assert (Hz : (hterm p q i)² = 0).
    { apply (rsum_nonneg_eq0 (length p) (fun i => (hterm p q i)²)); auto.
      intros; apply Rle_0_sqr. }
    apply Rsqr_0_uniq in Hz. unfold hterm in Hz. rewrite E1, E2 in Hz.
    assert (Ha : 0 <= a). { rewrite Forall_forall in Hp. specialize (Hp (nth i p NaN)). rewrite E1 in Hp. apply Hp. rewrite <- E1. apply nth_In; auto. }
    assert (Hb : 0 <= b). { rewrite Forall_forall in Hq. specialize (Hq (nth i q NaN)). rewrite E2 in Hq. apply Hq. rewrite <- E2. apply nth_In; lia. }
    apply sqrt_inj; auto. lra.
  - intros H. assert (s = 0).
    { apply rsum_zero. intros i Hi. unfold hterm.
      destruct (nth i p NaN) as [a| | |] eqn:E1, (nth i q NaN) as [b| | |] eqn:E2;
        try (unfold Rsqr; ring).
      rewrite (H a b); [unfold Rsqr; ring|]. apply valid_pairs_in; eauto. }
    rewrite H0, sqrt_0. ring.
Qed.

Lemma hellinger_triangle p q r w : 0 <= w ->
  Forall hist_value p -> Forall hist_value q -> Forall hist_value r ->
  length p = length q -> length q = length r ->
  (forall i, nth i q NaN = NaN -> nth i p NaN = NaN \/ nth i r NaN = NaN) ->
  exists dpr dpq dqr, hellinger p r w = Fin dpr /\ hellinger p q w = Fin dpq /\
    hellinger q r w = Fin dqr /\ dpr <= dpq + dqr.
Proof.
  intros Hw Hp Hq Hr Hl1 Hl2 Hb. rewrite !hellinger_val by (auto; congruence).
  do 3 eexists. split; [reflexivity|]. split; [reflexivity|]. split; [reflexivity|].
  rewrite <- Rmult_plus_distr_l.
  apply Rmult_le_compat_l.
  { unfold Rdiv. apply Rmult_le_pos; auto. left. apply Rinv_0_lt_compat, sqrt2_pos. }
  rewrite <- Hl1. set (n := length p).
  eapply Rle_trans; [|apply rsum_minkowski].
  apply sqrt_le_1.
  - apply rsum_nonneg; intros; apply Rle_0_sqr.
  - apply rsum_nonneg; intros; apply Rle_0_sqr.
  - apply rsum_le. intros i Hi. unfold hterm. specialize (Hb i).
    assert (Hqi : hist_value (nth i q NaN)).
    { rewrite Forall_forall in Hq. apply Hq, nth_In. unfold n in Hi. lia. }
    destruct (nth i p NaN) as [a| | |] eqn:E1, (nth i r NaN) as [c| | |] eqn:E3;
      try (replace (0²) with 0 by (unfold Rsqr; ring); apply Rle_0_sqr).
    destruct (nth i q NaN) as [b| | |]; cbn in Hqi; try contradiction.
    + right. unfold Rsqr. ring.
    + destruct (Hb eq_refl) as [C|C]; discriminate C.
Qed.

Lemma hterm_le p q i : Forall hist_value p -> Forall hist_value q ->
  (i < length p)%nat -> (i < length q)%nat ->
  (hterm p q i)² <= (match nth i p NaN with Fin a => a | _ => 0 end) + (match nth i q NaN with Fin b => b | _ => 0 end).
Proof.
  intros Hp Hq Hi1 Hi2. unfold hterm.
  assert (Hqi : hist_value (nth i q NaN)) by (rewrite Forall_forall in Hq; apply Hq, nth_In; auto).
  assert (Hpi : hist_value (nth i p NaN)) by (rewrite Forall_forall in Hp; apply Hp, nth_In; auto).
  destruct (nth i p NaN) as [a| | |], (nth i q NaN) as [b| | |]; cbn in *; try contradiction;
    try (unfold Rsqr; lra).
  rewrite <- (sqrt_sqrt a) at 2 by auto. rewrite <- (sqrt_sqrt b) at 2 by auto.
  pose proof (sqrt_pos a). pose proof (sqrt_pos b). unfold Rsqr. nra.
Qed.

Lemma fins_lsum_rsum p : Forall hist_value p ->
  lsum (fins p) = rsum (length p) (fun i => match nth i p NaN with Fin a => a | _ => 0 end).
Proof.
  induction 1 as [|a p Ha Hp IH]; [reflexivity|]. cbn [length]. rewrite rsum_S_l. cbn [nth].
  destruct a; cbn in Ha; try contradiction.
  - rewrite fins_cons_Fin, lsum_cons, IH. reflexivity.
  - rewrite fins_cons_NaN, IH. lra.
Qed.

Lemma hellinger_le_1 p q : Forall hist_value p -> Forall hist_value q -> length p = length q ->
  lsum (fins p) <= 1 -> lsum (fins q) <= 1 ->
  exists d, hellinger p q 1 = Fin d /\ d <= 1.
Proof.
  intros Hp Hq Hl Sp Sq. rewrite hellinger_val by auto. eexists; split; [reflexivity|].
  set (s := rsum _ _).
  assert (Hs : s <= 2).
  { rewrite fins_lsum_rsum in Sp, Sq by auto. rewrite <- Hl in Sq.
    eapply Rle_trans; [apply rsum_le; intros i Hi; apply hterm_le; auto; lia|].
    rewrite rsum_plus. lra. }
  pose proof sqrt2_pos.
  replace 1 with (1 / sqrt 2 * sqrt 2) at 2 by (field; lra).
  apply Rmult_le_compat_l; [left; apply Rdiv_lt_0_compat; lra|].
  apply sqrt_le_1_alt. lra.
Qed.

(** Blank bins are ignored. *)
Lemma hellinger_valid p q w : Forall hist_value p -> Forall hist_value q -> length p = length q ->
  hellinger p q w = hellinger (map Fin (map fst (valid_pairs p q))) (map Fin (map snd (valid_pairs p q))) w.
Proof.
  intros Hp Hq Hl. unfold hellinger. f_equal. f_equal.
  revert q Hq Hl. induction Hp as [|a p Ha Hp IH]; intros [|b q] Hq Hl; cbn in Hl; try discriminate; [reflexivity|].
  inversion Hq as [|? ? Hb Hq']; subst. specialize (IH q Hq' (eq_add_S _ _ Hl)).
  destruct a as [a| | |], b as [b| | |]; cbn in Ha, Hb; try contradiction; unfold valid_pairs in *; cbn [combine flat_map app map2].
  - cbn [map map2 fst snd]. rewrite !fsqrt_fin by auto. rewrite fsub_fin, fsqr_fin.
    unfold nansum, nonnan in *. cbn [filter is_nan negb]. unfold fsum in *. cbn [fold_right]. now rewrite IH.
  - rewrite fsqrt_fin by auto. exact IH.
  - exact IH.
  - exact IH.
Qed.

Definition scaled (c : R) (x : fl) : fl := fmul (Fin c) x.

(** The bin-width law actually satisfied by the code. *)
Lemma hellinger_width p q w : 0 < w -> Forall hist_value p -> Forall hist_value q -> length p = length q ->
  exists d, hellinger (map (scaled w) p) (map (scaled w) q) 1 = Fin d /\
            hellinger p q w = Fin (sqrt w * d).
Proof.
  intros Hw Hp Hq Hl.
  assert (Hsc : forall l, Forall hist_value l -> Forall hist_value (map (scaled w) l)).
  { intros l H. apply Forall_forall. intros v Hv. apply in_map_iff in Hv. destruct Hv as [u [<- Hu]].
    rewrite Forall_forall in H. specialize (H u Hu). destruct u; cbn in *; try contradiction; auto.
    apply Rmult_le_pos; lra. }
  rewrite (hellinger_val (map _ _)) by (auto; rewrite !map_length; auto).
  rewrite hellinger_val by auto. eexists; split; [reflexivity|]. f_equal.
  rewrite map_length.
  rewrite (rsum_ext _ (fun i => (hterm (map (scaled w) p) (map (scaled w) q) i)²) (fun i => w * (hterm p q i)²)).
  - rewrite rsum_scal. rewrite sqrt_mult by (try lra; apply rsum_nonneg; intros; apply Rle_0_sqr).
    pose proof sqrt2_pos. rewrite <- (sqrt_sqrt w) at 1 by lra. field. lra.
  - intros i Hi. unfold hterm.
    change NaN with (scaled w NaN) at 1 2. rewrite !map_nth.
    assert (Hqi : hist_value (nth i q NaN)) by (rewrite Forall_forall in Hq; apply Hq, nth_In; lia).
    assert (Hpi : hist_value (nth i p NaN)) by (rewrite Forall_forall in Hp; apply Hp, nth_In; auto).
    destruct (nth i p NaN) as [a| | |], (nth i q NaN) as [b| | |]; cbn in *; try contradiction;
      try (unfold Rsqr; ring).
    rewrite !sqrt_mult by lra. rewrite <- (sqrt_sqrt w) at 3 by lra. unfold Rsqr; ring.
Qed.

(** ** Normalisation *)

Lemma rmean_minus l c : l <> [] -> rmean (map (fun r => r - c) l) = rmean l - c.
Proof.
  intros H. unfold rmean. rewrite map_length, (lsum_map_minus (fun r => r) (fun _ => c)).
  rewrite map_id, lsum_map_const. field. apply not_0_INR. destruct l; [contradiction|discriminate].
Qed.

Lemma rmean_div l c : c <> 0 -> rmean (map (fun r => r / c) l) = rmean l / c.
Proof.
  intros H. unfold rmean. rewrite map_length. unfold Rdiv at 2.
  rewrite (lsum_map_scal_r (/ c) (fun r => r)), map_id. unfold Rdiv. ring.
Qed.

Lemma map_nonempty {A B} (f : A -> B) l : l <> [] -> map f l <> [].
Proof. destruct l; [contradiction|discriminate]. Qed.

Lemma center_mean x : Forall blankable x -> fins x <> [] ->
  nanmean (center x) = Fin 0 /\ map is_nan (center x) = map is_nan x.
Proof.
  intros H Hne. unfold center. rewrite (nanmean_rmean x) by auto.
  set (f := fun v => fsub v (Fin (rmean (fins x)))).
  set (g := fun r => r - rmean (fins x)).
  assert (Hf : forall r, In (Fin r) x -> f (Fin r) = Fin (g r)) by reflexivity.
  split.
  - rewrite nanmean_rmean; [|apply (blankable_map f g); auto|rewrite (fins_map f g); auto using map_nonempty].
    rewrite (fins_map f g) by auto. f_equal. unfold g. rewrite rmean_minus by auto. ring.
  - apply (nan_map f g); auto.
Qed.

Lemma standardize_spec x : Forall blankable x -> fins x <> [] -> 0 < rvar (fins x) ->
  nanmean (standardize x) = Fin 0 /\ nanstd (standardize x) = Fin 1 /\ map is_nan (standardize x) = map is_nan x.
Proof.
  intros H Hne Hv. unfold standardize. rewrite (nanmean_rmean x), (nanstd_rvar x) by auto.
  set (m := rmean (fins x)). set (s := sqrt (rvar (fins x))).
  assert (Hs : 0 < s) by (apply sqrt_lt_R0; auto).
  set (f := fun v => fdiv (fsub v (Fin m)) (Fin s)).
  set (g := fun r => (r - m) / s).
  assert (Hf : forall r, In (Fin r) x -> f (Fin r) = Fin (g r)).
  { intros r _. unfold f. rewrite fsub_fin, fdiv_fin by lra. reflexivity. }
  assert (Hb : Forall blankable (map f x)) by (apply (blankable_map f g); auto).
  assert (Hn : fins (map f x) <> []) by (rewrite (fins_map f g); auto using map_nonempty).
  assert (Em : rmean (map g (fins x)) = 0).
  { unfold g. rewrite <- (map_map (fun r => r - m) (fun r => r / s)).
    rewrite rmean_div by lra. rewrite rmean_minus by auto. unfold m. field. lra. }
  split; [|split].
  - rewrite nanmean_rmean by auto. rewrite (fins_map f g) by auto. now rewrite Em.
  - rewrite nanstd_rvar by auto. rewrite (fins_map f g) by auto. f_equal.
    unfold rvar. rewrite Em. rewrite map_map.
    rewrite (map_ext _ (fun r => ((r - m) * (r - m)) / (s * s))).
    2:{ intros r. unfold g. field. lra. }
    rewrite <- (map_map (fun r => (r - m) * (r - m)) (fun r => r / (s * s))).
    rewrite rmean_div by nra.
    assert (E : rmean (map (fun r => (r - m) * (r - m)) (fins x)) = s * s).
    { unfold s. rewrite sqrt_sqrt by lra. reflexivity. }
    rewrite E. replace (s * s / (s * s)) with 1 by (field; lra). apply sqrt_1.
  - apply (nan_map f g); auto.
Qed.

Lemma normalize_by_mean_spec x : Forall blankable x -> fins x <> [] -> rmean (fins x) <> 0 ->
  nanmean (normalize_by_mean x) = Fin 1 /\ map is_nan (normalize_by_mean x) = map is_nan x.
Proof.
  intros H Hne Hm. unfold normalize_by_mean. rewrite (nanmean_rmean x) by auto.
  set (m := rmean (fins x)) in *.
  set (f := fun v => fdiv v (Fin m)).
  set (g := fun r => r / m).
  assert (Hf : forall r, In (Fin r) x -> f (Fin r) = Fin (g r)).
  { intros r _. unfold f. now rewrite fdiv_fin. }
  split.
  - rewrite nanmean_rmean; [|apply (blankable_map f g); auto|rewrite (fins_map f g); auto using map_nonempty].
    rewrite (fins_map f g) by auto. f_equal. unfold g. rewrite rmean_div by auto. fold m. field; auto.
  - apply (nan_map f g); auto.
Qed.

Lemma normalize_spec x a b : Forall blankable x -> fins x <> [] ->
  In a (fins x) -> In b (fins x) -> a <> b ->
  nanmin (normalize x) = Fin 0 /\ nanmax (normalize x) = Fin 1 /\ map is_nan (normalize x) = map is_nan x.
Proof.
  intros H Hne Ha Hb Hab.
  destruct (nanmin_spec x H Hne) as [mn [Emn Hmn]].
  destruct (nanmax_spec x H Hne) as [mx [Emx Hmx]].
  assert (Hlt : mn < mx).
  { destruct Hmn as [_ L1], Hmx as [_ L2].
    pose proof (L1 a Ha); pose proof (L1 b Hb); pose proof (L2 a Ha); pose proof (L2 b Hb).
    destruct (Rtotal_order a b) as [|[|]]; lra. }
  unfold normalize. rewrite Emn, Emx. rewrite fsub_fin.
  set (f := fun v => fdiv (fsub v (Fin mn)) (Fin (mx - mn))).
  set (g := fun r => (r - mn) / (mx - mn)).
  assert (Hf : forall r, In (Fin r) x -> f (Fin r) = Fin (g r)).
  { intros r _. unfold f. rewrite fsub_fin, fdiv_fin by lra. reflexivity. }
  assert (Hbl : Forall blankable (map f x)) by (apply (blankable_map f g); auto).
  assert (Hn : fins (map f x) <> []) by (rewrite (fins_map f g); auto using map_nonempty).
  assert (Hg : forall u v, u <= v -> g u <= g v).
  { intros u v L. unfold g, Rdiv. apply Rmult_le_compat_r; [|lra].
    left. apply Rinv_0_lt_compat. lra. }
  split; [|split].
  - destruct (nanmin_spec _ Hbl Hn) as [m [E Hm]]. rewrite E. f_equal.
    rewrite (fins_map f g) in Hm by auto.
    rewrite (is_min_unique _ _ _ Hm (is_min_map g mn _ Hg Hmn)). unfold g. field. lra.
  - destruct (nanmax_spec _ Hbl Hn) as [m [E Hm]]. rewrite E. f_equal.
    rewrite (fins_map f g) in Hm by auto.
    rewrite (is_max_unique _ _ _ Hm (is_max_map g mx _ Hg Hmx)). unfold g. field. lra.
  - apply (nan_map f g); auto.
Qed.

Lemma data_normalization_err x s :
  data_normalization x s = Err ValueError <->
  ~ In s ["standardize"; "center"; "normalize"; "normalize_by_mean"]%string.
Proof.
  unfold data_normalization. split.
  - intros H Hin. cbn in Hin.
    destruct (String.eqb_spec s "standardize"); [discriminate|].
    destruct (String.eqb_spec s "center"); [discriminate|].
    destruct (String.eqb_spec s "normalize"); [discriminate|].
    destruct (String.eqb_spec s "normalize_by_mean"); [discriminate|].
    intuition congruence.
  - intros Hn. cbn in Hn.
    destruct (String.eqb_spec s "standardize"); [exfalso; intuition congruence|].
    destruct (String.eqb_spec s "center"); [exfalso; intuition congruence|].
    destruct (String.eqb_spec s "normalize"); [exfalso; intuition congruence|].
    destruct (String.eqb_spec s "normalize_by_mean"); [exfalso; intuition congruence|].
    reflexivity.
Qed.

(** ** Statements in the form used by the property files *)

Lemma pixel_shift_perm {A} (x : list A) s : Permutation (pixel_shift x s) x.
Proof. destruct s; apply roll_perm. Qed.

Lemma pixel_shift_compose {A} (x : list A) (s t : Z) :
  pixel_shift (pixel_shift x (ShiftInt s)) (ShiftInt t) = pixel_shift x (ShiftInt (s + t)) /\
  pixel_shift (pixel_shift x (ShiftInt s)) (ShiftInt (- s)) = x.
Proof.
  cbn [pixel_shift]. split; [apply roll_roll|]. rewrite roll_roll, Z.add_opp_diag_r. apply roll_0.
Qed.

Lemma pixel_shift_float {A} (x : list A) (r : R) :
  exists z : Z, pixel_shift x (ShiftFloat r) = pixel_shift x (ShiftInt z) /\
    (Rabs (IZR z) <= Rabs r < Rabs (IZR z) + 1)%R /\ (0 <= IZR z * r)%R.
Proof. exists (Rtrunc r). split; [reflexivity|]. apply Rtrunc_spec. Qed.

Lemma fourier_shift_example :
  fourier_shift [Fin 1; NaN; Fin 3; Fin 4]%R (IZR (-1)) = [NaN; Fin 3; Fin 4; Fin 1]%R.
Proof. rewrite fourier_shift_int. reflexivity. Qed.
