From Coq Require Import Reals List ZArith Bool Arith Lia Lra.
From Coquelicot Require Import Complex.
From Verif Require Import Lib.PyBase Lib.RSum Lib.Fl Lib.DFT Lib.DFT3 Model.Scf Model.StatsUtils Model.ThreeD Spec.Freq Spec.Modes
  Proofs.Scf_Proofs Proofs.Psds_Proofs Proofs.Psds2_Proofs Proofs.MakeCube2_Proofs Proofs.MakeMoments_Proofs.
Import ListNotations.
Local Open Scope R_scope.

(** ** The frequency bins *)
Lemma bins_count N : (1 <= N)%nat -> Z.to_nat (np_ceil ((1 / 2 - 1 / INR N) / (1 / INR N))) = ((N - 1) / 2)%nat.
Proof.
  intro H. assert (P : 0 < INR N) by (apply lt_0_INR; lia). replace ((1 / 2 - 1 / INR N) / (1 / INR N)) with (INR N / 2 - 1) by (field; lra).
  rewrite (ceil_unique _ (Z.of_nat ((N + 1) / 2) - 1)).
  - assert (E : ((N + 1) / 2 = (N - 1) / 2 + 1)%nat) by (replace (N + 1)%nat with ((N - 1) + 1 * 2)%nat by lia; now rewrite Nat.div_add by lia). rewrite E. lia.
  - rewrite minus_IZR, <- INR_IZR_INZ. pose proof (Nat.div_mod (N + 1) 2 ltac:(lia)) as D. pose proof (Nat.mod_upper_bound (N + 1) 2 ltac:(lia)) as M.
    set (q := ((N + 1) / 2)%nat) in *. apply (f_equal INR) in D. rewrite !plus_INR, mult_INR in D. cbn [INR] in D.
    assert ((N + 1) mod 2 = 0 \/ (N + 1) mod 2 = 1)%nat as [E | E] by lia; rewrite E in D; cbn [INR] in D; lra.
Qed.
Lemma mode_dec (p q : nat * nat * nat) : {p = q} + {p <> q}.
Proof. repeat decide equality. Defined.
Section Cube.
Variables (n0 n1 n2 : nat).
Hypothesis P0 : (1 <= n0)%nat. Hypothesis P1 : (1 <= n1)%nat. Hypothesis P2 : (1 <= n2)%nat.
Let N := Nat.max n0 (Nat.max n1 n2).
Let K := ((N - 1) / 2)%nat.
Lemma N_pos : 0 < INR N.
Proof. apply lt_0_INR. unfold N. lia. Qed.
Lemma freq_bins_eq : freq_bins n0 n1 n2 = map (fun i => INR (S i) / INR N) (seq 0 K).
Proof.
  unfold freq_bins, arange. fold N. cbv zeta. rewrite bins_count by (unfold N; lia). fold K. apply map_ext. intro i. rewrite S_INR. pose proof N_pos. field. lra.
Qed.
Lemma filter_le_prefix x M : 0 <= x -> forall m, length (filter (fun e => Rleb e x) (map (fun i => INR (S i) / M) (seq 0 m))) = length (filter (fun i => Rleb (INR (S i) / M) x) (seq 0 m)).
Proof. intros _ m. induction (seq 0 m) as [| a l IH]; [reflexivity |]. cbn [map filter]. destruct (Rleb _ x); cbn [length]; now rewrite IH. Qed.
(** the bin of a frequency *)
Lemma digitize_spec x : 0 <= x -> (digitize (freq_bins n0 n1 n2) x <= K)%nat /\
  forall k, (1 <= k <= K)%nat -> (digitize (freq_bins n0 n1 n2) x = k <-> INR k / INR N <= x /\ (k = K \/ x < INR (S k) / INR N)).
Proof.
  intro X. unfold digitize. rewrite freq_bins_eq, filter_le_prefix by assumption. pose proof N_pos as PN.
  assert (G : forall m, let c := length (filter (fun i => Rleb (INR (S i) / INR N) x) (seq 0 m)) in (c <= m)%nat /\ (forall i, (i < m)%nat -> (i < c)%nat <-> INR (S i) / INR N <= x)).
  { induction m as [| m [IH1 IH2]]; cbv zeta in *; [split; [cbn; lia | intros; lia] |]. rewrite seq_S, filter_app, List.app_length. cbn [filter Nat.add].
    set (c := length (filter (fun i => Rleb (INR (S i) / INR N) x) (seq 0 m))) in *.
    destruct (Rleb_spec (INR (S m) / INR N) x) as [L | L]; cbn [length].
    - assert (C : c = m).
      { destruct (Nat.eq_dec c m) as [| Q]; [assumption |]. assert (c < m)%nat by lia. specialize (IH2 c H). exfalso. assert (INR (S c) / INR N <= x); [| apply IH2 in H0; lia].
        apply Rle_trans with (INR (S m) / INR N); [| assumption]. apply Rmult_le_compat_r; [left; now apply Rinv_0_lt_compat |]. apply le_INR. lia. }
      split; [lia |]. intros i I. destruct (Nat.eq_dec i m) as [-> | Q]; [split; [intros _; assumption | lia] |]. rewrite <- IH2 by lia. lia.
    - split; [lia |]. intros i I. destruct (Nat.eq_dec i m) as [-> | Q]; [split; [lia | lra] |]. rewrite <- IH2 by lia. lia. }
  destruct (G K) as [G1 G2]. set (c := length _) in *. split; [exact G1 |]. intros k [KA KB]. split.
  - intro E. split.
    + replace k with (S (k - 1)) by lia. apply G2; lia.
    + destruct (Nat.eq_dec k K) as [| Q]; [now left |]. right. apply Rnot_le_lt. intro L. apply (G2 k ltac:(lia)) in L. lia.
  - intros [L R]. assert (k <= c)%nat by (replace k with (S (k - 1)) in L by lia; apply G2 in L; lia).
    destruct R as [-> | R]; [lia |]. destruct (Nat.eq_dec c k) as [| Q]; [assumption |]. exfalso. assert (k < K)%nat by lia. assert (INR (S k) / INR N <= x) by (apply G2; lia). lra.
Qed.
Lemma rr_nonneg p : 0 <= rr n0 n1 n2 p.
Proof. destruct p as [[a b] c]. apply sqrt_pos. Qed.
Lemma in_modes p : In p (modes n0 n1 n2) <-> (fst (fst p) < n0)%nat /\ (snd (fst p) < n1)%nat /\ (snd p < n2)%nat.
Proof. unfold modes. destruct p as [[a b] c]. rewrite !in_prod_iff, !in_seq. cbn. lia. Qed.
(** every bin holds a mode *)
Lemma fftfreq_0 n : fftfreq n 0 = 0.
Proof. unfold fftfreq. destruct (Nat.ltb_spec 0 ((n - 1) / 2 + 1)); [cbn; unfold Rdiv; ring | lia]. Qed.
Lemma fftfreq_small n k : (k <= (n - 1) / 2)%nat -> fftfreq n k = INR k / INR n.
Proof. intro H. unfold fftfreq. destruct (Nat.ltb_spec k ((n - 1) / 2 + 1)); [reflexivity | lia]. Qed.
Lemma bin_witness k : (1 <= k <= K)%nat -> exists p, In p (modes n0 n1 n2) /\ whichbin n0 n1 n2 p = k.
Proof.
  intros H. assert (KN : (k < N)%nat).
  { unfold K in H. pose proof (Nat.div_le_upper_bound (N - 1) 2 (N - 1) ltac:(lia) ltac:(lia)). lia. }
  assert (Q : exists p, In p (modes n0 n1 n2) /\ rr n0 n1 n2 p = INR k / INR N).
  { assert (PQ : 0 <= INR k / INR N) by (apply Rmult_le_pos; [apply pos_INR | left; apply Rinv_0_lt_compat; apply N_pos]).
    assert (N = n0 \/ N = n1 \/ N = n2) as [E | [E | E]] by (unfold N; lia).
    - exists (k, 0, 0)%nat. split; [apply in_modes; cbn [fst snd]; repeat split; lia |]. unfold rr. rewrite !fftfreq_0. rewrite fftfreq_small by (rewrite <- E; apply H). rewrite <- E.
      replace ((INR k / INR N) ^ 2 + 0 ^ 2 + 0 ^ 2) with ((INR k / INR N) * (INR k / INR N)) by ring. now apply sqrt_square.
    - exists (0, k, 0)%nat. split; [apply in_modes; cbn [fst snd]; repeat split; lia |]. unfold rr. rewrite !fftfreq_0. rewrite fftfreq_small by (rewrite <- E; apply H). rewrite <- E.
      replace (0 ^ 2 + (INR k / INR N) ^ 2 + 0 ^ 2) with ((INR k / INR N) * (INR k / INR N)) by ring. now apply sqrt_square.
    - exists (0, 0, k)%nat. split; [apply in_modes; cbn [fst snd]; repeat split; lia |]. unfold rr. rewrite !fftfreq_0. rewrite fftfreq_small by (rewrite <- E; apply H). rewrite <- E.
      replace (0 ^ 2 + 0 ^ 2 + (INR k / INR N) ^ 2) with ((INR k / INR N) * (INR k / INR N)) by ring. now apply sqrt_square. }
  destruct Q as [p [I R]]. exists p. split; [assumption |]. unfold whichbin. apply digitize_spec; [apply rr_nonneg | assumption |]. rewrite R. split; [lra |]. right.
  apply Rmult_lt_compat_r; [apply Rinv_0_lt_compat; apply N_pos |]. apply lt_INR. lia.
Qed.
Lemma fold_max_spec l : (forall x, In x l -> (x <= fold_right Nat.max 0 l)%nat) /\ (forall m, (forall x, In x l -> (x <= m)%nat) -> (fold_right Nat.max 0 l <= m)%nat).
Proof.
  induction l as [| a l [IH1 IH2]]; cbn [fold_right]; split.
  - intros x [].
  - intros; lia.
  - intros x [-> | X]; [lia |]. specialize (IH1 x X). lia.
  - intros m H. pose proof (H a (or_introl eq_refl)). assert (fold_right Nat.max 0 l <= m)%nat by (apply IH2; intros; apply H; now right). lia.
Qed.
Lemma n_count_eq : n_count n0 n1 n2 = S K.
Proof.
  unfold n_count. f_equal. destruct (fold_max_spec (map (whichbin n0 n1 n2) (modes n0 n1 n2))) as [A B]. apply Nat.le_antisymm.
  - apply B. intros x X. apply in_map_iff in X. destruct X as [p [<- I]]. apply digitize_spec. apply rr_nonneg.
  - destruct (Nat.eq_dec K 0) as [E | E]; [lia |]. destruct (bin_witness K ltac:(lia)) as [p [I W]]. apply A. rewrite <- W. now apply in_map.
Qed.
(** bin 0 holds the zero mode alone *)
Lemma fftfreq_ge n k : (1 <= n)%nat -> (1 <= k < n)%nat -> 1 / INR n <= Rabs (fftfreq n k).
Proof.
  intros H KK. assert (PN : 0 < INR n) by (apply lt_0_INR; lia). unfold fftfreq. destruct (Nat.ltb_spec k ((n - 1) / 2 + 1)).
  - rewrite Rabs_pos_eq by (apply Rmult_le_pos; [apply pos_INR | left; now apply Rinv_0_lt_compat]). apply Rmult_le_compat_r; [left; now apply Rinv_0_lt_compat |]. apply (le_INR 1). lia.
  - assert (INR k + 1 <= INR n) by (rewrite <- S_INR; apply le_INR; lia).
    rewrite Rabs_left.
    + unfold Rdiv. rewrite Ropp_mult_distr_l. apply Rmult_le_compat_r; [left; now apply Rinv_0_lt_compat | lra].
    + unfold Rdiv. apply Ropp_lt_cancel. rewrite Ropp_0, Ropp_mult_distr_l. apply Rmult_lt_0_compat; [lra | now apply Rinv_0_lt_compat].
Qed.
Lemma inv_N_le n : (1 <= n)%nat -> (n <= N)%nat -> 1 / INR N <= 1 / INR n.
Proof. intros A B. apply Rmult_le_compat_l; [lra |]. apply Rinv_le_contravar; [apply lt_0_INR; lia | now apply le_INR]. Qed.
Lemma abs_le_sqrt a s : a ^ 2 <= s -> Rabs a <= sqrt s.
Proof. intro H. rewrite <- sqrt_Rsqr_abs. apply sqrt_le_1_alt. unfold Rsqr. cbn in H. lra. Qed.
Lemma rr_ge p : In p (modes n0 n1 n2) -> p <> (0, 0, 0)%nat -> 1 / INR N <= rr n0 n1 n2 p.
Proof.
  intros I Q. apply in_modes in I. destruct p as [[a b] c]. cbn [fst snd] in I. destruct I as [A [B C]].
  pose proof (pow2_ge_0 (fftfreq n0 a)) as F0. pose proof (pow2_ge_0 (fftfreq n1 b)) as F1. pose proof (pow2_ge_0 (fftfreq n2 c)) as F2.
  assert (a <> 0 \/ b <> 0 \/ c <> 0)%nat as [D | [D | D]].
  { destruct (Nat.eq_dec a 0) as [-> | D]; [| now left]. destruct (Nat.eq_dec b 0) as [-> | D]; [| now right; left]. right; right. intros ->. now apply Q. }
  - apply Rle_trans with (Rabs (fftfreq n0 a)); [| apply abs_le_sqrt; lra]. apply Rle_trans with (1 / INR n0); [apply inv_N_le; unfold N; lia | apply fftfreq_ge; lia].
  - apply Rle_trans with (Rabs (fftfreq n1 b)); [| apply abs_le_sqrt; lra]. apply Rle_trans with (1 / INR n1); [apply inv_N_le; unfold N; lia | apply fftfreq_ge; lia].
  - apply Rle_trans with (Rabs (fftfreq n2 c)); [| apply abs_le_sqrt; lra]. apply Rle_trans with (1 / INR n2); [apply inv_N_le; unfold N; lia | apply fftfreq_ge; lia].
Qed.
Lemma zero_bin p : (3 <= N)%nat -> In p (modes n0 n1 n2) -> whichbin n0 n1 n2 p = 0%nat <-> p = (0, 0, 0)%nat.
Proof.
  intros N3 I. assert (K1 : (1 <= K)%nat) by (apply Nat.div_le_lower_bound; lia).
  assert (PN := N_pos). destruct (digitize_spec (rr n0 n1 n2 p) (rr_nonneg p)) as [L S]. fold (whichbin n0 n1 n2 p) in L, S. split.
  - intro W. destruct (mode_dec p (0, 0, 0)%nat) as [E | E]; [exact E |]. exfalso.
    pose proof (rr_ge p I E) as G.
    assert (Z : forall j, (1 <= j <= K)%nat -> INR j / INR N <= rr n0 n1 n2 p -> False).
    { intros j [J1 J2]. remember (K - j)%nat as d eqn:D. revert j J1 J2 D. induction d as [| d IH]; intros j J1 J2 D LE.
      - assert (whichbin n0 n1 n2 p = j) by (apply S; [lia |]; split; [assumption | left; lia]). lia.
      - destruct (Rlt_or_le (rr n0 n1 n2 p) (INR (Datatypes.S j) / INR N)) as [LT | LE'].
        + assert (whichbin n0 n1 n2 p = j) by (apply S; [lia |]; split; [assumption | now right]). lia.
        + apply (IH (Datatypes.S j)); [lia | lia | lia | assumption]. }
    apply (Z 1%nat); [lia |]. cbn [INR]. exact G.
  - intros ->. destruct (whichbin n0 n1 n2 (0, 0, 0)%nat) as [| w] eqn:W; [reflexivity |]. exfalso.
    destruct (proj1 (S (Datatypes.S w) ltac:(lia)) eq_refl) as [B _]. unfold rr in B. rewrite !fftfreq_0 in B. replace (0 ^ 2 + 0 ^ 2 + 0 ^ 2) with 0 in B by ring. rewrite sqrt_0 in B.
    assert (0 < INR (Datatypes.S w) / INR N) by (apply Rdiv_lt_0_compat; [apply lt_0_INR; lia | assumption]). lra.
Qed.
(** ** Values *)
Lemma threeD_eq arr : threeD_pspec 3 (n0, n1, n2) arr = Ok (map (fun i => INR (S i) / INR N) (seq 0 K),
   map (fun n => np_mean (bin_power n0 n1 n2 arr n)) (seq 1 K), map (fun n => np_std (bin_power n0 n1 n2 arr n)) (seq 1 K)).
Proof.
  unfold threeD_pspec. cbn [Nat.eqb negb]. destruct (Nat.eqb_spec (n0 * n1 * n2) 0) as [E | _]; [nia |]. cbv zeta. rewrite n_count_eq, freq_bins_eq. cbn [Nat.sub]. rewrite Nat.sub_0_r. reflexivity.
Qed.
Lemma lsum_modes (f : nat * nat * nat -> R) : lsum (map f (modes n0 n1 n2)) = rsum n0 (fun a => rsum n1 (fun b => rsum n2 (fun c => f (a, b, c)))).
Proof.
  unfold modes. rewrite lsum_prod, lsum_prod. rewrite rsum_lsum. apply lsum_map_ext. intros a _. rewrite rsum_lsum. apply lsum_map_ext. intros b _. now rewrite rsum_lsum.
Qed.
Lemma lsum_filter {A} (f : A -> R) p l : lsum (map f (filter p l)) = lsum (map (fun a => if p a : bool then f a else 0) l).
Proof. induction l as [| a l IH]; [reflexivity |]. cbn [filter map]. rewrite lsum_cons, <- IH. destruct (p a); cbn [map]; rewrite ?lsum_cons; lra. Qed.
Lemma length_filter {A} (p : A -> bool) l : INR (length (filter p l)) = lsum (map (fun a => if p a then 1 else 0) l).
Proof. induction l as [| a l IH]; [reflexivity |]. cbn [filter map]. rewrite lsum_cons, <- IH. destruct (p a); cbn [length]; rewrite ?S_INR; lra. Qed.
Lemma bin_power_nonempty arr k : (1 <= k <= K)%nat -> bin_power n0 n1 n2 arr k <> [].
Proof.
  intros H E. destruct (bin_witness k H) as [p [I W]]. assert (Q : In (ps3D n0 n1 n2 arr p) (bin_power n0 n1 n2 arr k)); [| rewrite E in Q; destruct Q].
  apply in_map_iff. exists p. split; [reflexivity |]. apply filter_In. split; [assumption | now apply Nat.eqb_eq].
Qed.
Lemma np_mean_fin l : l <> [] -> np_mean l = Fin (lsum l / INR (length l)).
Proof. intro H. destruct l; [easy | reflexivity]. Qed.
Lemma np_std_fin l : l <> [] -> np_std l = Fin (sqrt (lsum (map (fun v => (v - lsum l / INR (length l)) ^ 2) l) / INR (length l))).
Proof. intro H. destruct l; [easy | reflexivity]. Qed.
End Cube.
Lemma is_freq_unique n k f g : is_freq n k f -> is_freq n k g -> f = g.
Proof.
  intros [A [z Z]] [B [w W]]. assert (z = w); [| subst; congruence]. rewrite Z in A. rewrite W in B.
  assert (z < w + 1)%Z by (apply lt_IZR; rewrite plus_IZR; lra). assert (w < z + 1)%Z by (apply lt_IZR; rewrite plus_IZR; lra). lia.
Qed.
Theorem threeD_values n0 n1 n2 arr fx fy fz : (1 <= n0)%nat -> (1 <= n1)%nat -> (1 <= n2)%nat ->
  (forall a, (a < n0)%nat -> is_freq n0 a (fx a)) -> (forall b, (b < n1)%nat -> is_freq n1 b (fy b)) -> (forall c, (c < n2)%nat -> is_freq n2 c (fz c)) ->
  let N := Nat.max n0 (Nat.max n1 n2) in let K := ((N - 1) / 2)%nat in
  exists freqs ps err, threeD_pspec 3 (n0, n1, n2) arr = Ok (freqs, ps, err) /\ length freqs = K /\ length ps = K /\ length err = K /\
  forall k, (1 <= k <= K)%nat -> nth (k - 1) freqs 0 = INR k / INR N /\
  forall sel : nat -> nat -> nat -> bool,
    (forall a b c, (a < n0)%nat -> (b < n1)%nat -> (c < n2)%nat -> sel a b c = true <->
        INR k / INR N <= mode_freq fx fy fz a b c /\ (k = K \/ mode_freq fx fy fz a b c < INR (S k) / INR N)) ->
    let total g := rsum n0 (fun a => rsum n1 (fun b => rsum n2 (fun c => if sel a b c then g a b c else 0))) in
    let count := total (fun _ _ _ => 1) in
    let mean := total (power n0 n1 n2 arr) / count in
    1 <= count /\ nth (k - 1) ps NaN = Fin mean /\ nth (k - 1) err NaN = Fin (sqrt (total (fun a b c => (power n0 n1 n2 arr a b c - mean) ^ 2) / count)).
Proof.
  intros P0 P1 P2 FX FY FZ. cbv zeta. rewrite threeD_eq by assumption. eexists _, _, _. split; [reflexivity |]. rewrite !map_length, !seq_length. do 3 (split; [reflexivity |]).
  intros k HK. set (K := ((Nat.max n0 (Nat.max n1 n2) - 1) / 2)%nat) in *. split.
  { rewrite (nth_indep _ 0 (INR 1 / INR (Nat.max n0 (Nat.max n1 n2)))) by (rewrite map_length, seq_length; lia).
    rewrite (map_nth (fun i => INR (S i) / INR (Nat.max n0 (Nat.max n1 n2))) (seq 0 K) 0%nat), seq_nth by lia. now replace (S (0 + (k - 1))) with k by lia. }
  intros sel SEL.
  assert (NTH : forall g : nat -> fl, nth (k - 1) (map g (seq 1 K)) NaN = g k).
  { intro g. rewrite (nth_indep _ NaN (g 0%nat)) by (rewrite map_length, seq_length; lia). rewrite map_nth, seq_nth by lia. now replace (1 + (k - 1))%nat with k by lia. }
  rewrite !NTH. pose proof (bin_power_nonempty n0 n1 n2 P0 P1 P2 arr k HK) as NE. rewrite np_mean_fin, np_std_fin by assumption.
  assert (WB : forall a b c, (a < n0)%nat -> (b < n1)%nat -> (c < n2)%nat -> Nat.eqb (whichbin n0 n1 n2 (a, b, c)) k = sel a b c).
  { intros a b c A B C. assert (RR : rr n0 n1 n2 (a, b, c) = mode_freq fx fy fz a b c).
    { unfold rr, mode_freq. rewrite (is_freq_unique n0 a _ _ (fftfreq_is_freq n0 a A) (FX a A)), (is_freq_unique n1 b _ _ (fftfreq_is_freq n1 b B) (FY b B)), (is_freq_unique n2 c _ _ (fftfreq_is_freq n2 c C) (FZ c C)). reflexivity. }
    destruct (digitize_spec n0 n1 n2 P0 P1 P2 (rr n0 n1 n2 (a, b, c)) (rr_nonneg n0 n1 n2 (a, b, c))) as [_ D]. specialize (D k HK). fold (whichbin n0 n1 n2 (a, b, c)) in D. rewrite RR in D. fold K in D.
    specialize (SEL a b c A B C). rewrite <- SEL in D. destruct (Nat.eqb_spec (whichbin n0 n1 n2 (a, b, c)) k) as [E | E], (sel a b c) eqn:S; try reflexivity; [apply D in E; congruence | exfalso; apply E; now apply D]. }
  assert (TOT : forall g, lsum (map g (filter (fun p => Nat.eqb (whichbin n0 n1 n2 p) k) (modes n0 n1 n2))) = rsum n0 (fun a => rsum n1 (fun b => rsum n2 (fun c => if sel a b c then g (a, b, c) else 0)))).
  { intro g. rewrite lsum_filter, lsum_modes. apply rsum_ext. intros a A. apply rsum_ext. intros b B. apply rsum_ext. intros c C. now rewrite WB. }
  assert (LEN : INR (length (bin_power n0 n1 n2 arr k)) = rsum n0 (fun a => rsum n1 (fun b => rsum n2 (fun c => if sel a b c then 1 else 0)))).
  { unfold bin_power. rewrite map_length, length_filter, lsum_modes. apply rsum_ext. intros a A. apply rsum_ext. intros b B. apply rsum_ext. intros c C. now rewrite WB. }
  rewrite <- LEN. split; [apply (le_INR 1); destruct (bin_power n0 n1 n2 arr k); [easy | cbn; lia] |].
  assert (SUM : lsum (bin_power n0 n1 n2 arr k) = rsum n0 (fun a => rsum n1 (fun b => rsum n2 (fun c => if sel a b c then power n0 n1 n2 arr a b c else 0)))).
  { unfold bin_power. rewrite TOT. reflexivity. }
  rewrite <- SUM. split; [reflexivity |]. apply (f_equal Fin), (f_equal sqrt), (f_equal (fun t => t / _)).
  assert (GEN : forall g, lsum (map g (bin_power n0 n1 n2 arr k)) = rsum n0 (fun a => rsum n1 (fun b => rsum n2 (fun c => if sel a b c then g (power n0 n1 n2 arr a b c) else 0)))).
  { intro g. unfold bin_power. rewrite map_map, TOT. reflexivity. }
  apply GEN.
Qed.

(** ** Invariances *)
Lemma threeD_ext n0 n1 n2 arr arr' : (forall a b c, (a < n0)%nat -> (b < n1)%nat -> (c < n2)%nat -> (a, b, c) <> (0, 0, 0)%nat -> power n0 n1 n2 arr a b c = power n0 n1 n2 arr' a b c) ->
  threeD_pspec 3 (n0, n1, n2) arr = threeD_pspec 3 (n0, n1, n2) arr'.
Proof.
  intro H. destruct (Nat.eq_dec (n0 * n1 * n2) 0) as [E | E]; [unfold threeD_pspec; cbn [Nat.eqb negb]; rewrite E; reflexivity |].
  assert (P0 : (1 <= n0)%nat) by nia. assert (P1 : (1 <= n1)%nat) by nia. assert (P2 : (1 <= n2)%nat) by nia.
  rewrite !threeD_eq by assumption.
  assert (B : forall k, In k (seq 1 ((Nat.max n0 (Nat.max n1 n2) - 1) / 2)) -> bin_power n0 n1 n2 arr k = bin_power n0 n1 n2 arr' k).
  { intros k I. apply in_seq in I. unfold bin_power. apply map_ext_in. intros p Q. apply filter_In in Q. destruct Q as [Q W]. apply Nat.eqb_eq in W.
    assert (N3 : (3 <= Nat.max n0 (Nat.max n1 n2))%nat).
    { assert (1 <= (Nat.max n0 (Nat.max n1 n2) - 1) / 2)%nat by lia. pose proof (Nat.mul_div_le (Nat.max n0 (Nat.max n1 n2) - 1) 2 ltac:(lia)). lia. }
    assert (NZ : p <> (0, 0, 0)%nat) by (intro Z; apply (zero_bin n0 n1 n2 P0 P1 P2 p N3 Q) in Z; lia).
    apply in_modes in Q; try assumption. destruct p as [[a b] c]. cbn [fst snd] in Q. destruct Q as [Q1 [Q2 Q3]]. apply (H a b c Q1 Q2 Q3 NZ). }
  f_equal. f_equal; [f_equal |]; apply map_ext_in; intros k I; now rewrite B.
Qed.
Lemma dft1_roll n x s k : (0 < n)%nat -> dft1 n (fun j => x ((j + s) mod n)%nat) k = Cmult (Cconj (tw n s k)) (dft1 n x k).
Proof.
  intro N. unfold dft1. rewrite <- csum_scal.
  rewrite <- (csum_reindex n (fun i => Cmult (Cconj (tw n s k)) (Cmult (x i) (tw n i k))) (fun j => ((j + s) mod n)%nat)).
  - apply csum_ext. intros j J. rewrite tw_mod_l by assumption. rewrite tw_add_l.
    transitivity (Cmult (Cmult (x ((j + s) mod n)%nat) (tw n j k)) (Cmult (tw n s k) (Cconj (tw n s k)))); [rewrite tw_conj_r; ring | ring].
  - intros i I. apply Nat.mod_upper_bound. lia.
  - intros i j I J E. assert (i mod n = j mod n)%nat; [| now rewrite !Nat.mod_small in H by assumption].
    assert (F : forall q, (q < n)%nat -> (q = (((q + s) mod n) + (n - s mod n)) mod n)%nat).
    { intros q Q. rewrite Nat.add_mod_idemp_l by lia. pose proof (Nat.mod_upper_bound s n ltac:(lia)). pose proof (Nat.div_mod s n ltac:(lia)) as D.
      replace (q + s + (n - s mod n))%nat with (q + (s / n + 1) * n)%nat by nia. rewrite Nat.mod_add by lia. now rewrite Nat.mod_small. }
    rewrite !Nat.mod_small by assumption. rewrite (F i I), (F j J), E. reflexivity.
Qed.
Lemma dft3_roll n0 n1 n2 (x : nat -> nat -> nat -> C) s0 s1 s2 a b c : (0 < n0)%nat -> (0 < n1)%nat -> (0 < n2)%nat ->
  Cnorm2 (dft3 n0 n1 n2 (fun i j k => x ((i + s0) mod n0) ((j + s1) mod n1) ((k + s2) mod n2))%nat a b c) = Cnorm2 (dft3 n0 n1 n2 x a b c).
Proof.
  intros P0 P1 P2. rewrite !dft3_z.
  rewrite (dft1_ext n0 _ (fun z => Cmult (Cmult (Cconj (tw n1 s1 b)) (Cconj (tw n2 s2 c))) ((fun z => dft2 n1 n2 (x z) b c) ((z + s0) mod n0)%nat))).
  - unfold dft1 at 1. erewrite csum_ext; [| intros; rewrite <- Cmult_assoc; reflexivity]. rewrite csum_scal.
    change (csum n0 (fun j => Cmult (dft2 n1 n2 (x ((j + s0) mod n0)%nat) b c) (tw n0 j a))) with (dft1 n0 (fun z => (fun z => dft2 n1 n2 (x z) b c) ((z + s0) mod n0)%nat) a).
    rewrite dft1_roll by assumption. rewrite !Cnorm2_mult, !Cnorm2_conj, !tw_norm. ring.
  - intros z Z. rewrite !dft2_rows. rewrite (dft1_ext n1 _ (fun y => Cmult (Cconj (tw n2 s2 c)) ((fun y => dft1 n2 (x ((z + s0) mod n0)%nat y) c) ((y + s1) mod n1)%nat))).
    + unfold dft1 at 1. erewrite csum_ext; [| intros; rewrite <- Cmult_assoc; reflexivity]. rewrite csum_scal.
      change (csum n1 (fun j => Cmult (dft1 n2 (x ((z + s0) mod n0)%nat ((j + s1) mod n1)%nat) c) (tw n1 j b))) with (dft1 n1 (fun y => (fun y => dft1 n2 (x ((z + s0) mod n0)%nat y) c) ((y + s1) mod n1)%nat) b).
      rewrite dft1_roll by assumption. ring.
    + intros y Y. now rewrite dft1_roll.
Qed.
Theorem threeD_roll n0 n1 n2 arr s0 s1 s2 :
  threeD_pspec 3 (n0, n1, n2) (fun i j k => arr ((i + s0) mod n0) ((j + s1) mod n1) ((k + s2) mod n2))%nat = threeD_pspec 3 (n0, n1, n2) arr.
Proof.
  apply threeD_ext. intros a b c A B C _. unfold power. replace 2%nat with (1 + 1)%nat by lia. rewrite !pow_add, !pow_1, !Cmod_sqr.
  apply (dft3_roll n0 n1 n2 (fun i j k => RtoC (arr i j k))); lia.
Qed.
Lemma dft1_const n c k : (k < n)%nat -> k <> 0%nat -> dft1 n (fun _ => c) k = RtoC 0.
Proof.
  intros K Z. unfold dft1. rewrite csum_scal. replace (csum n (fun j => tw n j k)) with (RtoC 0); [ring |].
  rewrite (csum_ext n _ (fun j => Cmult (tw n j k) (Cconj (tw n j 0)))); [| intros; rewrite tw_0_r, Cconj_RtoC; ring]. rewrite tw_orth_l by lia. destruct (Nat.eqb_spec k 0); [contradiction | reflexivity].
Qed.
Lemma dft1_0 n k : dft1 n (fun _ => RtoC 0) k = RtoC 0.
Proof. unfold dft1. apply csum_zero. intros. ring. Qed.
Lemma dft3_const n0 n1 n2 v a b c : (a < n0)%nat -> (b < n1)%nat -> (c < n2)%nat -> (a, b, c) <> (0, 0, 0)%nat -> dft3 n0 n1 n2 (fun _ _ _ => v) a b c = RtoC 0.
Proof.
  intros A B C Q. rewrite dft3_z. destruct (Nat.eq_dec a 0) as [-> | D]; [| apply (dft1_const n0 (dft2 n1 n2 (fun _ _ => v) b c)); assumption].
  replace (dft2 n1 n2 (fun _ _ => v) b c) with (RtoC 0); [apply dft1_0 |]. symmetry. rewrite dft2_rows.
  destruct (Nat.eq_dec b 0) as [-> | D]; [| apply (dft1_const n1 (dft1 n2 (fun _ => v) c)); assumption].
  replace (dft1 n2 (fun _ => v) c) with (RtoC 0); [apply dft1_0 |]. symmetry. apply dft1_const; [assumption |]. intros ->. now apply Q.
Qed.
Lemma dft3_plus n0 n1 n2 x y a b c : dft3 n0 n1 n2 (fun i j k => Cplus (x i j k) (y i j k)) a b c = Cplus (dft3 n0 n1 n2 x a b c) (dft3 n0 n1 n2 y a b c).
Proof.
  unfold dft3. rewrite <- csum_plus. apply csum_ext. intros i _. rewrite <- csum_plus. apply csum_ext. intros j _. rewrite <- csum_plus. apply csum_ext. intros k _. ring.
Qed.
Theorem threeD_offset n0 n1 n2 arr v : threeD_pspec 3 (n0, n1, n2) (fun i j k => arr i j k + v) = threeD_pspec 3 (n0, n1, n2) arr.
Proof.
  apply threeD_ext. intros a b c A B C Q. unfold power. apply (f_equal (fun z => Cmod z ^ 2)).
  rewrite (dft3_ext n0 n1 n2 _ (fun i j k => Cplus (RtoC (arr i j k)) (RtoC v))) by (intros; now rewrite RtoC_plus).
  rewrite dft3_plus. rewrite (dft3_const n0 n1 n2 (RtoC v) a b c A B C Q). ring.
Qed.
Lemma power_scal n0 n1 n2 arr s a b c : power n0 n1 n2 (fun i j k => s * arr i j k) a b c = s ^ 2 * power n0 n1 n2 arr a b c.
Proof.
  unfold power. replace (dft3 n0 n1 n2 (fun i j k => RtoC (s * arr i j k)) a b c) with (Cmult (RtoC s) (dft3 n0 n1 n2 (fun i j k => RtoC (arr i j k)) a b c)).
  - rewrite Cmod_mult, Cmod_R, Rpow_mult_distr. now rewrite pow2_abs.
  - unfold dft3. rewrite <- csum_scal. apply csum_ext. intros i _. rewrite <- csum_scal. apply csum_ext. intros j _. rewrite <- csum_scal. apply csum_ext. intros k _. rewrite RtoC_mult. ring.
Qed.
Lemma lsum_mul q l : lsum (map (Rmult q) l) = q * lsum l.
Proof. induction l as [| a l IH]; cbn [map]; rewrite ?lsum_cons; [cbn; lra | rewrite IH; lra]. Qed.
Lemma np_mean_scal q l : np_mean (map (Rmult q) l) = fscale q (np_mean l).
Proof.
  destruct l as [| p l]; [reflexivity |]. rewrite (np_mean_fin (p :: l)) by easy. rewrite np_mean_fin by easy. rewrite map_length. cbn [fscale].
  rewrite lsum_mul. f_equal. unfold Rdiv. ring.
Qed.
Lemma np_std_scal q l : 0 <= q -> np_std (map (Rmult q) l) = fscale q (np_std l).
Proof.
  intro Q. destruct l as [| p l]; [reflexivity |]. rewrite (np_std_fin (p :: l)) by easy. rewrite np_std_fin by easy. rewrite map_length. set (L := p :: l). cbn [fscale].
  rewrite lsum_mul. rewrite map_map. set (m := lsum L / INR (length L)).
  assert (PN : 0 < INR (length L)) by (apply lt_0_INR; cbn; lia).
  assert (E : lsum (map (fun x => (q * x - q * lsum L / INR (length L)) ^ 2) L) = q * q * lsum (map (fun v => (v - m) ^ 2) L)).
  { rewrite <- lsum_map_scal. apply lsum_map_ext. intros x _. unfold m. unfold Rdiv. ring. }
  rewrite E. f_equal. replace (q * q * lsum (map (fun v => (v - m) ^ 2) L) / INR (length L)) with (q * q * (lsum (map (fun v => (v - m) ^ 2) L) / INR (length L))) by (unfold Rdiv; ring).
  rewrite sqrt_mult.
  - now rewrite sqrt_square.
  - nra.
  - apply Rmult_le_pos; [| left; now apply Rinv_0_lt_compat]. apply lsum_nonneg. intros x X. apply in_map_iff in X. destruct X as [v [<- _]]. apply pow2_ge_0.
Qed.
Theorem threeD_scaled n0 n1 n2 arr s freqs ps err : threeD_pspec 3 (n0, n1, n2) arr = Ok (freqs, ps, err) ->
  threeD_pspec 3 (n0, n1, n2) (fun i j k => s * arr i j k) = Ok (freqs, map (fscale (s ^ 2)) ps, map (fscale (s ^ 2)) err).
Proof.
  unfold threeD_pspec. cbn [Nat.eqb negb]. destruct (Nat.eqb (n0 * n1 * n2) 0); [discriminate |]. cbv zeta. intro E. inversion E; subst; clear E. rewrite !map_map. 
  assert (B : forall k, bin_power n0 n1 n2 (fun i j k => s * arr i j k) k = map (Rmult (s ^ 2)) (bin_power n0 n1 n2 arr k)).
  { intro k. unfold bin_power. rewrite map_map. apply map_ext. intros [[a b] c]. apply power_scal. }
  f_equal. f_equal; [f_equal |]; apply map_ext; intro k; rewrite B.
  - apply np_mean_scal.
  - apply np_std_scal. apply pow2_ge_0.
Qed.

(** ** Total power *)
Lemma sum_by_bin {A} (w : A -> nat) (f : A -> R) l m : (forall a, In a l -> (w a < m)%nat) ->
  rsum m (fun k => lsum (map f (filter (fun a => Nat.eqb (w a) k) l))) = lsum (map f l).
Proof.
  induction l as [| a l IH]; intro H.
  - cbn. apply rsum_0.
  - cbn [map]. rewrite lsum_cons, <- IH by (intros; apply H; now right).
    transitivity (rsum m (fun k => (if Nat.eqb k (w a) then f a else 0) + lsum (map f (filter (fun a => Nat.eqb (w a) k) l)))).
    + apply rsum_ext. intros k _. cbn [filter]. rewrite (Nat.eqb_sym k). destruct (Nat.eqb (w a) k); cbn [map]; rewrite ?lsum_cons; lra.
    + rewrite rsum_plus. f_equal. rewrite (rsum_single m _ (w a)); [now rewrite Nat.eqb_refl | apply H; now left |]. intros i _ N. destruct (Nat.eqb_spec i (w a)); [contradiction | reflexivity].
Qed.
Lemma parseval3 n0 n1 n2 x : rsum n0 (fun a => rsum n1 (fun b => rsum n2 (fun c => Cnorm2 (dft3 n0 n1 n2 x a b c))))
  = INR n0 * INR n1 * INR n2 * rsum n0 (fun i => rsum n1 (fun j => rsum n2 (fun k => Cnorm2 (x i j k)))).
Proof.
  transitivity (rsum n1 (fun b => rsum n2 (fun c => INR n0 * rsum n0 (fun i => Cnorm2 (dft2 n1 n2 (x i) b c))))).
  - rewrite rsum_exchange. apply rsum_ext. intros b _. rewrite rsum_exchange. apply rsum_ext. intros c _. rewrite <- parseval. apply rsum_ext. intros a _. now rewrite dft3_z.
  - transitivity (INR n0 * rsum n0 (fun i => rsum n1 (fun b => rsum n2 (fun c => Cnorm2 (dft2 n1 n2 (x i) b c))))).
    + rewrite (rsum_exchange n0 n1). rewrite <- rsum_scal. apply rsum_ext. intros b _. rewrite (rsum_exchange n0 n2). rewrite <- rsum_scal. reflexivity.
    + rewrite Rmult_assoc, Rmult_assoc. apply f_equal. rewrite <- Rmult_assoc. rewrite <- rsum_scal. apply rsum_ext. intros i _. apply parseval2.
Qed.
Lemma power_norm n0 n1 n2 arr a b c : power n0 n1 n2 arr a b c = Cnorm2 (dft3 n0 n1 n2 (fun i j k => RtoC (arr i j k)) a b c).
Proof. unfold power. replace 2%nat with (1 + 1)%nat by lia. now rewrite pow_add, !pow_1, Cmod_sqr. Qed.
Lemma dft3_zero n0 n1 n2 (arr : nat -> nat -> nat -> R) : dft3 n0 n1 n2 (fun i j k => RtoC (arr i j k)) 0 0 0 = RtoC (rsum n0 (fun i => rsum n1 (fun j => rsum n2 (fun k => arr i j k)))).
Proof.
  unfold dft3. rewrite <- csum_RtoC. apply csum_ext. intros i _. rewrite <- csum_RtoC. apply csum_ext. intros j _. rewrite <- csum_RtoC. apply csum_ext. intros k _. rewrite !tw_0_r. ring.
Qed.
(** the part of a sum over modes that is in bin 0 *)
Lemma zero_part n0 n1 n2 (f : nat * nat * nat -> R) : (1 <= n0)%nat -> (1 <= n1)%nat -> (1 <= n2)%nat -> (3 <= Nat.max n0 (Nat.max n1 n2))%nat ->
  lsum (map f (filter (fun p => Nat.eqb (whichbin n0 n1 n2 p) 0) (modes n0 n1 n2))) = f (0, 0, 0)%nat.
Proof.
  intros P0 P1 P2 N3. rewrite lsum_filter, lsum_modes.
  assert (Z : forall a b c, (a < n0)%nat -> (b < n1)%nat -> (c < n2)%nat -> (a, b, c) <> (0, 0, 0)%nat -> (if Nat.eqb (whichbin n0 n1 n2 (a, b, c)) 0 then f (a, b, c) else 0) = 0).
  { intros a b c A B C Q. destruct (Nat.eqb_spec (whichbin n0 n1 n2 (a, b, c)) 0) as [E | E]; [| reflexivity]. exfalso. apply Q. apply (zero_bin n0 n1 n2 P0 P1 P2 (a, b, c) N3); [| assumption]. apply in_modes; try assumption. cbn [fst snd]. tauto. }
  rewrite (rsum_single n0 _ 0%nat); [| lia |]. rewrite (rsum_single n1 _ 0%nat); [| lia |]. rewrite (rsum_single n2 _ 0%nat); [| lia |].
  - assert (E : whichbin n0 n1 n2 (0, 0, 0)%nat = 0%nat) by (apply (zero_bin n0 n1 n2 P0 P1 P2 (0, 0, 0)%nat N3); [apply in_modes; try assumption; cbn; lia | reflexivity]). rewrite E. reflexivity.
  - intros c C Q. apply Z; try lia. intro E. inversion E. contradiction.
  - intros b B Q. apply rsum_zero. intros c C. apply Z; try lia. intro E. inversion E. contradiction.
  - intros a A Q. apply rsum_zero. intros b B. apply rsum_zero. intros c C. apply Z; try lia. intro E. inversion E. contradiction.
Qed.
Theorem threeD_total n0 n1 n2 : (1 <= n0)%nat -> (1 <= n1)%nat -> (1 <= n2)%nat -> (3 <= Nat.max n0 (Nat.max n1 n2))%nat ->
  exists count : nat -> nat, (forall k, (k < (Nat.max n0 (Nat.max n1 n2) - 1) / 2)%nat -> (1 <= count k)%nat) /\
    rsum ((Nat.max n0 (Nat.max n1 n2) - 1) / 2) (fun k => INR (count k)) = INR (n0 * n1 * n2) - 1 /\
    forall arr freqs ps err, threeD_pspec 3 (n0, n1, n2) arr = Ok (freqs, ps, err) ->
      rsum ((Nat.max n0 (Nat.max n1 n2) - 1) / 2) (fun k => INR (count k) * rval (nth k ps NaN))
      = INR (n0 * n1 * n2) * rsum n0 (fun i => rsum n1 (fun j => rsum n2 (fun k => arr i j k ^ 2))) - (rsum n0 (fun i => rsum n1 (fun j => rsum n2 (fun k => arr i j k)))) ^ 2.
Proof.
  intros P0 P1 P2 N3. set (K := ((Nat.max n0 (Nat.max n1 n2) - 1) / 2)%nat).
  assert (LT : forall p, In p (modes n0 n1 n2) -> (whichbin n0 n1 n2 p < S K)%nat).
  { intros p _. apply Nat.lt_succ_r. apply (digitize_spec n0 n1 n2 P0 P1 P2 (rr n0 n1 n2 p)). apply rr_nonneg; assumption. }
  assert (SPLIT : forall f, rsum K (fun k => lsum (map f (filter (fun p => Nat.eqb (whichbin n0 n1 n2 p) (S k)) (modes n0 n1 n2)))) = rsum n0 (fun a => rsum n1 (fun b => rsum n2 (fun c => f (a, b, c)))) - f (0, 0, 0)%nat).
  { intro f. pose proof (sum_by_bin (whichbin n0 n1 n2) f (modes n0 n1 n2) (S K) LT) as Q. rewrite rsum_S_l in Q. rewrite (zero_part n0 n1 n2 f P0 P1 P2 N3), lsum_modes in Q. lra. }
  exists (fun k => length (filter (fun p => Nat.eqb (whichbin n0 n1 n2 p) (S k)) (modes n0 n1 n2))). split; [| split].
  - intros k H. pose proof (bin_power_nonempty n0 n1 n2 P0 P1 P2 (fun _ _ _ => 0) (S k) ltac:(fold K; lia)) as NE. unfold bin_power in NE. destruct (filter _ _); [easy | cbn; lia].
  - transitivity (rsum K (fun k => lsum (map (fun _ => 1) (filter (fun p => Nat.eqb (whichbin n0 n1 n2 p) (S k)) (modes n0 n1 n2))))).
    + apply rsum_ext. intros k _. clear. induction (filter _ _) as [| a l IH]; [reflexivity |]. cbn [map length]. rewrite lsum_cons, S_INR, <- IH. lra.
    + rewrite SPLIT. rewrite (rsum_ext n0 _ (fun _ => INR n1 * INR n2)).
      * rewrite rsum_const, !mult_INR. ring.
      * intros a _. rewrite (rsum_ext n1 _ (fun _ => INR n2)) by (intros b _; rewrite rsum_const; ring). rewrite rsum_const. ring.
  - intros arr freqs ps err H. rewrite threeD_eq in H by assumption. apply (f_equal (fun r => match r with Ok (_, p, _) => p | Err _ => ps end)) in H. subst ps. fold K.
    transitivity (rsum K (fun k => lsum (map (ps3D n0 n1 n2 arr) (filter (fun p => Nat.eqb (whichbin n0 n1 n2 p) (S k)) (modes n0 n1 n2))))).
    + apply rsum_ext. intros k HK. rewrite (nth_indep _ NaN (np_mean (bin_power n0 n1 n2 arr 0))) by (rewrite map_length, seq_length; lia).
      rewrite (map_nth (fun n => np_mean (bin_power n0 n1 n2 arr n))), seq_nth by lia. cbn [Nat.add].
      rewrite np_mean_fin by (apply bin_power_nonempty; try assumption; fold K; lia). cbn [rval]. unfold bin_power at 2. rewrite map_length. unfold bin_power.
      pose proof (bin_power_nonempty n0 n1 n2 P0 P1 P2 arr (S k) ltac:(fold K; lia)) as NE. unfold bin_power in NE. destruct (filter _ _) as [| q l] eqn:F; [easy |].
      field. apply not_0_INR. cbn. lia.
    + rewrite SPLIT. rewrite (rsum_ext n0 _ (fun a => rsum n1 (fun b => rsum n2 (fun c => Cnorm2 (dft3 n0 n1 n2 (fun i j k => RtoC (arr i j k)) a b c))))).
      * rewrite parseval3. change (ps3D n0 n1 n2 arr (0, 0, 0)%nat) with (power n0 n1 n2 arr 0 0 0). rewrite power_norm, dft3_zero, Cnorm2_RtoC, !mult_INR. unfold Rsqr.
        replace (rsum n0 (fun i => rsum n1 (fun j => rsum n2 (fun k => arr i j k ^ 2)))) with (rsum n0 (fun i => rsum n1 (fun j => rsum n2 (fun k => Cnorm2 (RtoC (arr i j k)))))); [ring |].
        apply rsum_ext. intros i _. apply rsum_ext. intros j _. apply rsum_ext. intros k _. rewrite Cnorm2_RtoC. unfold Rsqr. ring.
      * intros a _. apply rsum_ext. intros b _. apply rsum_ext. intros c _. apply power_norm.
Qed.
Theorem threeD_total' n0 n1 n2 : (1 <= n0)%nat -> (1 <= n1)%nat -> (1 <= n2)%nat -> (3 <= Nat.max n0 (Nat.max n1 n2))%nat ->
  let K := ((Nat.max n0 (Nat.max n1 n2) - 1) / 2)%nat in let M := INR (n0 * n1 * n2) in
  exists count : nat -> nat, (forall k, (k < K)%nat -> (1 <= count k)%nat) /\ rsum K (fun k => INR (count k)) = M - 1 /\
    forall arr freqs ps err p, threeD_pspec 3 (n0, n1, n2) arr = Ok (freqs, ps, err) -> (forall k, (k < K)%nat -> nth k ps NaN = Fin (p k)) ->
      rsum K (fun k => INR (count k) * p k) = M * sum3 n0 n1 n2 (fun i j k => arr i j k ^ 2) - sum3 n0 n1 n2 arr ^ 2.
Proof.
  intros P0 P1 P2 N3. cbv zeta. destruct (threeD_total n0 n1 n2 P0 P1 P2 N3) as [count [C1 [C2 C3]]]. exists count. split; [exact C1 |]. split; [exact C2 |].
  intros arr freqs ps err p H V. unfold sum3. rewrite <- (C3 arr freqs ps err H). apply rsum_ext. intros k K. rewrite (V k K). reflexivity.
Qed.
