From Coq Require Import String Reals List ZArith Lia Lra Arith Bool.
From Verif Require Import Lib.PyBase Lib.PySlice Lib.Arr Lib.Fl Lib.RSum
  Spec.Blank Model.StatsUtils Spec.Grid Proofs.Fl_Proofs.
Import ListNotations.
Local Open Scope R_scope.

(** ** Kullback-Leibler *)

Lemma ln_le_sub1 x : 0 < x -> ln x <= x - 1.
Proof.
  intros H. destruct (Req_dec x 1) as [->|Hne]; [rewrite ln_1; lra|].
  assert (Hl : ln x <> 0).
  { intros E. apply Hne. apply ln_inv; try lra. now rewrite ln_1. }
  pose proof (exp_ineq1 (ln x) Hl) as E. rewrite exp_ln in E by auto. lra.
Qed.

Lemma ln_lt_sub1 x : 0 < x -> x <> 1 -> ln x < x - 1.
Proof.
  intros H Hne.
  assert (Hl : ln x <> 0).
  { intros E. apply Hne. apply ln_inv; try lra. now rewrite ln_1. }
  pose proof (exp_ineq1 (ln x) Hl) as E. rewrite exp_ln in E by auto. lra.
Qed.

Lemma gibbs_term p q : 0 < p -> 0 < q -> p - q <= p * ln (p / q).
Proof.
  intros Hp Hq. assert (H : 0 < q / p) by (apply Rdiv_lt_0_compat; auto).
  pose proof (ln_le_sub1 _ H) as L.
  replace (p / q) with (/ (q / p)) by (field; lra). rewrite ln_Rinv by auto.
  assert (p * (q / p - 1) = q - p) by (field; lra). nra.
Qed.

Lemma gibbs_term_strict p q : 0 < p -> 0 < q -> p <> q -> p - q < p * ln (p / q).
Proof.
  intros Hp Hq Hne. assert (H : 0 < q / p) by (apply Rdiv_lt_0_compat; auto).
  assert (Hn1 : q / p <> 1).
  { intros E. apply Hne. replace q with (q / p * p) by (field; lra). rewrite E. ring. }
  pose proof (ln_lt_sub1 _ H Hn1) as L.
  replace (p / q) with (/ (q / p)) by (field; lra). rewrite ln_Rinv by auto.
  assert (p * (q / p - 1) = q - p) by (field; lra). nra.
Qed.

Lemma filter_map_Fin_nan l : filter (fun v => negb (is_nan v)) (map Fin l) = map Fin l.
Proof. induction l as [|a l IH]; cbn; [reflexivity|now rewrite IH]. Qed.
Lemma filter_map_Fin_fin l : filter is_fin (map Fin l) = map Fin l.
Proof. induction l as [|a l IH]; cbn; [reflexivity|now rewrite IH]. Qed.

Lemma flog_pos a : 0 < a -> flog (Fin a) = Fin (ln a).
Proof. intros H. cbn. destruct (Rltb_spec 0 a); [reflexivity|contradiction]. Qed.

Lemma map2_map_Fin (f : fl -> fl -> fl) (g : R -> R -> R) P Q :
  (forall p q, In p P -> In q Q -> f (Fin p) (Fin q) = Fin (g p q)) ->
  map2 f (map Fin P) (map Fin Q) = map Fin (map2 g P Q).
Proof.
  revert Q; induction P as [|p P IH]; intros [|q Q] H; cbn; auto.
  rewrite H by now left. rewrite IH; auto. intros; apply H; now right.
Qed.

Lemma kl_value P Q : length P = length Q ->
  (forall p, In p P -> 0 < p) -> (forall q, In q Q -> 0 < q) ->
  kl_divergence (map Fin P) (map Fin Q) = Ok (Fin (lsum (map2 (fun p q => p * ln (p / q)) P Q))).
Proof.
  intros Hl HP HQ. unfold kl_divergence.
  rewrite !filter_map_Fin_nan, !filter_map_Fin_fin, !map_length, Hl, Nat.eqb_refl. f_equal.
  rewrite (map2_map_Fin _ (fun p q => p * ln (p / q))).
  - rewrite nansum_fins by apply blankable_map_Fin. now rewrite fins_map_Fin.
  - intros p q Hp Hq. specialize (HP p Hp). specialize (HQ q Hq). cbn [feqb].
    destruct (Reqb_spec q 0); [lra|]. rewrite fdiv_fin, flog_pos by (auto; apply Rdiv_lt_0_compat; auto).
    reflexivity.
Qed.

Lemma lsum_map2_minus P Q : length P = length Q ->
  lsum (map2 (fun p q => p - q) P Q) = lsum P - lsum Q.
Proof.
  revert Q; induction P as [|p P IH]; intros [|q Q] H; cbn in H; try discriminate; [cbn; lra|].
  cbn [map2]. rewrite !lsum_cons, IH by lia. lra.
Qed.

Lemma gibbs P Q : length P = length Q ->
  (forall p, In p P -> 0 < p) -> (forall q, In q Q -> 0 < q) ->
  lsum P - lsum Q <= lsum (map2 (fun p q => p * ln (p / q)) P Q) /\
  (lsum (map2 (fun p q => p * ln (p / q)) P Q) = lsum P - lsum Q -> P = Q).
Proof.
  revert Q; induction P as [|p P IH]; intros [|q Q] Hl HP HQ; cbn in Hl; try discriminate.
  - cbn. split; [lra|auto].
  - destruct (IH Q) as [L E]; [lia|intros; apply HP; now right|intros; apply HQ; now right|].
    cbn [map2]. rewrite !lsum_cons.
    assert (Hp : 0 < p) by (apply HP; now left). assert (Hq : 0 < q) by (apply HQ; now left).
    pose proof (gibbs_term p q Hp Hq). split; [lra|].
    intros Eq. destruct (Req_dec p q) as [->|Hne].
    + f_equal. apply E. lra.
    + pose proof (gibbs_term_strict p q Hp Hq Hne). lra.
Qed.

Lemma kl_nonneg P Q : length P = length Q ->
  (forall p, In p P -> 0 < p) -> (forall q, In q Q -> 0 < q) -> lsum P = 1 -> lsum Q = 1 ->
  exists d, kl_divergence (map Fin P) (map Fin Q) = Ok (Fin d) /\ 0 <= d /\ (d = 0 <-> P = Q).
Proof.
  intros Hl HP HQ SP SQ. rewrite kl_value by auto. eexists; split; [reflexivity|].
  destruct (gibbs P Q Hl HP HQ) as [L E]. split; [lra|]. split.
  - intros H. apply E. lra.
  - intros <-. clear -HP. induction P as [|p P IH]; [reflexivity|]. cbn [map2]. rewrite lsum_cons, IH.
    + replace (p / p) with 1; [rewrite ln_1; ring|].
      assert (0 < p) by (apply HP; now left). field; lra.
    + intros; apply HP; now right.
Qed.

Lemma kl_misaligned :
  kl_divergence [NaN; Fin (1/2); Fin (1/2)] [Fin (9/10); NaN; Fin (1/10)]
  <> kl_divergence (map Fin (map fst (valid_pairs [NaN; Fin (1/2); Fin (1/2)] [Fin (9/10); NaN; Fin (1/10)])))
                   (map Fin (map snd (valid_pairs [NaN; Fin (1/2); Fin (1/2)] [Fin (9/10); NaN; Fin (1/10)]))).
Proof.
  replace (kl_divergence [NaN; Fin (1/2); Fin (1/2)] [Fin (9/10); NaN; Fin (1/10)])
    with (kl_divergence (map Fin [1/2; 1/2]) (map Fin [9/10; 1/10])) by reflexivity.
  replace (map fst (valid_pairs _ _)) with [1/2] by reflexivity.
  replace (map snd (valid_pairs _ _)) with [1/10] by reflexivity.
  rewrite !kl_value; cbn; try reflexivity; try (intros ? [<-|[<-|[]]]; lra); try (intros ? [<-|[]]; lra).
  intros E. injection E as E.
  assert (ln (1 / 2 / (9 / 10)) = 0) by lra.
  assert (H1 : 1 / 2 / (9 / 10) = 1).
  { apply ln_inv; try lra. rewrite ln_1; auto. }
  lra.
Qed.

(** ** Padding *)

Lemma fold_upd_length {A} (v : A) idx : forall l, length (fold_left (fun acc i => upd acc i v) idx l) = length l.
Proof. induction idx as [|i idx IH]; intros l; cbn; [reflexivity|]. now rewrite IH, upd_length. Qed.

Lemma fold_upd_nth {A} (v d : A) idx : forall l j, (forall i, In i idx -> (i < length l)%nat) ->
  nth j (fold_left (fun acc i => upd acc i v) idx l) d = if existsb (Nat.eqb j) idx then v else nth j l d.
Proof.
  induction idx as [|i idx IH]; intros l j H; cbn [fold_left existsb]; [reflexivity|].
  rewrite IH by (intros; rewrite upd_length; apply H; now right).
  rewrite upd_nth by (apply H; now left). rewrite (Nat.eqb_sym j i).
  destruct (Nat.eqb i j); cbn; [|reflexivity]. destruct (existsb (Nat.eqb j) idx); reflexivity.
Qed.

Lemma existsb_seq j s k : existsb (Nat.eqb j) (seq s k) = (Nat.leb s j && Nat.ltb j (s + k))%bool.
Proof.
  revert s; induction k as [|k IH]; intros s; cbn [seq existsb].
  - destruct (Nat.leb_spec s j), (Nat.ltb_spec j (s + 0)); cbn; auto; lia.
  - rewrite IH. destruct (Nat.eqb_spec j s), (Nat.leb_spec (S s) j), (Nat.ltb_spec j (S s + k)),
      (Nat.leb_spec s j), (Nat.ltb_spec j (s + S k)); cbn; auto; lia.
Qed.

Lemma padwith_nth {A} (v d : A) vec p0 p1 j : (1 <= p1)%nat -> (j < length vec)%nat ->
  nth j (padwith v vec p0 p1) d =
  if (Nat.ltb j p0 || Nat.leb (length vec - p1) j)%bool then v else nth j vec d.
Proof.
  intros H1 Hj. unfold padwith.
  rewrite fold_upd_nth, fold_upd_nth.
  - rewrite fold_upd_length. rewrite slice_idx_to, slice_idx_last by auto.
    rewrite !existsb_seq.
    destruct (Nat.leb_spec (length vec - p1) j), (Nat.ltb_spec j (length vec - p1 + Nat.min p1 (length vec))),
      (Nat.leb_spec 0 j), (Nat.ltb_spec j (0 + Nat.min p0 (length vec))), (Nat.ltb_spec j p0); cbn; auto; try lia.
  - intros i Hi. apply slice_idx_in in Hi; [exact Hi|lia].
  - intros i Hi. apply slice_idx_in in Hi; [exact Hi|lia].
Qed.

Lemma padwith_length {A} (v : A) vec p0 p1 : length (padwith v vec p0 p1) = length vec.
Proof. unfold padwith. now rewrite !fold_upd_length. Qed.

(** A zero right pad width wipes the whole vector. *)
Lemma padwith_zero_right {A} (v : A) vec p0 : padwith v vec p0 0 = repeat v (length vec).
Proof.
  apply nth_ext with (d := v) (d' := v); [now rewrite padwith_length, repeat_length|].
  rewrite padwith_length. intros j Hj. rewrite nth_repeat. unfold padwith.
  rewrite fold_upd_nth.
  - rewrite fold_upd_length. change (- Z.of_nat 0)%Z with (Z.of_nat 0). rewrite slice_idx_from.
    rewrite existsb_seq. destruct (Nat.leb_spec 0 j), (Nat.ltb_spec j (0 + (length vec - 0))); cbn; auto; lia.
  - intros i Hi. apply slice_idx_in in Hi; [exact Hi|lia].
Qed.

(** ** common_scale *)


Lemma common_scale_ok g1 g2 tol :
  common_scale g1 g2 tol =
  if distorted g1 then Err WcsError else if distorted g2 then Err WcsError
  else if Rltb tol (Rabs (Rabs (scale0 g1) - Rabs (scale1 g1))) then Err ValueError
  else if Rltb tol (Rabs (Rabs (scale0 g2) - Rabs (scale1 g2))) then Err ValueError
  else Ok (Rabs (scale0 g2) / Rabs (scale0 g1)).
Proof. reflexivity. Qed.

Lemma common_scale_square g1 g2 tol : square tol g1 -> square tol g2 ->
  common_scale g1 g2 tol = Ok (Rabs (scale0 g2) / Rabs (scale0 g1)).
Proof.
  intros [D1 S1] [D2 S2]. rewrite common_scale_ok, D1, D2.
  destruct (Rltb_spec tol (Rabs (Rabs (scale0 g1) - Rabs (scale1 g1)))); [lra|].
  destruct (Rltb_spec tol (Rabs (Rabs (scale0 g2) - Rabs (scale1 g2)))); [lra|]. reflexivity.
Qed.

Lemma common_scale_defined g1 g2 tol :
  (exists s, common_scale g1 g2 tol = Ok s) <-> square tol g1 /\ square tol g2.
Proof.
  split.
  - intros [s H]. rewrite common_scale_ok in H. unfold square.
    destruct (distorted g1); [discriminate|]. destruct (distorted g2); [discriminate|].
    destruct (Rltb_spec tol (Rabs (Rabs (scale0 g1) - Rabs (scale1 g1)))); [discriminate|].
    destruct (Rltb_spec tol (Rabs (Rabs (scale0 g2) - Rabs (scale1 g2)))); [discriminate|].
    repeat split; auto; lra.
  - intros [H1 H2]. rewrite common_scale_square; eauto.
Qed.

(** ** Histogram bins *)

Lemma linspace_length a b n : length (linspace a b n) = n.
Proof. destruct n as [|[|n]]; auto. unfold linspace. apply tab1_length. Qed.

Lemma linspace_nth a b n i : (2 <= n)%nat -> (i < n)%nat ->
  nth i (linspace a b n) 0 = a + INR i * ((b - a) / INR (n - 1)).
Proof.
  intros Hn Hi. destruct n as [|[|n]]; try lia. unfold linspace. rewrite tab1_nth by auto.
  repeat f_equal.
Qed.

Lemma linspace_first a b n : (1 <= n)%nat -> nth 0 (linspace a b n) 0 = a.
Proof.
  intros Hn. destruct n as [|[|n]]; try lia; [reflexivity|].
  rewrite linspace_nth by lia. cbn [INR]. ring.
Qed.

Lemma linspace_last a b n : (2 <= n)%nat -> nth (n - 1) (linspace a b n) 0 = b.
Proof.
  intros Hn. rewrite linspace_nth by lia. field. apply not_0_INR. lia.
Qed.

Lemma linspace_step a b n i : (2 <= n)%nat -> (S i < n)%nat ->
  nth (S i) (linspace a b n) 0 - nth i (linspace a b n) 0 = (b - a) / INR (n - 1).
Proof. intros Hn Hi. rewrite !linspace_nth by lia. rewrite S_INR. ring. Qed.

Lemma logspace_length a b n : length (logspace10 a b n) = n.
Proof. unfold logspace10. now rewrite map_length, linspace_length. Qed.

Lemma ln10_pos : 0 < ln 10.
Proof. rewrite <- ln_1. apply ln_increasing; lra. Qed.

Lemma logspace_nth a b n i : (2 <= n)%nat -> (i < n)%nat ->
  nth i (logspace10 a b n) 0 = exp (nth i (linspace (ln a) (ln b) n) 0).
Proof.
  intros Hn Hi. unfold logspace10.
  rewrite nth_indep with (d' := Rpower 10 0) by (rewrite map_length, linspace_length; auto).
  rewrite (map_nth (fun e => Rpower 10 e)). rewrite !linspace_nth by auto.
  unfold Rpower. f_equal. pose proof ln10_pos. field.
  split; [apply not_0_INR; lia|lra].
Qed.

Lemma logspace_first a b n : (2 <= n)%nat -> 0 < a -> nth 0 (logspace10 a b n) 0 = a.
Proof. intros. rewrite logspace_nth, linspace_first by lia. now apply exp_ln. Qed.
Lemma logspace_last a b n : (2 <= n)%nat -> 0 < b -> nth (n - 1) (logspace10 a b n) 0 = b.
Proof. intros. rewrite logspace_nth, linspace_last by lia. now apply exp_ln. Qed.
Lemma logspace_ratio a b n i : (2 <= n)%nat -> (S i < n)%nat -> 0 < a -> 0 < b ->
  nth (S i) (logspace10 a b n) 0 = nth i (logspace10 a b n) 0 * exp (ln (b / a) / INR (n - 1)).
Proof.
  intros Hn Hi Ha Hb. rewrite !logspace_nth by lia. rewrite <- exp_plus. f_equal.
  pose proof (linspace_step (ln a) (ln b) n i Hn Hi) as E.
  unfold Rdiv at 2. rewrite ln_mult, ln_Rinv by (auto; apply Rinv_0_lt_compat; auto).
  unfold Rminus in E |- *. lra.
Qed.

Lemma centers_nth bins i : (S i < length bins)%nat ->
  nth i (centers bins) 0 = (nth i bins 0 + nth (S i) bins 0) / 2.
Proof.
  intros Hi. unfold centers.
  assert (E1 : slice None (Some (-1)%Z) 1 bins = tab1 (length bins - 1) (fun k => nth k bins 0)).
  { rewrite (slice_map 0) by lia. change (-1)%Z with (- Z.of_nat 1)%Z.
    rewrite slice_idx_butlast by lia. reflexivity. }
  assert (E2 : slice (Some 1%Z) None 1 bins = tab1 (length bins - 1) (fun k => nth (S k) bins 0)).
  { rewrite (slice_map 0) by lia. change 1%Z with (Z.of_nat 1) at 1. rewrite slice_idx_from.
    unfold tab1. rewrite <- seq_shift, map_map. reflexivity. }
  rewrite E1, E2.
  rewrite (map2_nth _ _ _ i 0 0) by (rewrite tab1_length; lia).
  now rewrite !tab1_nth by lia.
Qed.

Lemma centers_length bins : length (centers bins) = (length bins - 1)%nat.
Proof.
  unfold centers. rewrite map2_length.
  rewrite (slice_map 0), (slice_map 0) by lia. rewrite !map_length.
  change 1%Z with (Z.of_nat 1) at 2. rewrite slice_idx_from, seq_length.
  change (-1)%Z with (- Z.of_nat 1)%Z. rewrite slice_idx_butlast, seq_length by lia. lia.
Qed.

(** The limits used by common_histogram_bins. *)
Lemma limits_spec d1 d2 : Forall blankable d1 -> Forall blankable d2 -> fins d1 <> [] -> fins d2 <> [] ->
  exists lo hi, fmin2 (nanmin d1) (nanmin d2) = Fin lo /\ fmax2 (nanmax d1) (nanmax d2) = Fin hi /\
    is_min lo (fins d1 ++ fins d2) /\ is_max hi (fins d1 ++ fins d2).
Proof.
  intros H1 H2 N1 N2.
  destruct (nanmin_spec d1 H1 N1) as [a [Ea [Ia La]]]. destruct (nanmin_spec d2 H2 N2) as [b [Eb [Ib Lb]]].
  destruct (nanmax_spec d1 H1 N1) as [c [Ec [Ic Lc]]]. destruct (nanmax_spec d2 H2 N2) as [e [Ee [Ie Le]]].
  rewrite Ea, Eb, Ec, Ee. unfold fmin2, fmax2. cbn [fltb].
  assert (HA : exists lo, (if Rltb b a then Fin b else Fin a) = Fin lo /\ is_min lo (fins d1 ++ fins d2)).
  { destruct (Rltb_spec b a); eexists; (split; [reflexivity|]); (split; [apply in_or_app; auto|]);
      intros y Hy; apply in_app_or in Hy; destruct Hy as [Hy|Hy];
      try apply La in Hy; try apply Lb in Hy; lra. }
  assert (HB : exists hi, (if Rltb c e then Fin e else Fin c) = Fin hi /\ is_max hi (fins d1 ++ fins d2)).
  { destruct (Rltb_spec c e); eexists; (split; [reflexivity|]); (split; [apply in_or_app; auto|]);
      intros y Hy; apply in_app_or in Hy; destruct Hy as [Hy|Hy];
      try apply Lc in Hy; try apply Le in Hy; lra. }
  destruct HA as [lo [E1 I1]], HB as [hi [E2 I2]]. exists lo, hi. auto.
Qed.


Lemma common_bins_spec n1 n2 d1 d2 (nbins : option nat) (logscale : bool) mn mx :
  (n1 <= 1)%nat -> (n2 <= 1)%nat ->
  Forall blankable d1 -> Forall blankable d2 -> fins d1 <> [] -> fins d2 <> [] ->
  exists lo hi, is_min lo (fins d1 ++ fins d2) /\ is_max hi (fins d1 ++ fins d2) /\
    let nb := match nbins with Some k => k
              | None => Z.to_nat (Int_part (sqrt (INR (length d1 + length d2) / 2))) end in
    let bins := if logscale then logspace10 (clip_lo mn lo) (clip_hi mx hi) nb
                else linspace (clip_lo mn lo) (clip_hi mx hi) nb in
    common_histogram_bins n1 n2 d1 d2 nbins logscale mn mx = Ok (Some (bins, centers bins)).
Proof.
  intros D1 D2 H1 H2 N1 N2. destruct (limits_spec d1 d2 H1 H2 N1 N2) as [lo [hi [E1 [E2 [I1 I2]]]]].
  exists lo, hi. split; [exact I1|]. split; [exact I2|]. cbv zeta.
  unfold common_histogram_bins.
  destruct (Nat.ltb_spec 1 n1); [lia|]. destruct (Nat.ltb_spec 1 n2); [lia|]. cbn [orb]. cbv zeta.
  rewrite E1, E2.
  replace (match mn with Some v => fmax2 (Fin lo) (Fin v) | None => Fin lo end) with (Fin (clip_lo mn lo)).
  2:{ destruct mn as [v|]; [|reflexivity]. unfold clip_lo, fmax2. cbn [fltb].
      destruct (Rltb_spec lo v); f_equal; [apply Rmax_right|apply Rmax_left]; lra. }
  replace (match mx with Some v => fmin2 (Fin hi) (Fin v) | None => Fin hi end) with (Fin (clip_hi mx hi)).
  2:{ destruct mx as [v|]; [|reflexivity]. unfold clip_hi, fmin2. cbn [fltb].
      destruct (Rltb_spec v hi); f_equal; [apply Rmin_right|apply Rmin_left]; lra. }
  reflexivity.
Qed.

(** ** Statements in the form used by the property files *)

(** Edges and centres of the returned bins, in terms of the two data sets only. *)
Lemma common_bins_linear n1 n2 d1 d2 k mn mx :
  (n1 <= 1)%nat -> (n2 <= 1)%nat -> (2 <= k)%nat ->
  Forall blankable d1 -> Forall blankable d2 -> fins d1 <> [] -> fins d2 <> [] ->
  exists lo hi bins cents,
    is_min lo (fins d1 ++ fins d2) /\ is_max hi (fins d1 ++ fins d2) /\
    common_histogram_bins n1 n2 d1 d2 (Some k) false mn mx = Ok (Some (bins, cents)) /\
    length bins = k /\ length cents = (k - 1)%nat /\
    nth 0 bins 0 = clip_lo mn lo /\ nth (k - 1) bins 0 = clip_hi mx hi /\
    (forall i, (S i < k)%nat ->
       nth (S i) bins 0 - nth i bins 0 = (clip_hi mx hi - clip_lo mn lo) / INR (k - 1) /\
       nth i cents 0 = (nth i bins 0 + nth (S i) bins 0) / 2).
Proof.
  intros D1 D2 Hk H1 H2 N1 N2.
  destruct (common_bins_spec n1 n2 d1 d2 (Some k) false mn mx D1 D2 H1 H2 N1 N2) as [lo [hi [I1 [I2 E]]]].
  cbv zeta in E. exists lo, hi. eexists. eexists. split; [exact I1|]. split; [exact I2|]. split; [exact E|].
  rewrite centers_length, linspace_length, linspace_first, linspace_last by lia.
  repeat split; auto; intros.
  - apply linspace_step; lia.
  - apply centers_nth. now rewrite linspace_length.
Qed.

Lemma common_bins_log n1 n2 d1 d2 k mn mx :
  (n1 <= 1)%nat -> (n2 <= 1)%nat -> (2 <= k)%nat ->
  Forall blankable d1 -> Forall blankable d2 -> fins d1 <> [] -> fins d2 <> [] ->
  (forall lo hi, is_min lo (fins d1 ++ fins d2) -> is_max hi (fins d1 ++ fins d2) ->
     0 < clip_lo mn lo /\ 0 < clip_hi mx hi) ->
  exists lo hi bins cents,
    is_min lo (fins d1 ++ fins d2) /\ is_max hi (fins d1 ++ fins d2) /\
    common_histogram_bins n1 n2 d1 d2 (Some k) true mn mx = Ok (Some (bins, cents)) /\
    length bins = k /\ length cents = (k - 1)%nat /\
    nth 0 bins 0 = clip_lo mn lo /\ nth (k - 1) bins 0 = clip_hi mx hi /\
    (forall i, (S i < k)%nat ->
       nth (S i) bins 0 = nth i bins 0 * exp (ln (clip_hi mx hi / clip_lo mn lo) / INR (k - 1)) /\
       nth i cents 0 = (nth i bins 0 + nth (S i) bins 0) / 2).
Proof.
  intros D1 D2 Hk H1 H2 N1 N2 HP.
  destruct (common_bins_spec n1 n2 d1 d2 (Some k) true mn mx D1 D2 H1 H2 N1 N2) as [lo [hi [I1 [I2 E]]]].
  destruct (HP lo hi I1 I2) as [P1 P2].
  cbv zeta in E. exists lo, hi. eexists. eexists. split; [exact I1|]. split; [exact I2|]. split; [exact E|].
  rewrite centers_length, logspace_length, logspace_first, logspace_last by (lia || auto).
  repeat split; auto; intros.
  - apply logspace_ratio; auto.
  - apply centers_nth. now rewrite logspace_length.
Qed.

(** The default number of edges is floor(sqrt(mean size)). *)
Lemma common_bins_default n1 n2 d1 d2 ls mn mx :
  (1 <= length d1 + length d2)%nat ->
  exists k, common_histogram_bins n1 n2 d1 d2 None ls mn mx = common_histogram_bins n1 n2 d1 d2 (Some k) ls mn mx /\
    (2 * (k * k) <= length d1 + length d2)%nat /\ (length d1 + length d2 < 2 * (S k * S k))%nat.
Proof.
  intros Hs. set (s := sqrt (INR (length d1 + length d2) / 2)).
  exists (Z.to_nat (Int_part s)). split; [reflexivity|].
  assert (Hs0 : 0 <= s) by apply sqrt_pos.
  pose proof (base_Int_part s) as [B1 B2].
  assert (Hz : (0 <= Int_part s)%Z).
  { apply Z.lt_succ_r. apply lt_IZR. rewrite succ_IZR. lra. }
  set (k := Z.to_nat (Int_part s)).
  assert (Ek : INR k = IZR (Int_part s)) by (unfold k; rewrite INR_IZR_INZ, Z2Nat.id by auto; reflexivity).
  assert (Hsq : s * s = INR (length d1 + length d2) / 2).
  { unfold s. apply sqrt_sqrt. pose proof (pos_INR (length d1 + length d2)). lra. }
  assert (Hk0 : 0 <= INR k) by apply pos_INR.
  rewrite <- Ek in B1, B2.
  assert (L1 : INR k * INR k <= s * s) by (apply Rmult_le_compat; lra).
  assert (L2 : s * s < (INR k + 1) * (INR k + 1)) by (apply Rmult_le_0_lt_compat; lra).
  split.
  - apply INR_le. rewrite !mult_INR. replace (INR 2) with 2 by (cbn; ring). lra.
  - apply INR_lt. rewrite !mult_INR, (S_INR k). replace (INR 2) with 2 by (cbn; ring). lra.
Qed.

Lemma common_bins_dims n1 n2 d1 d2 nb ls mn mx :
  common_histogram_bins n1 n2 d1 d2 nb ls mn mx = Err ValueError <-> (1 < n1)%nat \/ (1 < n2)%nat.
Proof.
  unfold common_histogram_bins.
  destruct (Nat.ltb_spec 1 n1), (Nat.ltb_spec 1 n2); cbn [orb]; split; intros; auto; try lia.
  cbv zeta in *. exfalso. destruct mn, mx, nb;
    repeat match goal with H : context [match ?x with Fin _ => _ | _ => _ end] |- _ => destruct x end; discriminate.
Qed.

Lemma common_scale_laws a b c tol : square tol a -> square tol b -> square tol c ->
  scale0 a <> 0 -> scale0 b <> 0 -> scale0 c <> 0 ->
  exists ab ba bc ac, common_scale a b tol = Ok ab /\ common_scale b a tol = Ok ba /\
    common_scale b c tol = Ok bc /\ common_scale a c tol = Ok ac /\
    common_scale a a tol = Ok 1 /\ ab * ba = 1 /\ ac = ab * bc /\ 0 < ab.
Proof.
  intros Ha Hb Hc Za Zb Zc. rewrite !common_scale_square by auto.
  assert (A : 0 < Rabs (scale0 a)) by (apply Rabs_pos_lt; auto).
  assert (B : 0 < Rabs (scale0 b)) by (apply Rabs_pos_lt; auto).
  do 4 eexists. repeat split; try reflexivity.
  - f_equal. field. lra.
  - field. lra.
  - field. lra.
  - apply Rdiv_lt_0_compat; auto.
Qed.
