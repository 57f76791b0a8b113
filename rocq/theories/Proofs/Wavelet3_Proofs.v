(** Proofs about the wavelet transform: scales and fits. *)
From Coq Require Import Reals List ZArith Arith Bool Lia Lra.
From Verif Require Import Lib.PyBase Lib.Arr Lib.RSum Lib.Fl Spec.Blank Spec.Bins Spec.Units Spec.MexHat Model.Units Model.StatsUtils Model.Scf Model.Psds Model.DeltaVar Model.BaseStat Model.Wavelet
  Proofs.Psds2_Proofs Proofs.StatsUtils2_Proofs Proofs.DeltaVar2_Proofs Proofs.BaseStat_Proofs Proofs.Wavelet2_Proofs.
Import ListNotations.
Local Open Scope R_scope.

Lemma exp_le x y : x <= y -> exp x <= exp y.
Proof. intros [H| ->]; [left; apply exp_increasing; assumption|right; reflexivity]. Qed.
Lemma logspace10_bounds a b n l : 0 < a -> 0 < b -> (1 <= n)%nat -> In l (logspace10 a b n) -> Rmin a b <= l <= Rmax a b.
Proof.
  intros A B N H. destruct (Nat.eq_dec n 1) as [->|M].
  - cbn in H. destruct H as [<-|[]]. unfold Rpower, Rdiv. rewrite Rmult_assoc, Rinv_l by (pose proof ln10_pos; lra). rewrite Rmult_1_r, exp_ln by assumption.
    split; [apply Rmin_l|apply Rmax_l].
  - apply (In_nth _ _ 0) in H. destruct H as [i [I <-]]. rewrite logspace_length in I. rewrite logspace_nth, linspace_nth by lia.
    set (m := INR (n - 1)). assert (P : 0 < m) by (apply (lt_INR 0); lia). set (t := INR i / m).
    assert (T : 0 <= t <= 1).
    { split; [apply Rmult_le_pos; [apply pos_INR|left; apply Rinv_0_lt_compat; assumption]|]. apply Rmult_le_reg_r with m; [assumption|]. unfold t, Rdiv.
      rewrite Rmult_assoc, Rinv_l by lra. rewrite Rmult_1_r, Rmult_1_l. apply le_INR. lia. }
    replace (ln a + INR i * ((ln b - ln a) / m)) with (ln a + t * (ln b - ln a)) by (unfold t; field; lra).
    assert (Q : forall u v, 0 < u -> 0 < v -> u <= v -> u <= exp (ln u + t * (ln v - ln u)) <= v /\ u <= exp (ln v + t * (ln u - ln v)) <= v).
    { intros u v U V L. assert (ln u <= ln v) by (destruct L as [L| ->]; [left; apply ln_increasing; assumption|lra]).
      assert (0 <= t * (ln v - ln u) <= ln v - ln u) by nra.
      pose proof (exp_ln u U) as EU. pose proof (exp_ln v V) as EV.
      assert (G : forall w, ln u <= w <= ln v -> u <= exp w <= v).
      { intros w [W1 W2]. apply exp_le in W1. apply exp_le in W2. lra. }
      split; apply G; nra. }
    destruct (Rle_dec a b) as [L|L].
    + rewrite Rmin_left, Rmax_right by assumption. apply Q; assumption.
    + rewrite Rmin_right, Rmax_left by lra. apply Q; lra.
Qed.

Lemma set_ok s side q p : to_pixel s q = Ok p -> (forall l, In l (q_vals p) -> 1 <= l /\ IZR (Int_part l) <= INR side / 2) ->
  set_lags s side None (LagQuantity q) = (Some q, None).
Proof.
  intros T H. cbn [set_lags]. rewrite T. replace (lags_ok side (q_vals p)) with true; [reflexivity|]. symmetry. apply lags_ok_iff. intros l L. rewrite half_side. auto.
Qed.
Theorem default_scales s side num : (2 <= side)%nat -> (2 <= num)%nat ->
  exists l, wavelet_scales s side num None = (Some (mk_q l pix), None) /\ length l = num /\
  nth 0 l 0 = 1667 / 1000 /\ nth (num - 1) l 0 = INR side / 2 /\ (forall r, In r l -> 1 <= r) /\ ((4 <= side)%nat -> increasing l).
Proof.
  intros S N. exists (logspace10 (1667 / 1000) (INR side / 2) num). apply le_INR in S as S'. cbn [INR] in S'.
  assert (B : forall r, In r (logspace10 (1667 / 1000) (INR side / 2) num) -> Rmin (1667 / 1000) (INR side / 2) <= r <= Rmax (1667 / 1000) (INR side / 2))
    by (intros r; apply logspace10_bounds; lra || lia).
  assert (B1 : forall r, In r (logspace10 (1667 / 1000) (INR side / 2) num) -> 1 <= r).
  { intros r H. apply B in H. assert (1 <= Rmin (1667 / 1000) (INR side / 2)) by (apply Rmin_glb; lra). lra. }
  repeat split.
  - apply (set_ok s side _ (mk_q (logspace10 (1667 / 1000) (INR side / 2) num) pix)); [reflexivity|]. cbn [q_vals]. intros r H. split; [apply B1; assumption|].
    pose proof (base_Int_part r) as [I _]. apply B in H. destruct (Rle_dec (1667 / 1000) (INR side / 2)) as [L|L].
    + rewrite Rmax_right in H by assumption. lra.
    + rewrite Rmax_left in H by lra. assert (Int_part r <= 1)%Z by (assert (Int_part r < 2)%Z; [apply lt_IZR; lra|lia]).
      assert (IZR (Int_part r) <= 1) by (apply IZR_le; assumption). lra.
  - apply logspace_length.
  - apply logspace_first; [assumption|lra].
  - apply logspace_last; [assumption|lra].
  - assumption.
  - intros Q. apply logspace_increasing; [lra|]. apply le_INR in Q. cbn [INR] in Q. lra.
Qed.
Theorem default_scales_row s num : (2 <= num)%nat -> wavelet_scales s 1 num None = (None, Some ValueError).
Proof.
  intros N. unfold wavelet_scales. cbn [set_lags]. replace (to_pixel s _) with (Ok (mk_q (logspace10 (1667 / 1000) (INR 1 / 2) num) pix)) by reflexivity. cbn [q_vals].
  destruct (lags_ok 1 _) eqn:E; [|reflexivity]. exfalso. apply lags_ok_iff with (l := nth (num - 1) (logspace10 (1667 / 1000) (INR 1 / 2) num) 0) in E.
  - rewrite logspace_last in E; [|assumption|cbn [INR]; lra]. cbn [INR] in E. lra.
  - apply nth_In. rewrite logspace_length. lia.
Qed.

(** ** Fits *)
Lemma log10_le a b : 0 < a -> 0 < b -> Rleb (log10 a) (log10 b) = true <-> a <= b.
Proof.
  intros A B. unfold Rleb, log10. pose proof ln10_pos as T. destruct (Rle_dec (ln a / ln 10) (ln b / ln 10)) as [H|H]; split; try discriminate; try reflexivity.
  - intros _. apply Rmult_le_reg_r in H; [|apply Rinv_0_lt_compat; assumption]. destruct H as [H|H]; [left; apply ln_lt_inv; assumption|right; apply ln_inv; assumption].
  - intros L. exfalso. apply H. apply Rmult_le_compat_r; [left; apply Rinv_0_lt_compat; assumption|]. destruct L as [L| ->]; [left; apply ln_increasing; assumption|lra].
Qed.
Lemma only_filter {A} (P : A -> Prop) f l : (forall a, In a l -> f a = true <-> P a) -> only P l (filter f l).
Proof.
  induction l as [|a l IH]; intros H; [constructor|]. cbn [filter]. assert (K : only P l (filter f l)) by (apply IH; intros; apply H; right; assumption).
  specialize (H a (or_introl eq_refl)). destruct (f a).
  - constructor; [apply H; reflexivity|assumption].
  - constructor; [|assumption]. intros Q. apply H in Q. discriminate.
Qed.
Lemma fold_min x l y : (y = x \/ In y l) -> fold_right Rmin x l <= y.
Proof.
  induction l as [|a l IH]; intros H; cbn [fold_right].
  - destruct H as [->|[]]. lra.
  - destruct H as [H|[->|H]]; [eapply Rle_trans; [apply Rmin_r|]; apply IH; auto|apply Rmin_l|eapply Rle_trans; [apply Rmin_r|]; apply IH; auto].
Qed.
Lemma fold_max x l y : (y = x \/ In y l) -> y <= fold_right Rmax x l.
Proof.
  induction l as [|a l IH]; intros H; cbn [fold_right].
  - destruct H as [->|[]]. lra.
  - destruct H as [H|[->|H]]; [eapply Rle_trans; [|apply Rmax_r]; apply IH; auto|apply Rmax_l|eapply Rle_trans; [|apply Rmax_r]; apply IH; auto].
Qed.

Lemma min_list_le l y : In y l -> rmin_list l <= y.
Proof. destruct l as [|x l]; [intros []|]. intros H. apply fold_min. destruct H as [->|H]; auto. Qed.
Lemma max_list_ge l y : In y l -> y <= rmax_list l.
Proof. destruct l as [|x l]; [intros []|]. intros H. apply fold_max. destruct H as [->|H]; auto. Qed.

Lemma keep_iff lo hi s : 0 < s -> (forall l, lo = Some l -> 0 < l) -> (forall h, hi = Some h -> 0 < h) ->
  (match lo with Some l => Rleb (log10 l) (log10 s) | None => true end && match hi with Some h => Rleb (log10 s) (log10 h) | None => true end)%bool = true <-> above lo s /\ below hi s.
Proof.
  intros S L H. rewrite andb_true_iff. unfold above, below.
  destruct lo as [l|], hi as [h|]; rewrite ?log10_le by auto; intuition auto.
Qed.
Theorem fitted_rule scales lo hi : scales <> [] -> (forall s, In s scales -> 0 < s) -> (forall l, lo = Some l -> 0 < l) -> (forall h, hi = Some h -> 0 < h) ->
  (exists l, fitted_scales scales lo hi None = Ok l /\ only (fun s => above lo s /\ below hi s) scales l) /\
  (forall b, (exists s, In s scales /\ s <= b) -> (exists s, In s scales /\ b <= s) -> above lo b -> below hi b ->
     fitted_scales scales lo hi (Some b) = fitted_scales scales lo hi None) /\
  (forall b l, lo = Some l -> b < l -> fitted_scales scales lo hi (Some b) = Err ValueError) /\
  (forall b h, hi = Some h -> h < b -> fitted_scales scales lo hi (Some b) = Err ValueError).
Proof.
  intros N P L H. split; [|split; [|split]].
  - eexists. split; [reflexivity|]. apply only_filter. intros s S. apply keep_iff; auto.
  - intros b [s [S1 S2]] [t [T1 T2]] A B. unfold fitted_scales. cbv zeta.
    assert (F : fst (fit_range scales lo hi) <= b).
    { unfold fit_range. cbn [fst]. destruct lo as [l|]; [exact A|]. pose proof (min_list_le scales s S1) as Q. pose proof (P s S1).
      assert (rmin_list scales * (99 / 100) <= s); [|lra]. destruct (Rle_dec 0 (rmin_list scales)); lra. }
    assert (G : b <= snd (fit_range scales lo hi)).
    { unfold fit_range. cbn [snd]. destruct hi as [h|]; [exact B|]. pose proof (max_list_ge scales t T1) as Q. pose proof (P t T1). lra. }
    unfold Rltb. destruct (Rlt_dec b (fst (fit_range scales lo hi))); [lra|]. destruct (Rlt_dec (snd (fit_range scales lo hi)) b); [lra|]. reflexivity.
  - intros b l -> B. unfold fitted_scales. cbv zeta. cbn [fit_range fst]. unfold Rltb at 1. destruct (Rlt_dec b l); [reflexivity|lra].
  - intros b h -> B. unfold fitted_scales. cbv zeta. cbn [fit_range snd]. unfold Rltb at 2. destruct (Rlt_dec h b); [|lra]. rewrite orb_true_r. reflexivity.
Qed.

Lemma only_unique {A} (P : A -> Prop) l l1 : only P l l1 -> forall l2, only P l l2 -> l1 = l2.
Proof.
  induction 1 as [|a l l' H K IH|a l l' H K IH]; intros l2 G; inversion G; subst; try contradiction; [reflexivity|f_equal; apply IH; assumption|apply IH; assumption].
Qed.
Theorem kept_below x b n l : only (fun v => v < b) x l -> (break_kept x b n = true <-> (n <= length l)%nat).
Proof.
  intros O. unfold break_kept. rewrite (only_unique _ _ _ O (filter (fun v => Rltb v b) x)).
  - rewrite negb_true_iff, Nat.ltb_ge. reflexivity.
  - apply only_filter. intros v _. unfold Rltb. destruct (Rlt_dec v b); intuition discriminate.
Qed.
Theorem kept_above n : (2 <= n)%nat -> exists x b l, increasing x /\ (exists lo hi, In lo x /\ In hi x /\ lo < b < hi) /\ break_kept x b n = true /\
  only (fun v => b < v) x l /\ (length l < n)%nat.
Proof.
  intros N. exists (map INR (seq 0 (n + 1))), (INR n - 1 / 2), [INR n].
  assert (E : map INR (seq 0 (n + 1)) = map INR (seq 0 n) ++ [INR n]).
  { rewrite seq_app, map_app. reflexivity. }
  assert (SM : forall v, In v (map INR (seq 0 n)) -> v < INR n - 1 / 2).
  { intros v V. apply in_map_iff in V. destruct V as [i [<- I]]. apply in_seq in I. assert (S i <= n)%nat as Q by lia. apply le_INR in Q. rewrite S_INR in Q. lra. }
  split; [|split; [|split; [|split]]].
  - intros i j J. rewrite map_length, seq_length in J. change 0 with (INR 0). rewrite !map_nth, !seq_nth by lia. apply lt_INR. lia.
  - exists (INR 0), (INR n). apply le_INR in N as N'. cbn [INR] in N' |- *.
    split; [apply in_map_iff; exists 0%nat; split; [reflexivity|apply in_seq; lia]|]. split; [apply in_map_iff; exists n; split; [reflexivity|apply in_seq; lia]|]. lra.
  - unfold break_kept. rewrite E, filter_app. rewrite app_length.
    assert (F : filter (fun v => Rltb v (INR n - 1 / 2)) (map INR (seq 0 n)) = map INR (seq 0 n)).
    { clear E. induction (map INR (seq 0 n)) as [|v l IH]; [reflexivity|]. cbn [filter]. rewrite IH by (intros; apply SM; right; assumption).
      unfold Rltb. destruct (Rlt_dec v (INR n - 1 / 2)) as [|Q]; [reflexivity|]. exfalso. apply Q, SM. left. reflexivity. }
    rewrite F, map_length, seq_length. rewrite negb_true_iff, Nat.ltb_ge. lia.
  - rewrite E. clear E. induction (map INR (seq 0 n)) as [|v l IH]; cbn [app].
    + constructor; [lra|constructor].
    + apply only_drop; [|apply IH; intros; apply SM; right; assumption]. assert (v < INR n - 1 / 2) by (apply SM; left; reflexivity). lra.
  - cbn [length]. lia.
Qed.

Theorem num_ignored s1 s2 side1 side2 num : (2 <= side1)%nat -> (2 <= side2)%nat ->
  exists q1 q2, distance_scales s1 s2 side1 side2 None num = Ok (q1, q2) /\ length (q_vals q1) = 50%nat /\ length (q_vals q2) = 50%nat.
Proof.
  intros A B. destruct (default_scales s1 side1 50 A ltac:(lia)) as (l1&E1&L1&_). destruct (default_scales s2 side2 50 B ltac:(lia)) as (l2&E2&L2&_).
  exists (mk_q l1 pix), (mk_q l2 pix). unfold distance_scales. cbv zeta. rewrite E1, E2. repeat split; assumption.
Qed.
