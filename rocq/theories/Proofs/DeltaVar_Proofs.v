(** Proofs about Model/DeltaVar.v: values and errors (C29, C86). *)
From Coq Require Import Reals List ZArith Lia Lra Arith Bool.
From Verif Require Import Lib.PyBase Lib.RSum Lib.Fl Lib.Arr Lib.ListMore Spec.Blank Spec.DeltaVar
  Model.StatsUtils Model.Scf Model.DeltaVar Proofs.Fl_Proofs Proofs.Scf_Proofs Proofs.Cov_Proofs.
Import ListNotations.
Local Open Scope R_scope.

(** ** Strict binary operations on blankable arrays *)
Lemma fins_map2_strict (F : fl -> fl -> fl) (g : R -> R -> R) a b :
  (forall x y, F (Fin x) (Fin y) = Fin (g x y)) -> (forall y, blankable y -> F NaN y = NaN) -> (forall x, F (Fin x) NaN = NaN) ->
  Forall blankable a -> Forall blankable b ->
  Forall blankable (map2 F a b) /\ fins (map2 F a b) = map (fun p => g (fst p) (snd p)) (valid_pairs a b).
Proof.
  intros H1 H2 H3. revert b. induction a as [|x a IH]; intros [|y b] Ha Hb; cbn [map2]; try (split; [constructor|reflexivity]).
  inversion Ha as [|? ? Hx Ha']; inversion Hb as [|? ? Hy Hb']; subst. destruct (IH b Ha' Hb') as [A B]. rewrite valid_pairs_cons.
  destruct x as [x| | |]; try contradiction.
  - destruct y as [y| | |]; try contradiction.
    + rewrite H1. split; [constructor; [exact I|exact A]|]. rewrite fins_cons_Fin, B. reflexivity.
    + rewrite H3. split; [constructor; [exact I|exact A]|]. now rewrite fins_cons_NaN, B.
  - rewrite H2 by auto. split; [constructor; [exact I|exact A]|]. rewrite fins_cons_NaN, B. destruct y; reflexivity.
Qed.

Lemma all_nan arr : Forall blankable arr -> fins arr = [] -> arr = repeat NaN (length arr).
Proof.
  induction arr as [|x arr IH]; intros H E; [reflexivity|]. inversion H; subst. destruct x; try contradiction.
  - rewrite fins_cons_Fin in E. discriminate.
  - rewrite fins_cons_NaN in E. cbn. f_equal. auto.
Qed.

Lemma nansum_all_nan n : nansum (repeat NaN n) = Fin 0.
Proof. induction n; cbn; auto. Qed.

Lemma map2_nan (F : fl -> fl -> fl) n w : (forall y, F NaN y = NaN) -> map2 F (repeat NaN n) w = repeat NaN (min n (length w)).
Proof. intros H. revert w. induction n as [|n IH]; intros [|y w]; cbn; auto. now rewrite H, IH. Qed.

Lemma valid_pairs_nan n w : valid_pairs (repeat NaN n) w = [].
Proof. revert w. induction n as [|n IH]; intros [|y w]; cbn [repeat]; auto. rewrite valid_pairs_cons. auto. Qed.

Lemma fmul_nan y : fmul NaN y = NaN. Proof. reflexivity. Qed.

Definition moment_sum (k : nat) (array weight : list fl) : R :=
  lsum (map (fun p => (fst p - rmean (fins array)) ^ k * snd p) (valid_pairs array weight)).
Definition n_indep (array : list fl) (lag : R) : R := sqrt (IZR (Z.of_nat (length (fins array)) / kern_area lag)).

Lemma delvar_eq array weight lag : Forall blankable array -> Forall blankable weight ->
  delvar array weight lag =
   (fdiv (Fin (moment_sum 2 array weight)) (Fin (lsum (fins weight))),
    fdiv (fsqrt (fsub (fdiv (Fin (moment_sum 4 array weight)) (Fin (lsum (fins weight))))
                      (fsqr (fdiv (Fin (moment_sum 2 array weight)) (Fin (lsum (fins weight)))))))
         (Fin (n_indep array lag))).
Proof.
  intros Ha Hw. unfold delvar. cbv zeta.
  assert (K : forall (G : fl -> fl) k, (forall x, G (Fin x) = Fin (x ^ k)) -> G NaN = NaN ->
    nansum (map2 (fun a w => fmul (G a) w) (map (fun v => fsub v (nanmean array)) array) weight) = Fin (moment_sum k array weight)).
  { intros G k HG HN. rewrite map2_map_l. destruct (fins array) as [|r0 fs] eqn:E.
    - pose proof (all_nan array Ha E) as R. unfold moment_sum. generalize (nanmean array) (rmean (fins array)). intros m m'. rewrite R.
      rewrite map2_nan by (intros; cbn; now rewrite HN). rewrite nansum_all_nan. now rewrite valid_pairs_nan.
    - rewrite nanmean_rmean by (auto; rewrite E; discriminate).
      destruct (fins_map2_strict (fun a w => fmul (G (fsub a (Fin (rmean (fins array))))) w) (fun a w => (a - rmean (fins array)) ^ k * w) array weight) as [A B]; auto.
      + intros x y. cbn [fsub fadd fneg]. rewrite HG. reflexivity.
      + intros y _. cbn. now rewrite HN.
      + intros x. cbn [fsub fadd fneg]. rewrite HG. reflexivity.
      + rewrite nansum_fins by exact A. now rewrite B. }
  rewrite (K fsqr 2%nat); [|intros; cbn; f_equal; ring|reflexivity].
  rewrite (K (fun a => fsqr (fsqr a)) 4%nat); [|intros; cbn; f_equal; ring|reflexivity].
  rewrite (nansum_fins weight) by auto.
  assert (C : length (filter is_fin (map (fun v => fsub v (nanmean array)) array)) = length (fins array)).
  { destruct (fins array) as [|r0 fs] eqn:E.
    - pose proof (all_nan array Ha E) as R. rewrite R. generalize (length array) (nanmean (repeat NaN (length array))). intros n m.
      induction n; cbn; auto.
    - rewrite nanmean_rmean by (auto; rewrite E; discriminate). rewrite <- E. clear E K. revert Ha. generalize (rmean (fins array)). intros m Ha.
      induction array as [|x array IH]; [reflexivity|]. inversion Ha; subst. destruct x; try contradiction.
      + rewrite fins_cons_Fin. cbn. now rewrite IH.
      + rewrite fins_cons_NaN. cbn. auto. }
  rewrite C. reflexivity.
Qed.

(** ** Non-negativity *)
Lemma weight_blankable w : Forall weight_value w -> Forall blankable w.
Proof. apply Forall_impl. intros [r| | |]; cbn; tauto. Qed.

Lemma valid_weight_nonneg array weight : Forall weight_value weight -> forall p, In p (valid_pairs array weight) -> 0 <= snd p.
Proof.
  intros H p Hp. unfold valid_pairs in Hp. apply in_flat_map in Hp. destruct Hp as [[a w] [Hin Hp]].
  destruct a; try contradiction. destruct w; try contradiction. destruct Hp as [<-|[]]. cbn.
  apply in_combine_r in Hin. rewrite Forall_forall in H. apply (H _ Hin).
Qed.

Lemma valid_weight_le array weight : Forall weight_value weight -> lsum (map snd (valid_pairs array weight)) <= lsum (fins weight).
Proof.
  revert weight. induction array as [|x array IH]; intros weight H.
  - cbn. rewrite <- (map_id (fins weight)). apply lsum_nonneg. intros v Hv. apply in_map_iff in Hv. destruct Hv as [u [<- Hu]].
    apply in_fins in Hu. rewrite Forall_forall in H. apply (H _ Hu).
  - destruct weight as [|y weight]; [cbn; lra|]. inversion H as [|? ? Hy Hw]; subst. specialize (IH weight Hw). rewrite valid_pairs_cons.
    destruct y; try contradiction.
    + rewrite fins_cons_Fin, lsum_cons. cbn in Hy. destruct x; cbn [map]; rewrite ?lsum_cons; cbn [snd]; lra.
    + rewrite fins_cons_NaN. destruct x; exact IH.
Qed.

Lemma pow2_even (x : R) k : 0 <= x ^ (2 * k).
Proof. rewrite pow_mult. apply pow_le. apply pow2_ge_0. Qed.

Lemma moment_sum_nonneg k array weight : Forall weight_value weight -> 0 <= moment_sum (2 * k) array weight.
Proof.
  intros H. apply lsum_nonneg. intros v Hv. apply in_map_iff in Hv. destruct Hv as [p [<- Hp]].
  apply Rmult_le_pos; [apply pow2_even|]. eapply valid_weight_nonneg; eauto.
Qed.

Lemma radicand_nonneg array weight : Forall weight_value weight -> 0 < lsum (fins weight) ->
  0 <= weighted_moment 4 array weight - weighted_moment 2 array weight ^ 2.
Proof.
  intros H W. unfold weighted_moment. fold (moment_sum 4 array weight) (moment_sum 2 array weight).
  set (S4 := moment_sum 4 array weight). set (S2 := moment_sum 2 array weight). set (w := lsum (fins weight)) in *.
  set (V := lsum (map snd (valid_pairs array weight))).
  assert (HV : V <= w) by (now apply valid_weight_le).
  set (t := S2 / w).
  assert (Q : 0 <= S4 - 2 * t * S2 + t * t * V).
  { unfold S4, S2, V, moment_sum. set (m := rmean (fins array)).
    replace (lsum (map (fun p : R * R => (fst p - m) ^ 4 * snd p) (valid_pairs array weight)) - 2 * t * lsum (map (fun p : R * R => (fst p - m) ^ 2 * snd p) (valid_pairs array weight)) + t * t * lsum (map snd (valid_pairs array weight)))
      with (lsum (map (fun p : R * R => ((fst p - m) ^ 2 - t) ^ 2 * snd p) (valid_pairs array weight))).
    - apply lsum_nonneg. intros v Hv. apply in_map_iff in Hv. destruct Hv as [p [<- Hp]].
      apply Rmult_le_pos; [apply pow2_ge_0|]. eapply valid_weight_nonneg; eauto.
    - generalize (valid_pairs array weight). intros l. induction l as [|p l IH]; cbn [map]; [cbn; ring|]. rewrite !lsum_cons, IH. ring. }
  assert (E : t * w = S2) by (unfold t; field; lra).
  assert (Ht : t * t * V <= t * t * w) by (apply Rmult_le_compat_l; [apply Rle_0_sqr|exact HV]).
  rewrite <- E in Q. assert (Q' : t * t * w <= S4) by lra.
  assert (t * t <= S4 / w); [|cbn; lra]. apply Rmult_le_reg_r with w; auto. unfold Rdiv. rewrite (Rmult_assoc S4), Rinv_l, Rmult_1_r; lra.
Qed.

Lemma delvar_value array weight lag : Forall blankable array -> Forall weight_value weight -> 0 < lsum (fins weight) ->
  delvar array weight lag =
    (Fin (weighted_moment 2 array weight),
     fdiv (Fin (sqrt (weighted_moment 4 array weight - weighted_moment 2 array weight ^ 2))) (Fin (n_indep array lag))) /\
  0 <= weighted_moment 2 array weight /\
  0 <= weighted_moment 4 array weight - weighted_moment 2 array weight ^ 2.
Proof.
  intros Ha Hw HW. pose proof (radicand_nonneg array weight Hw HW) as R. split; [|split; [|exact R]].
  - rewrite delvar_eq by (auto using weight_blankable). rewrite !fdiv_fin by lra.
    unfold weighted_moment in *. fold (moment_sum 2 array weight) in *. fold (moment_sum 4 array weight) in *.
    cbn [fsqr fmul fsub fneg fadd]. f_equal. f_equal. cbn [fsqrt].
    match goal with |- context [Rltb ?a 0] => destruct (Rltb_spec a 0) as [C|C] end; [exfalso; cbn in R; lra|].
    f_equal. f_equal. cbn. ring.
  - apply Rmult_le_pos; [apply (moment_sum_nonneg 1); auto|]. left. now apply Rinv_0_lt_compat.
Qed.

Lemma store_positive ve : store_delvar ve = (NaN, NaN) \/ (positive (fst (store_delvar ve)) /\ positive (snd (store_delvar ve)) /\ store_delvar ve = ve).
Proof.
  destruct ve as [v e]. unfold store_delvar.
  assert (P : forall x, fleb x (Fin 0) = false -> is_nan x = false -> positive x).
  { intros [r| | |]; cbn; auto; try discriminate. destruct (Rleb_spec r 0); [discriminate|]. intros. lra. }
  destruct (fleb v (Fin 0)) eqn:A; [now left|]. destruct (fleb e (Fin 0)) eqn:B; [now left|].
  destruct (is_nan v) eqn:C; [now left|]. destruct (is_nan e) eqn:D; [now left|]. right. cbn. auto.
Qed.

Lemma same_blanks_weights array weight : Forall blankable array -> Forall blankable weight -> same_blanks array weight ->
  map snd (valid_pairs array weight) = fins weight /\ map fst (valid_pairs array weight) = fins array.
Proof.
  unfold same_blanks. revert weight. induction array as [|x array IH]; intros [|y weight] Ha Hw E; try discriminate; [split; reflexivity|].
  inversion Ha; inversion Hw; subst. cbn [map] in E. injection E as E1 E2. destruct (IH weight) as [A B]; auto. rewrite valid_pairs_cons.
  destruct x; try contradiction; destruct y; try contradiction; try discriminate.
  - rewrite !fins_cons_Fin. cbn. now rewrite A, B.
  - now rewrite !fins_cons_NaN.
Qed.

(** ** Constant background, scaling *)
Section Lag.
Variables (core annulus : nat -> nat -> R) (weights : list R) (cutoff : R) (preserve : bool).
Hypothesis Hcut : 0 <= cutoff.

Let n := length weights.
Let wc i := rsum n (fun j => core i j * nth j weights 0).
Let wa i := rsum n (fun j => annulus i j * nth j weights 0).
Let ic (data : list fl) i := rsum n (fun j => core i j * fill0 (fmul (nth j data NaN) (Fin (nth j weights 0)))).
Let ia (data : list fl) i := rsum n (fun j => annulus i j * fill0 (fmul (nth j data NaN) (Fin (nth j weights 0)))).

Let entry (data : list fl) i : fl :=
  if Rleb (wc i) cutoff then NaN else if Rleb (wa i) cutoff then NaN
  else Fin (ic data i / wc i - ia data i / wa i).

Lemma map2_tab {A B C} (f : A -> B -> C) m g h : map2 f (tab1 m g) (tab1 m h) = tab1 m (fun i => f (g i) (h i)).
Proof. unfold tab1. generalize (seq 0 m). intros l. induction l; cbn; auto. now rewrite IHl. Qed.
Lemma map_tab {A B} (f : A -> B) m g : map f (tab1 m g) = tab1 m (fun i => f (g i)).
Proof. unfold tab1. now rewrite map_map. Qed.
Lemma tab_self {A} (d : A) l : tab1 (length l) (fun i => nth i l d) = l.
Proof. unfold tab1. rewrite (map_nth_seq d l 0 (length l)) by lia. cbn [skipn]. apply firstn_all. Qed.

Lemma pad_tab data : length data = n ->
  map2 (fun d w => fmul d (Fin w)) data weights = tab1 n (fun i => fmul (nth i data NaN) (Fin (nth i weights 0))).
Proof.
  intros L. rewrite <- (tab_self NaN data) at 1. rewrite <- (tab_self 0 weights) at 1. fold n. rewrite L. exact (map2_tab (fun d w => fmul d (Fin w)) n _ _).
Qed.

Lemma convolve_weights k : convolve k (map Fin weights) = tab1 n (fun i => rsum n (fun j => k i j * nth j weights 0)).
Proof.
  unfold convolve. rewrite map_length. fold n. apply tab1_ext. intros i Hi. apply rsum_ext. intros j Hj. f_equal.
  rewrite nth_indep with (d' := Fin 0) by (rewrite map_length; auto). now rewrite map_nth.
Qed.

Lemma convolve_pad k data : length data = n ->
  convolve k (map2 (fun d w => fmul d (Fin w)) data weights) = tab1 n (fun i => rsum n (fun j => k i j * fill0 (fmul (nth j data NaN) (Fin (nth j weights 0))))).
Proof.
  intros L. rewrite pad_tab by auto. unfold convolve. rewrite tab1_length. apply tab1_ext. intros i Hi. apply rsum_ext. intros j Hj.
  now rewrite tab1_nth.
Qed.

Lemma conv_arr_tab data : length data = n ->
  conv_arr core annulus data weights cutoff preserve =
  tab1 n (fun i => if preserve then if is_nan (fmul (nth i data NaN) (Fin (nth i weights 0))) then NaN else entry data i else entry data i).
Proof.
  intros L. unfold conv_arr. cbv zeta. rewrite !convolve_weights, !convolve_pad, pad_tab by auto. rewrite !map_tab, !(map2_tab (fun v w => fdiv (Fin v) w)), (map2_tab fsub).
  assert (E : tab1 n (fun i => fsub (fdiv (Fin (ic data i)) (mask_low cutoff (wc i))) (fdiv (Fin (ia data i)) (mask_low cutoff (wa i)))) = tab1 n (entry data)).
  { apply tab1_ext. intros i Hi. unfold entry, mask_low. destruct (Rleb_spec (wc i) cutoff); [reflexivity|].
    destruct (Rleb_spec (wa i) cutoff); [rewrite fdiv_fin by lra; reflexivity|]. rewrite !fdiv_fin by lra. reflexivity. }
  unfold ic, ia, wc, wa in E. rewrite E. destruct preserve; [|reflexivity]. rewrite map2_tab. reflexivity.
Qed.

Lemma entry_blankable data i : blankable (entry data i).
Proof. unfold entry. destruct (Rleb _ _); [exact I|]. destruct (Rleb _ _); exact I. Qed.

Lemma conv_arr_blankable data : length data = n -> Forall blankable (conv_arr core annulus data weights cutoff preserve).
Proof.
  intros L. rewrite conv_arr_tab by auto. apply Forall_forall. intros v Hv. unfold tab1 in Hv. apply in_map_iff in Hv.
  destruct Hv as [i [<- _]]. destruct preserve; [|apply entry_blankable]. destruct (is_nan _); [exact I|apply entry_blankable].
Qed.

Lemma conv_weight_tab : conv_weight core annulus weights cutoff = tab1 n (fun i =>
  if Rleb (wc i) cutoff then NaN else if Rleb (wa i) cutoff then NaN else Fin (wc i * wa i)).
Proof.
  unfold conv_weight. cbv zeta. rewrite !convolve_weights, !map_tab, map2_tab. apply tab1_ext. intros i Hi.
  unfold mask_low. fold (wc i) (wa i). destruct (Rleb (wc i) cutoff); [reflexivity|]. destruct (Rleb (wa i) cutoff); reflexivity.
Qed.

Lemma conv_weight_value : Forall weight_value (conv_weight core annulus weights cutoff).
Proof.
  rewrite conv_weight_tab. apply Forall_forall. intros v Hv. unfold tab1 in Hv. apply in_map_iff in Hv. destruct Hv as [i [<- _]].
  destruct (Rleb_spec (wc i) cutoff); [exact I|]. destruct (Rleb_spec (wa i) cutoff); [exact I|]. cbn. apply Rmult_le_pos; lra.
Qed.

Lemma conv_same_blanks data : length data = n -> preserve = false -> same_blanks (conv_arr core annulus data weights cutoff preserve) (conv_weight core annulus weights cutoff).
Proof.
  intros L P. rewrite conv_arr_tab, conv_weight_tab by auto. unfold same_blanks. rewrite !map_tab. apply tab1_ext. intros i Hi.
  rewrite P. unfold entry. destruct (Rleb (wc i) cutoff); [reflexivity|]. destruct (Rleb (wa i) cutoff); reflexivity.
Qed.

(** Weights vanish on blanks. *)
Hypothesis Hn : True.

Lemma background data b : length data = n -> Forall blankable data ->
  (forall j, (j < n)%nat -> nth j data NaN = NaN -> nth j weights 0 = 0) ->
  conv_arr core annulus (map (fun v => fadd v (Fin b)) data) weights cutoff preserve = conv_arr core annulus data weights cutoff preserve.
Proof.
  intros L B Z. rewrite !conv_arr_tab by (rewrite ?map_length; auto). apply tab1_ext. intros i Hi.
  assert (Nj : forall j, (j < n)%nat -> nth j (map (fun v => fadd v (Fin b)) data) NaN = fadd (nth j data NaN) (Fin b)).
  { intros j Hj. change NaN with (fadd NaN (Fin b)) at 1. apply (map_nth (fun v => fadd v (Fin b))). }
  assert (Bj : forall j, (j < n)%nat -> blankable (nth j data NaN)).
  { intros j Hj. rewrite Forall_forall in B. apply B, nth_In. lia. }
  assert (S : forall k, rsum n (fun j => k j * fill0 (fmul (nth j (map (fun v => fadd v (Fin b)) data) NaN) (Fin (nth j weights 0)))) =
    rsum n (fun j => k j * fill0 (fmul (nth j data NaN) (Fin (nth j weights 0)))) + b * rsum n (fun j => k j * nth j weights 0)).
  { intros k. rewrite <- rsum_scal, <- rsum_plus. apply rsum_ext. intros j Hj. rewrite Nj by auto. specialize (Bj j Hj).
    destruct (nth j data NaN) eqn:E; try contradiction; cbn; [ring|]. rewrite (Z j Hj E). ring. }
  assert (En : entry (map (fun v => fadd v (Fin b)) data) i = entry data i).
  { unfold entry. destruct (Rleb_spec (wc i) cutoff); [reflexivity|]. destruct (Rleb_spec (wa i) cutoff); [reflexivity|].
    f_equal. unfold ic, ia. rewrite (S (core i)), (S (annulus i)). fold (wc i) (wa i). field. lra. }
  rewrite En, Nj by auto. specialize (Bj i Hi). destruct (nth i data NaN); try contradiction; reflexivity.
Qed.

Lemma scaled_arr data c : length data = n -> Forall blankable data ->
  conv_arr core annulus (map (fun v => fmul (Fin c) v) data) weights cutoff preserve = map (fun v => fmul (Fin c) v) (conv_arr core annulus data weights cutoff preserve).
Proof.
  intros L B. rewrite !conv_arr_tab by (rewrite ?map_length; auto). rewrite map_tab. apply tab1_ext. intros i Hi.
  assert (Nj : forall j, (j < n)%nat -> nth j (map (fun v => fmul (Fin c) v) data) NaN = fmul (Fin c) (nth j data NaN)).
  { intros j Hj. change NaN with (fmul (Fin c) NaN) at 1. apply (map_nth (fun v => fmul (Fin c) v)). }
  assert (Bj : forall j, (j < n)%nat -> blankable (nth j data NaN)).
  { intros j Hj. rewrite Forall_forall in B. apply B, nth_In. lia. }
  assert (S : forall k, rsum n (fun j => k j * fill0 (fmul (nth j (map (fun v => fmul (Fin c) v) data) NaN) (Fin (nth j weights 0)))) =
    c * rsum n (fun j => k j * fill0 (fmul (nth j data NaN) (Fin (nth j weights 0))))).
  { intros k. rewrite <- rsum_scal. apply rsum_ext. intros j Hj. rewrite Nj by auto. specialize (Bj j Hj).
    destruct (nth j data NaN) eqn:E; try contradiction; cbn; ring. }
  assert (En : entry (map (fun v => fmul (Fin c) v) data) i = fmul (Fin c) (entry data i)).
  { unfold entry. destruct (Rleb_spec (wc i) cutoff); [reflexivity|]. destruct (Rleb_spec (wa i) cutoff); [reflexivity|].
    transitivity (Fin (c * (ic data i / wc i - ia data i / wa i))); [|reflexivity]. f_equal. unfold ic, ia. rewrite (S (core i)), (S (annulus i)). field. lra. }
  rewrite En, Nj by auto. specialize (Bj i Hi). destruct preserve; [|reflexivity]. destruct (nth i data NaN); try contradiction; reflexivity.
Qed.
End Lag.

Lemma deltavar_background core annulus data weights wmax frac preserve lag b :
  length data = length weights -> Forall blankable data -> 0 <= frac * wmax ->
  (forall j, (j < length weights)%nat -> nth j data NaN = NaN -> nth j weights 0 = 0) ->
  deltavar_lag core annulus (map (fun v => fadd v (Fin b)) data) weights wmax frac preserve lag =
  deltavar_lag core annulus data weights wmax frac preserve lag.
Proof. intros L B C Z. unfold deltavar_lag. cbv zeta. now rewrite background. Qed.

Lemma default_zero data j : (j < length (default_weights data))%nat -> nth j data NaN = NaN -> nth j (default_weights data) 0 = 0.
Proof.
  unfold default_weights. rewrite map_length. intros Hj E.
  rewrite nth_indep with (d' := if is_fin NaN then 1 else 0) by (rewrite map_length; auto).
  rewrite (map_nth (fun v => if is_fin v then 1 else 0)). now rewrite E.
Qed.

Lemma deltavar_background_default core annulus data wmax frac preserve lag b :
  Forall blankable data -> 0 <= frac * wmax ->
  deltavar_lag core annulus (map (fun v => fadd v (Fin b)) data) (default_weights (map (fun v => fadd v (Fin b)) data)) wmax frac preserve lag =
  deltavar_lag core annulus data (default_weights data) wmax frac preserve lag.
Proof.
  intros B C. assert (E : default_weights (map (fun v => fadd v (Fin b)) data) = default_weights data).
  { unfold default_weights. rewrite map_map. apply map_ext_in. intros v Hv. rewrite Forall_forall in B. specialize (B v Hv). destruct v; try contradiction; reflexivity. }
  rewrite E. apply deltavar_background; auto; [unfold default_weights; now rewrite map_length|]. intros j. apply default_zero.
Qed.

(** *** Scaling of _delvar *)
Lemma pow2_gt_0 c : c <> 0 -> 0 < c ^ 2.
Proof. intros H. replace (c ^ 2) with (Rsqr c) by (unfold Rsqr; ring). now apply Rsqr_pos_lt. Qed.

Lemma valid_pairs_scale c a w : Forall blankable a ->
  valid_pairs (map (fun v => fmul (Fin c) v) a) w = map (fun p => (c * fst p, snd p)) (valid_pairs a w).
Proof.
  intros Ha. revert w. induction a as [|x a IH]; intros [|y w]; try reflexivity. inversion Ha; subst. cbn [map]. rewrite !valid_pairs_cons, IH by auto.
  destruct x; try contradiction; destruct y; reflexivity.
Qed.
Lemma fins_scale c a : Forall blankable a -> fins (map (fun v => fmul (Fin c) v) a) = map (Rmult c) (fins a).
Proof.
  intros Ha. induction a as [|x a IH]; [reflexivity|]. inversion Ha; subst. cbn [map]. destruct x; try contradiction.
  - change (fmul (Fin c) (Fin r)) with (Fin (c * r)). rewrite !fins_cons_Fin. cbn [map]. now rewrite IH.
  - change (fmul (Fin c) NaN) with NaN. rewrite !fins_cons_NaN. auto.
Qed.
Lemma scale_blankable c a : Forall blankable a -> Forall blankable (map (fun v => fmul (Fin c) v) a).
Proof.
  intros H. apply Forall_forall. intros v Hv. apply in_map_iff in Hv. destruct Hv as [u [<- Hu]]. rewrite Forall_forall in H. specialize (H u Hu).
  destruct u; try contradiction; exact I.
Qed.
Lemma moment_sum_scale c k a w : Forall blankable a -> moment_sum k (map (fun v => fmul (Fin c) v) a) w = c ^ k * moment_sum k a w.
Proof.
  intros Ha. unfold moment_sum. rewrite valid_pairs_scale, fins_scale, rmean_scal, map_map by auto. cbn [fst snd].
  generalize (rmean (fins a)). intros m. induction (valid_pairs a w) as [|p l IH]; cbn [map]; [cbn; ring|].
  rewrite !lsum_cons, IH. replace (c * fst p - c * m) with (c * (fst p - m)) by ring. rewrite Rpow_mult_distr. ring.
Qed.
Lemma n_indep_scale c a lag : Forall blankable a -> n_indep (map (fun v => fmul (Fin c) v) a) lag = n_indep a lag.
Proof. intros Ha. unfold n_indep. now rewrite fins_scale, map_length by auto. Qed.

Lemma delvar_scale c a w lag : c <> 0 -> Forall blankable a -> Forall weight_value w -> 0 < lsum (fins w) ->
  delvar (map (fun v => fmul (Fin c) v) a) w lag =
  (fmul (Fin (c ^ 2)) (fst (delvar a w lag)), fmul (Fin (c ^ 2)) (snd (delvar a w lag))).
Proof.
  intros Hc Ha Hw HW.
  destruct (delvar_value a w lag Ha Hw HW) as [E [N1 N2]].
  destruct (delvar_value (map (fun v => fmul (Fin c) v) a) w lag (scale_blankable c a Ha) Hw HW) as [E' [N1' N2']].
  rewrite E, E'. cbn [fst snd]. rewrite n_indep_scale by auto.
  assert (M : forall k, weighted_moment k (map (fun v => fmul (Fin c) v) a) w = c ^ k * weighted_moment k a w).
  { intros k. unfold weighted_moment. fold (moment_sum k a w). fold (moment_sum k (map (fun v => fmul (Fin c) v) a) w).
    rewrite moment_sum_scale by auto. unfold Rdiv. ring. }
  rewrite !M. f_equal.
  assert (C2 : 0 < c ^ 2) by (apply pow2_gt_0; auto).
  replace (c ^ 4 * weighted_moment 4 a w - (c ^ 2 * weighted_moment 2 a w) ^ 2) with ((c ^ 2) ^ 2 * (weighted_moment 4 a w - weighted_moment 2 a w ^ 2)) by ring.
  rewrite sqrt_mult_alt by (apply pow2_ge_0). rewrite sqrt_pow2 by lra.
  set (s := sqrt (weighted_moment 4 a w - weighted_moment 2 a w ^ 2)).
  unfold fdiv. destruct (Reqb_spec (n_indep a lag) 0).
  - unfold sinf. assert (0 <= s) by apply sqrt_pos. destruct (Rltb_spec 0 s).
    + destruct (Rltb_spec 0 (c ^ 2 * s)); [|exfalso; assert (0 < c ^ 2 * s) by (now apply Rmult_lt_0_compat); lra].
      unfold fmul, sinf. destruct (Rltb_spec 0 (c ^ 2)); [reflexivity|lra].
    + assert (s = 0) by lra. rewrite H0, Rmult_0_r. destruct (Rltb_spec 0 0); [lra|]. destruct (Rltb_spec 0 0); [lra|]. reflexivity.
  - cbn. f_equal. unfold Rdiv. ring.
Qed.

Lemma store_scale c ve : 0 < c -> store_delvar (fmul (Fin c) (fst ve), fmul (Fin c) (snd ve)) = (fmul (Fin c) (fst (store_delvar ve)), fmul (Fin c) (snd (store_delvar ve))).
Proof.
  intros Hc. destruct ve as [v e]. cbn [fst snd].
  assert (P : forall x, fleb (fmul (Fin c) x) (Fin 0) = fleb x (Fin 0)).
  { intros [r| | |]; cbn; auto.
    - destruct (Rleb_spec (c * r) 0); destruct (Rleb_spec r 0); auto; exfalso.
      + assert (0 < c * r) by (apply Rmult_lt_0_compat; lra). lra.
      + assert (c * r <= c * 0) by (apply Rmult_le_compat_l; lra). lra.
    - unfold sinf. destruct (Rltb_spec 0 c); [reflexivity|lra].
    - unfold sinf. destruct (Rltb_spec 0 c); [reflexivity|lra]. }
  assert (Q : forall x, is_nan (fmul (Fin c) x) = is_nan x).
  { intros [r| | |]; cbn; auto; unfold sinf; destruct (Rltb_spec 0 c); try reflexivity; lra. }
  unfold store_delvar. rewrite !P, !Q. destruct (fleb v (Fin 0) || fleb e (Fin 0) || is_nan v || is_nan e); reflexivity.
Qed.

Lemma deltavar_scaled core annulus data weights wmax frac preserve lag c :
  length data = length weights -> Forall blankable data -> 0 <= frac * wmax -> c <> 0 ->
  let r := deltavar_lag core annulus data weights wmax frac preserve lag in
  deltavar_lag core annulus (map (fun v => fmul (Fin c) v) data) weights wmax frac preserve lag =
  (fmul (Fin (c ^ 2)) (fst r), fmul (Fin (c ^ 2)) (snd r)).
Proof.
  intros L B C Hc. cbv zeta. unfold deltavar_lag. cbv zeta. rewrite scaled_arr by auto.
  set (a := conv_arr _ _ _ _ _ _). set (w := conv_weight _ _ _ _).
  assert (Ha : Forall blankable a) by (now apply conv_arr_blankable).
  assert (Hw : Forall weight_value w) by (now apply conv_weight_value).
  assert (C2 : 0 < c ^ 2) by (apply pow2_gt_0; auto).
  destruct (Rlt_dec 0 (lsum (fins w))) as [W|W].
  - rewrite delvar_scale by auto. now apply store_scale.
  - assert (W0 : lsum (fins w) = 0).
    { assert (0 <= lsum (fins w)); [|lra]. rewrite <- (map_id (fins w)). apply lsum_nonneg. intros v Hv. apply in_map_iff in Hv. destruct Hv as [u [<- Hu]].
      apply in_fins in Hu. rewrite Forall_forall in Hw. apply (Hw _ Hu). }
    assert (Z : forall x, Forall blankable x -> store_delvar (delvar x w lag) = (NaN, NaN)).
    { intros x Hx. rewrite delvar_eq by (auto using weight_blankable). rewrite W0.
      assert (D : forall s, 0 <= s -> fdiv (Fin s) (Fin 0) = NaN \/ fdiv (Fin s) (Fin 0) = PInf).
      { intros s Hs. unfold fdiv. destruct (Reqb_spec 0 0); [|lra]. unfold sinf. destruct (Rltb_spec 0 s); auto. destruct (Rltb_spec s 0); [lra|auto]. }
      assert (D2 := D _ (moment_sum_nonneg 1 x w Hw)). assert (D4 := D _ (moment_sum_nonneg 2 x w Hw)). cbn [Nat.mul Nat.add] in D2, D4.
      destruct D2 as [E|E]; rewrite E; destruct D4 as [E4|E4]; rewrite E4; reflexivity. }
    rewrite !Z by (auto using scale_blankable). reflexivity.
Qed.
