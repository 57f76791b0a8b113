(** Proofs about var_cov_cube (Model/Pca.v) and Model/Formats.v (C81, C82, C84, C85). *)
From Coq Require Import Reals List ZArith Lia Lra Arith Bool Permutation.
From Verif Require Import Lib.PyBase Lib.RSum Lib.Fl Lib.Arr Lib.ListMore Spec.Blank Spec.Components Spec.Covariance
  Model.StatsUtils Model.Psds Model.Pca Model.Formats Proofs.Fl_Proofs Proofs.Psds_Proofs Proofs.Pca_Proofs.
Import ListNotations.
Local Open Scope R_scope.

Lemma fadd_comm a b : fadd a b = fadd b a.
Proof. destruct a, b; cbn; try reflexivity. f_equal. ring. Qed.

Lemma cov_symmetric eps big cube ms i j : (i < length cube)%nat -> (j < length cube)%nat ->
  at2 0 (var_cov_cube eps big cube ms) i j = at2 0 (var_cov_cube eps big cube ms) j i.
Proof. intros Hi Hj. unfold var_cov_cube. cbv zeta. rewrite !at2_tab by auto. now rewrite fadd_comm. Qed.

Lemma fill_fins eps r : map (fun v => if is_nan v then Fin eps else v) (map Fin r) = map Fin r.
Proof. rewrite map_map. apply map_ext. reflexivity. Qed.

Lemma fins_Fin r : fins (map Fin r) = r.
Proof. apply fins_map_Fin. Qed.

Lemma blank_Fin r : Forall blankable (map Fin r).
Proof. apply Forall_forall. intros v Hv. apply in_map_iff in Hv. destruct Hv as [x [<- _]]. exact I. Qed.

Lemma sub_mean_centred ms r : r <> [] -> sub_mean ms (map Fin r) = map Fin (centred ms r).
Proof.
  intros H. unfold sub_mean, centred. destruct ms; [|reflexivity].
  rewrite nanmean_rmean by (rewrite ?fins_Fin; auto using blank_Fin). rewrite fins_Fin, !map_map. reflexivity.
Qed.

Lemma map2_Fin a b : map2 fmul (map Fin a) (map Fin b) = map Fin (map2 Rmult a b).
Proof. revert b; induction a as [|x a IH]; intros [|y b]; cbn; auto. now rewrite IH. Qed.

Lemma filter_fin r : filter is_fin (map Fin r) = map Fin r.
Proof. induction r; cbn; auto. now rewrite IHr. Qed.

Lemma centred_length ms r : length (centred ms r) = length r.
Proof. destruct ms; cbn; auto. apply map_length. Qed.

Lemma nansum_Fin r : nansum (map Fin r) = Fin (lsum r).
Proof. rewrite nansum_fins by apply blank_Fin. now rewrite fins_Fin. Qed.


Lemma enough_divisor ms n : enough ms n -> INR n - (if ms then 1 else 0) > 0.
Proof.
  unfold enough. destruct ms; intros H.
  - apply le_INR in H. cbn in H. lra.
  - apply le_INR in H. cbn in H. lra.
Qed.

Lemma cov_lower_value eps ms a b n : enough ms n -> length a = n -> length b = n ->
  cov_lower eps ms (map Fin a) (map Fin b) = Fin (covariance ms a b).
Proof.
  intros He La Lb. assert (Hn : (1 <= n)%nat) by (destruct ms; cbn in He; lia).
  unfold cov_lower. cbv zeta. rewrite fill_fins.
  rewrite !sub_mean_centred by (intros ->; cbn in *; lia). rewrite map2_Fin, filter_fin, map_length, map2_length, !centred_length, La, Lb, Nat.min_id.
  rewrite nansum_Fin. pose proof (enough_divisor ms n He). rewrite fdiv_fin by lra. unfold covariance. now rewrite La.
Qed.

Lemma half_variance_value eps ms a n : enough ms n -> length a = n ->
  half_variance eps ms (map Fin a) = Fin (covariance ms a a / 2).
Proof.
  intros He La. assert (Hn : (1 <= n)%nat) by (destruct ms; cbn in He; lia).
  unfold half_variance. cbv zeta. rewrite fill_fins.
  rewrite !sub_mean_centred by (intros ->; cbn in *; lia). rewrite map2_Fin, filter_fin, map_length, centred_length, La.
  rewrite nansum_Fin. cbn [fmul]. pose proof (enough_divisor ms n He). rewrite fdiv_fin by lra. unfold covariance. rewrite La.
  f_equal. field. lra.
Qed.

Lemma map2_mult_comm a b : map2 Rmult a b = map2 Rmult b a.
Proof. revert b; induction a as [|x a IH]; intros [|y b]; cbn; auto. rewrite IH. f_equal. ring. Qed.

Lemma covariance_comm ms a b : length a = length b -> covariance ms a b = covariance ms b a.
Proof. intros H. unfold covariance. now rewrite map2_mult_comm, H. Qed.

Lemma nth_map_Fin (cube : list (list R)) i : nth i (map (map Fin) cube) [] = map Fin (nth i cube []).
Proof. change [] with (map Fin (@nil R)) at 1. apply map_nth. Qed.

Lemma cov_value eps big cube ms n i j : channels_of n cube -> enough ms n ->
  (i < length cube)%nat -> (j < length cube)%nat ->
  at2 0 (var_cov_cube eps big (map (map Fin) cube) ms) i j = covariance ms (nth i cube []) (nth j cube []).
Proof.
  intros Hc He Hi Hj. unfold var_cov_cube. cbv zeta. rewrite map_length, at2_tab by auto. rewrite !nth_map_Fin.
  assert (Li : length (nth i cube []) = n) by (apply Hc, nth_In, Hi).
  assert (Lj : length (nth j cube []) = n) by (apply Hc, nth_In, Hj).
  destruct (Nat.ltb_spec j i) as [H|H].
  - destruct (Nat.ltb_spec i j); [lia|]. destruct (Nat.eqb_spec j i); [lia|].
    rewrite (cov_lower_value _ _ _ _ n) by auto. cbn. ring.
  - destruct (Nat.ltb_spec i j) as [H'|H'].
    + destruct (Nat.eqb_spec i j); [lia|]. rewrite (cov_lower_value _ _ _ _ n) by auto. cbn. rewrite covariance_comm by congruence. ring.
    + assert (i = j) by lia. subst j. rewrite Nat.eqb_refl, (half_variance_value _ _ _ n) by auto. cbn. field.
Qed.

(** *** Positive semi-definite *)
Lemma inner_rsum a b n : length a = n -> length b = n -> lsum (map2 Rmult a b) = rsum n (fun p => nth p a 0 * nth p b 0).
Proof.
  intros <-. revert b; induction a as [|x a IH]; intros [|y b]; cbn [length]; intros L; try discriminate; [reflexivity|].
  cbn [map2]. rewrite lsum_cons, IH by lia. rewrite rsum_S_l. reflexivity.
Qed.

Lemma cov_psd eps big cube ms n : channels_of n cube -> enough ms n ->
  forall w, 0 <= rsum (length cube) (fun i => rsum (length cube) (fun j => w i * w j * at2 0 (var_cov_cube eps big (map (map Fin) cube) ms) i j)).
Proof.
  intros Hc He w. pose proof (enough_divisor ms n He) as D. set (d := INR n - _) in *. set (m := length cube).
  set (g := fun i p => nth p (centred ms (nth i cube [])) 0).
  apply Rle_trans with (rsum n (fun p => Rsqr (rsum m (fun i => w i * g i p))) / d).
  - apply Rmult_le_pos; [|left; now apply Rinv_0_lt_compat]. apply rsum_nonneg. intros. apply Rle_0_sqr.
  - right. rewrite (rsum_ext m _ (fun i => rsum m (fun j => rsum n (fun p => (w i * g i p) * (w j * g j p)) / d))).
    + rewrite (rsum_ext m _ (fun i => rsum m (fun j => rsum n (fun p => (w i * g i p) * (w j * g j p))) / d)) by (intros; apply rsum_div).
      rewrite rsum_div. f_equal.
      rewrite (rsum_ext m _ (fun i => rsum n (fun p => rsum m (fun j => (w i * g i p) * (w j * g j p))))) by (intros; apply rsum_exchange).
      rewrite rsum_exchange. apply rsum_ext. intros p Hp. unfold Rsqr. rewrite rsum_mult. reflexivity.
    + intros i Hi. apply rsum_ext. intros j Hj. rewrite (cov_value eps big cube ms n) by auto. unfold covariance.
      assert (Li : length (nth i cube []) = n) by (apply Hc, nth_In, Hi).
      assert (Lj : length (nth j cube []) = n) by (apply Hc, nth_In, Hj).
      rewrite Li. fold d. rewrite (inner_rsum _ _ n) by (rewrite centred_length; auto).
      unfold Rdiv. rewrite <- Rmult_assoc. f_equal. rewrite <- rsum_scal. apply rsum_ext. intros p Hp. unfold g. ring.
Qed.

(** *** Scaling *)
Lemma rmean_scal c r : rmean (map (Rmult c) r) = c * rmean r.
Proof.
  unfold rmean. rewrite map_length. unfold Rdiv. rewrite <- Rmult_assoc. f_equal.
  induction r as [|x r IH]; cbn [map]; [unfold lsum; cbn; ring|]. rewrite !lsum_cons, IH. ring.
Qed.
Lemma centred_scal c ms r : centred ms (map (Rmult c) r) = map (Rmult c) (centred ms r).
Proof.
  unfold centred. destruct ms; [|reflexivity]. rewrite !map_map. apply map_ext. intros. rewrite rmean_scal. ring.
Qed.
Lemma covariance_scal c ms a b : covariance ms (map (Rmult c) a) (map (Rmult c) b) = c * c * covariance ms a b.
Proof.
  unfold covariance. rewrite !centred_scal, map_length. unfold Rdiv. rewrite <- Rmult_assoc. f_equal.
  generalize (centred ms a) (centred ms b). intros u. induction u as [|x u IH]; intros [|y v]; cbn [map map2]; try (unfold lsum; cbn; ring).
  rewrite !lsum_cons, IH. ring.
Qed.
Lemma cov_scaled eps big cube ms n c i j : channels_of n cube -> enough ms n ->
  (i < length cube)%nat -> (j < length cube)%nat ->
  at2 0 (var_cov_cube eps big (map (map Fin) (map (map (Rmult c)) cube)) ms) i j =
  c * c * at2 0 (var_cov_cube eps big (map (map Fin) cube) ms) i j.
Proof.
  intros Hc He Hi Hj. rewrite (cov_value eps big cube ms n) by auto.
  rewrite (cov_value eps big _ ms n); try (now rewrite map_length); auto.
  - rewrite <- covariance_scal. f_equal; change (@nil R) with (map (Rmult c) (@nil R)) at 1; apply map_nth.
  - intros x Hx. apply in_map_iff in Hx. destruct Hx as [y [<- Hy]]. rewrite map_length. auto.
Qed.

(** *** Blanks (C82) *)
Lemma valid_pairs_cons x y a b :
  valid_pairs (x :: a) (y :: b) = match x, y with Fin u, Fin v => (u, v) :: valid_pairs a b | _, _ => valid_pairs a b end.
Proof. unfold valid_pairs. cbn. destruct x, y; reflexivity. Qed.

Lemma blank_products (a : list R) b : Forall blankable b ->
  fins (map2 fmul (map Fin a) b) = map (fun p => fst p * snd p) (valid_pairs (map Fin a) b) /\ Forall blankable (map2 fmul (map Fin a) b) /\
  length (filter is_fin (map2 fmul (map Fin a) b)) = length (valid_pairs (map Fin a) b).
Proof.
  revert b; induction a as [|x a IH]; intros [|y b] Hb; cbn [map map2]; try (split; [|split]; auto; fail).
  inversion Hb as [|? ? Hy Hb']; subst. destruct (IH b Hb') as [A [B C]]. rewrite valid_pairs_cons.
  destruct y; try (cbn in Hy; contradiction); cbn [fmul].
  - split; [|split].
    + cbn [map fst snd]. transitivity (x * r :: fins (map2 fmul (map Fin a) b)); [reflexivity|]. now rewrite A.
    + constructor; [exact I|exact B].
    + cbn [filter is_fin length]. now rewrite C.
  - split; [|split]; [exact A|constructor; [exact I|exact B]|exact C].
Qed.

Lemma fill_Fin eps a : map (fun v => if is_nan v then Fin eps else v) (map Fin a) = map Fin a.
Proof. apply fill_fins. Qed.

(** channel i without blanks against an earlier channel j with blanks *)
Lemma cov_blank_earlier eps big cube i j a : (j < i < length cube)%nat -> nth i cube [] = map Fin a ->
  Forall blankable (nth j cube []) -> valid_pairs (nth i cube []) (nth j cube []) <> [] ->
  at2 0 (var_cov_cube eps big cube false) i j = valid_covariance (nth i cube []) (nth j cube []).
Proof.
  intros Hij Hi Hb Hne. unfold var_cov_cube. cbv zeta. rewrite at2_tab by lia.
  destruct (Nat.ltb_spec j i); [|lia]. destruct (Nat.ltb_spec i j); [lia|]. destruct (Nat.eqb_spec j i); [lia|].
  unfold cov_lower, sub_mean. cbv zeta. rewrite Hi in *. rewrite fill_Fin.
  destruct (blank_products a (nth j cube []) Hb) as [A [B C]].
  rewrite nansum_fins by exact B. rewrite A, C, Rminus_0_r.
  rewrite fdiv_fin. 2: { apply not_0_INR. destruct (valid_pairs (map Fin a) (nth j cube [])); [congruence|discriminate]. }
  cbn. unfold valid_covariance. ring.
Qed.

Lemma cov_blank_refuted : forall eps big, 0 < eps < 1 -> exists cube i,
  (i < length cube)%nat /\ Forall (Forall blankable) cube /\
  at2 0 (var_cov_cube eps big cube false) i i <> valid_covariance (nth i cube []) (nth i cube []).
Proof.
  intros eps big He. exists [[NaN; Fin 1]], 0%nat. split; [cbn; lia|]. split.
  { repeat constructor. }
  unfold var_cov_cube. cbv zeta. rewrite at2_tab by (cbn; lia). cbn [Nat.ltb Nat.leb Nat.eqb nth].
  unfold half_variance. cbv zeta. cbn [map is_nan sub_mean map2 fmul filter is_fin length].
  change [Fin (eps * eps); Fin (1 * 1)] with (map Fin [eps * eps; 1 * 1]). rewrite nansum_Fin. cbn [fmul].
  rewrite fdiv_fin by (cbn; lra). unfold valid_covariance, valid_pairs. unfold lsum. cbn.
  assert (eps * eps < 1) by (apply Rle_lt_trans with (1 * eps); [apply Rmult_le_compat_r; lra|lra]). lra.
Qed.

(** ** intensity_data *)
Lemma insert_desc_perm x l : Permutation (insert_desc x l) (x :: l).
Proof.
  induction l as [|y r IH]; cbn; auto. destruct (Rleb y x); auto. rewrite IH. apply perm_swap.
Qed.
Lemma sort_desc_perm l : Permutation (sort_desc l) l.
Proof. induction l as [|x l IH]; cbn; auto. rewrite insert_desc_perm. now constructor. Qed.

Lemma descending_cons x l : descending (x :: l) <-> ((forall y, In y l -> y <= x) /\ descending l).
Proof.
  split.
  - intros H. split.
    + intros y Hy. apply In_nth with (d := 0) in Hy. destruct Hy as [k [Hk <-]]. apply (H 0%nat (S k)). cbn. lia.
    + intros i j Hij. apply (H (S i) (S j)). cbn. lia.
  - intros [A B] i j Hij. destruct i, j; cbn [nth length] in *; try lia.
    + apply A, nth_In. lia.
    + apply B. lia.
Qed.

Lemma insert_desc_sorted x l : descending l -> descending (insert_desc x l).
Proof.
  induction l as [|y r IH]; intros H; cbn.
  - intros i j Hij. cbn in Hij. lia.
  - apply descending_cons in H. destruct H as [A B]. destruct (Rleb_spec y x).
    + apply descending_cons. split; [|apply descending_cons; auto]. intros z [<-|Hz]; [auto|]. specialize (A z Hz). lra.
    + apply descending_cons. split; [|auto]. intros z Hz. apply (Permutation_in _ (insert_desc_perm x r)) in Hz.
      destruct Hz as [<-|Hz]; [lra|auto].
Qed.
Lemma sort_desc_sorted l : descending (sort_desc l).
Proof.
  induction l as [|x l IH]; cbn.
  - intros i j Hij. cbn in Hij. lia.
  - now apply insert_desc_sorted.
Qed.


Lemma above_in lim l v : In v (above lim l) <-> In v l /\ match lim with Some t => t < v | None => True end.
Proof.
  unfold above. destruct lim as [t|]; [|tauto]. rewrite filter_In. destruct (Rltb_spec t v); intuition (auto; try discriminate; lra).
Qed.

Lemma intensity_row_spec L lim m chan : m <> 0 ->
  exists s, Permutation s (above lim (fins chan)) /\ descending s /\
  intensity_row L lim (Fin m) chan = map (fun v => Fin (v / m)) (firstn L s ++ repeat 0 (L - length s)).
Proof.
  intros Hm. exists (sort_desc (above lim (fins chan))). split; [apply sort_desc_perm|]. split; [apply sort_desc_sorted|].
  unfold intensity_row. cbv zeta. fold (above lim (fins chan)). set (s := sort_desc _).
  rewrite (map_ext (fun v => fdiv (Fin v) (Fin m)) (fun v => Fin (v / m))) by (intros; now apply fdiv_fin). f_equal.
  destruct (Nat.ltb_spec (length s) L).
  - now rewrite firstn_all2 by lia.
  - replace (L - length s)%nat with 0%nat by lia. cbn. now rewrite app_nil_r.
Qed.

Lemma intensity_data_spec cube L lim : Forall (Forall blankable) cube ->
  forall m, is_max m (fins (concat cube)) -> m <> 0 ->
  let r := intensity_data cube L lim true in
  length r = length cube /\
  forall dv, (dv < length cube)%nat -> exists s,
    Permutation s (above lim (fins (nth dv cube []))) /\ descending s /\
    nth dv r [] = map (fun v => Fin (v / m)) (firstn L s ++ repeat 0 (L - length s)).
Proof.
  intros Hb m Hm Hm0 r.
  assert (Hb' : Forall blankable (concat cube)).
  { apply Forall_forall. intros v Hv. apply in_concat in Hv. destruct Hv as [c [Hc Hv]].
    rewrite Forall_forall in Hb. specialize (Hb c Hc). rewrite Forall_forall in Hb. auto. }
  assert (Hne : fins (concat cube) <> []) by (destruct Hm as [Hin _]; intros E; rewrite E in Hin; destruct Hin).
  destruct (nanmax_spec _ Hb' Hne) as [m' [E Hm']]. assert (m' = m) by (eapply is_max_unique; eauto). subst m'.
  unfold r, intensity_data. cbv zeta. rewrite E. cbn [feqb]. destruct (Reqb_spec m 0); [congruence|].
  split; [apply map_length|]. intros dv Hdv.
  rewrite (nth_indep (map (intensity_row L lim (Fin m)) cube) [] (intensity_row L lim (Fin m) [])) by (now rewrite map_length). rewrite map_nth.
  now apply intensity_row_spec.
Qed.

Lemma intensity_all_zero cube L lim : Forall (Forall blankable) cube -> is_max 0 (fins (concat cube)) ->
  intensity_data cube L lim true = [].
Proof.
  intros Hb Hm.
  assert (Hb' : Forall blankable (concat cube)).
  { apply Forall_forall. intros v Hv. apply in_concat in Hv. destruct Hv as [c [Hc Hv]].
    rewrite Forall_forall in Hb. specialize (Hb c Hc). rewrite Forall_forall in Hb. auto. }
  assert (Hne : fins (concat cube) <> []) by (destruct Hm as [Hin _]; intros E; rewrite E in Hin; destruct Hin).
  destruct (nanmax_spec _ Hb' Hne) as [m' [E Hm']]. assert (m' = 0) by (eapply is_max_unique; eauto). subst m'.
  unfold intensity_data. cbv zeta. rewrite E. cbn [feqb]. destruct (Reqb_spec 0 0); [reflexivity|congruence].
Qed.

Lemma descending_perm_eq s s' : Permutation s s' -> descending s -> descending s' -> s = s'.
Proof.
  revert s'; induction s as [|x s IH]; intros s' P D D'.
  - apply Permutation_nil in P. now subst.
  - destruct s' as [|y s']; [symmetry in P; apply Permutation_nil in P; discriminate|].
    apply descending_cons in D. apply descending_cons in D'. destruct D as [A B], D' as [A' B'].
    assert (E : x = y).
    { apply Rle_antisym.
      - assert (In x (y :: s')) by (apply (Permutation_in _ P); now left). destruct H as [->|H]; [lra|auto].
      - assert (In y (x :: s)) by (apply (Permutation_in _ (Permutation_sym P)); now left). destruct H as [->|H]; [lra|auto]. }
    subst y. f_equal. apply IH; auto. now apply Permutation_cons_inv in P.
Qed.

(** ** 'spectra' format *)
Lemma format_spectra_square {A} n (spectrum : nat -> nat -> A) bright : (0 < n)%nat ->
  (forall b, In b bright -> (b < n * n)%nat) ->
  format_spectra n n spectrum bright = Ok (map (fun b => spectrum (b / n)%nat (b mod n)%nat) bright).
Proof.
  intros Hn H. unfold format_spectra.
  replace (existsb _ bright) with false; [reflexivity|]. symmetry. apply not_true_is_false. intros E.
  apply existsb_exists in E. destruct E as [b [Hb E]]. apply Nat.leb_le in E. specialize (H b Hb).
  assert (b / n < n)%nat by (apply Nat.div_lt_upper_bound; lia). lia.
Qed.

Lemma format_spectra_refuted :
  (exists ny nx bright, (forall b, In b bright -> (b < ny * nx)%nat) /\
     format_spectra ny nx (fun y x => (y, x)) bright = Err IndexError) /\
  (exists ny nx b r, (b < ny * nx)%nat /\ format_spectra ny nx (fun y x => (y, x)) [b] = Ok r /\ r <> [((b / nx)%nat, (b mod nx)%nat)]).
Proof.
  split.
  - exists 1%nat, 2%nat, [1%nat]. split; [intros b [<-|[]]; lia|reflexivity].
  - exists 3%nat, 2%nat, 2%nat. eexists. split; [lia|]. split; [reflexivity|]. cbv. discriminate.
Qed.

Lemma fins_perm a b : Permutation a b -> Permutation (fins a) (fins b).
Proof.
  intros P. induction P.
  - constructor.
  - destruct x; try exact IHP. now apply (perm_skip r).
  - destruct x, y; try apply Permutation_refl. apply perm_swap.
  - eapply Permutation_trans; eauto.
Qed.

Lemma filter_perm (f : R -> bool) a b : Permutation a b -> Permutation (filter f a) (filter f b).
Proof.
  intros P. induction P; cbn; auto.
  - destruct (f x); auto.
  - destruct (f x), (f y); auto. apply perm_swap.
  - eapply Permutation_trans; eauto.
Qed.

Lemma intensity_row_shuffle L lim m chan chan' : Permutation chan chan' ->
  intensity_row L lim m chan = intensity_row L lim m chan'.
Proof.
  intros P. unfold intensity_row. cbv zeta. fold (above lim (fins chan)) (above lim (fins chan')).
  assert (E : sort_desc (above lim (fins chan)) = sort_desc (above lim (fins chan'))); [|now rewrite E].
  apply descending_perm_eq; try apply sort_desc_sorted. rewrite !sort_desc_perm.
  apply fins_perm in P. unfold above. destruct lim; auto. now apply filter_perm.
Qed.

(** ** Examples *)
Lemma ex_cov : channels_of 2 [[1; 2]; [3; 5]] /\ enough true 2 /\
  at2 0 (var_cov_cube (1 / 4) 9 (map (map Fin) [[1; 2]; [3; 5]]) true) 0 1 = 1.
Proof.
  assert (A : channels_of 2 [[1; 2]; [3; 5]]) by (intros c [<-|[<-|[]]]; reflexivity).
  split; [exact A|]. split; [cbn; lia|]. rewrite (cov_value _ _ _ _ 2) by (auto; cbn; lia).
  unfold covariance, centred, rmean, lsum. cbn. field.
Qed.
Lemma ex_cov_blank : at2 0 (var_cov_cube (1 / 4) 9 [[NaN; Fin 2]; [Fin 3; Fin 5]] false) 1 0 = 10.
Proof.
  rewrite (cov_blank_earlier _ _ _ 1 0 [3; 5]); [|cbn; lia|reflexivity|repeat constructor|discriminate].
  unfold valid_covariance, valid_pairs, lsum. cbn. field.
Qed.
Lemma ex_intensity : Forall (Forall blankable) [[Fin 1; NaN; Fin 2]] /\ is_max 2 (fins (concat [[Fin 1; NaN; Fin 2]])) /\
  nth 0 (intensity_data [[Fin 1; NaN; Fin 2]] 3 None true) [] = [Fin (2 / 2); Fin (1 / 2); Fin (0 / 2)].
Proof.
  assert (A : Forall (Forall blankable) [[Fin 1; NaN; Fin 2]]) by (repeat constructor).
  assert (B : is_max 2 (fins (concat [[Fin 1; NaN; Fin 2]]))) by (split; cbn; [tauto|intros y [<-|[<-|[]]]; lra]).
  split; [exact A|]. split; [exact B|].
  destruct (intensity_data_spec _ 3 None A 2 B ltac:(lra)) as [_ S]. destruct (S 0%nat ltac:(cbn; lia)) as [s [P [D ->]]].
  cbn [nth above] in P. assert (s = [2; 1]).
  { apply descending_perm_eq; [rewrite P; apply perm_swap|exact D|].
    intros i j Hij. cbn in Hij. assert (i = 0 /\ j = 1)%nat as [-> ->] by lia. cbn. lra. }
  subst s. reflexivity.
Qed.
