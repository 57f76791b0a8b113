(** Proofs for C319: the covariance matrix of cubes with blank surroundings. *)
From Coq Require Import Reals List ZArith Lia Lra Arith Bool Permutation.
From Verif Require Import Lib.PyBase Lib.RSum Lib.Fl Lib.Arr Lib.ListMore Spec.Blank Spec.Components Spec.Covariance Spec.Orders Spec.PcaFrame
  Model.StatsUtils Model.Psds Model.Pca Proofs.Fl_Proofs Proofs.Psds_Proofs Proofs.Pca_Proofs Proofs.Cov_Proofs.
From Verif Require Proofs.Orders_Proofs.
Import ListNotations.
Local Open Scope R_scope.

Lemma map2_app {A B C} (f : A -> B -> C) a b c d : length a = length b -> map2 f (a ++ c) (b ++ d) = map2 f a b ++ map2 f c d.
Proof. revert b; induction a as [|x a IH]; intros [|y b] H; cbn in *; try discriminate; [reflexivity|]. f_equal. apply IH. lia. Qed.
Lemma map2_nans (l : list fl) m : length l = m -> map2 fmul l (repeat NaN m) = repeat NaN m.
Proof. revert m; induction l as [|x l IH]; intros m <-; cbn; [reflexivity|]. replace (fmul x NaN) with NaN by now destruct x. f_equal. now apply IH. Qed.
Lemma nonnan_tail l m : nonnan (l ++ repeat NaN m) = nonnan l.
Proof. unfold nonnan. rewrite filter_app. replace (filter (fun v => negb (is_nan v)) (repeat NaN m)) with (@nil fl); [apply app_nil_r|]. induction m; [reflexivity|exact IHm]. Qed.
Lemma fin_tail l m : filter is_fin (l ++ repeat NaN m) = filter is_fin l.
Proof. rewrite filter_app. replace (filter is_fin (repeat NaN m)) with (@nil fl); [apply app_nil_r|]. induction m; [reflexivity|exact IHm]. Qed.
Lemma fill_tail eps a m : map (fun v => if is_nan v then Fin eps else v) (map Fin a ++ repeat NaN m) = map Fin (a ++ repeat eps m).
Proof. rewrite map_app, fill_fins, map_app. f_equal. induction m as [|m IH]; [reflexivity|]. cbn. now rewrite IH. Qed.
Lemma sub_tail ms b m : b <> [] -> sub_mean ms (map Fin b ++ repeat NaN m) = map Fin (centred ms b) ++ repeat NaN m.
Proof.
  intros H. rewrite <- (sub_mean_centred ms b H). unfold sub_mean. destruct ms; [|reflexivity].
  replace (nanmean (map Fin b ++ repeat NaN m)) with (nanmean (map Fin b)) by (unfold nanmean, nansum, nancount; now rewrite nonnan_tail).
  rewrite map_app. f_equal. induction m as [|m IH]; [reflexivity|]. cbn. now rewrite IH.
Qed.
Lemma prod_shift (a b : list R) c c' : length a = length b -> lsum (map (fun v => v - rmean b) b) = 0 ->
  lsum (map2 Rmult (map (fun v => v - c) a) (map (fun v => v - rmean b) b)) = lsum (map2 Rmult (map (fun v => v - c') a) (map (fun v => v - rmean b) b)).
Proof.
  set (d := rmean b). clearbody d. intros L Z.
  assert (G : forall k, lsum (map2 Rmult (map (fun v => v - k) a) (map (fun v => v - d) b)) = lsum (map2 Rmult a (map (fun v => v - d) b)) - k * lsum (map (fun v => v - d) b)).
  { intros k. clear Z. revert b L. induction a as [|x a IH]; intros [|y b] L; try discriminate; unfold lsum in *; cbn [map map2 fold_right]; [ring|].
    rewrite IH by (cbn in L; lia). ring. }
  rewrite (G c), (G c'), Z. ring.
Qed.
Lemma dev_zero b : b <> [] -> lsum (map (fun v => v - rmean b) b) = 0.
Proof.
  intros H. assert (G : forall k, lsum (map (fun v => v - k) b) = lsum b - INR (length b) * k).
  { intros k. clear H. induction b as [|x b IH]; [unfold lsum; cbn; ring|]. cbn [map length]. rewrite S_INR. unfold lsum in *. cbn [fold_right]. rewrite IH. ring. }
  rewrite G. unfold rmean. assert (0 < INR (length b)) by (apply lt_0_INR; destruct b; [congruence|cbn; lia]). field. lra.
Qed.
Lemma cov_tail eps ms a b m n : enough ms n -> length a = n -> length b = n ->
  cov_lower eps ms (map Fin a ++ repeat NaN m) (map Fin b ++ repeat NaN m) = Fin (covariance ms a b).
Proof.
  intros He La Lb. assert (Hn : (1 <= n)%nat) by (destruct ms; cbn in He; lia).
  assert (Nb : b <> []) by (intros ->; cbn in *; lia).
  unfold cov_lower. cbv zeta. rewrite fill_tail, sub_tail by exact Nb.
  rewrite sub_mean_centred by (intros E; apply (f_equal (@length R)) in E; rewrite app_length in E; cbn in E; lia).
  assert (S : exists c, centred ms (a ++ repeat eps m) = (if ms then map (fun v => v - c) a else a) ++ (if ms then map (fun v => v - c) (repeat eps m) else repeat eps m)).
  { exists (rmean (a ++ repeat eps m)). unfold centred. destruct ms; [apply map_app|reflexivity]. }
  destruct S as [c S]. rewrite S, map_app, map2_app by (rewrite !map_length, centred_length; destruct ms; rewrite ?map_length; lia).
  rewrite map2_nans by (rewrite map_length; destruct ms; rewrite ?map_length; apply repeat_length).
  rewrite fin_tail. unfold nansum. rewrite nonnan_tail. fold (nansum (map2 fmul (map Fin (if ms then map (fun v => v - c) a else a)) (map Fin (centred ms b)))).
  rewrite map2_Fin, filter_fin, map_length, map2_length, centred_length, nansum_Fin.
  replace (length (if ms then map (fun v => v - c) a else a)) with n by (destruct ms; rewrite ?map_length; lia). rewrite Lb, Nat.min_id.
  pose proof (enough_divisor ms n He). rewrite fdiv_fin by lra. unfold covariance. rewrite La. do 2 f_equal. destruct ms; [|reflexivity]. cbn [centred].
  apply prod_shift; [lia|now apply dev_zero].
Qed.
Lemma var_tail eps ms a m n : enough ms n -> length a = n ->
  half_variance eps ms (map Fin a ++ repeat NaN m) = Fin (covariance ms (a ++ repeat eps m) (a ++ repeat eps m) / 2).
Proof.
  intros He La. rewrite <- (half_variance_value eps ms (a ++ repeat eps m) (n + m)).
  - unfold half_variance. cbv zeta. now rewrite fill_tail, fill_fins.
  - destruct ms; cbn in *; lia.
  - rewrite app_length, repeat_length. lia.
Qed.

Section Field.
Variables (eps big : R) (ms : bool) (q : nat -> nat) (n m : nat) (cube : list (list R)).
Hypotheses (Hn : enough ms n) (Hc : channels_of n cube) (Hq : reorders q (n + m)).
Let at_ i j := at2 0 (var_cov_cube eps big (in_blank_field q m cube) ms) i j.
Lemma ordered : var_cov_cube eps big (in_blank_field q m cube) ms = var_cov_cube eps big (map (fun c => map Fin c ++ repeat NaN m) cube) ms.
Proof.
  unfold in_blank_field. rewrite <- (map_map (fun c => map Fin c ++ repeat NaN m) (in_order q NaN)). apply (Orders_Proofs.cov_pixels eps big ms q (n + m)); [|exact Hq].
  apply Forall_forall. intros c H. apply in_map_iff in H. destruct H as [a [<- H]]. rewrite app_length, map_length, repeat_length. now rewrite (Hc a H).
Qed.
Lemma chan k : (k < length cube)%nat -> nth k (map (fun c => map Fin c ++ repeat NaN m) cube) [] = map Fin (nth k cube []) ++ repeat NaN m /\ length (nth k cube []) = n.
Proof.
  intros K. split; [|apply Hc, nth_In, K]. rewrite (nth_indep _ [] (map Fin [] ++ repeat NaN m)) by now rewrite map_length. apply (map_nth (fun c => map Fin c ++ repeat NaN m)).
Qed.
Lemma pair_field i j : (i < length cube)%nat -> (j < length cube)%nat -> i <> j -> at_ i j = covariance ms (nth i cube []) (nth j cube []).
Proof.
  intros I J D. unfold at_. rewrite ordered. unfold var_cov_cube. cbv zeta. rewrite map_length, at2_tab by assumption. destruct (chan i I) as [-> Li]. destruct (chan j J) as [-> Lj].
  destruct (Nat.ltb_spec j i), (Nat.ltb_spec i j); try lia; destruct (Nat.eqb_spec i j), (Nat.eqb_spec j i); try lia.
  - rewrite (cov_tail eps ms _ _ m n) by assumption. cbn. ring.
  - rewrite (cov_tail eps ms _ _ m n) by assumption. cbn. rewrite (covariance_comm ms (nth j cube []) (nth i cube [])) by lia. ring.
Qed.
Lemma own_field i : (i < length cube)%nat -> at_ i i = covariance ms (nth i cube [] ++ repeat eps m) (nth i cube [] ++ repeat eps m).
Proof.
  intros I. unfold at_. rewrite ordered. unfold var_cov_cube. cbv zeta. rewrite map_length, at2_tab by assumption. destruct (chan i I) as [-> Li].
  rewrite Nat.ltb_irrefl, Nat.eqb_refl, (var_tail eps ms _ m n) by assumption. cbn. field.
Qed.
End Field.
Theorem field_pairs : forall eps big ms q n m cube i j, enough ms n -> channels_of n cube -> reorders q (n + m) -> (i < length cube)%nat -> (j < length cube)%nat -> i <> j ->
  at2 0 (var_cov_cube eps big (in_blank_field q m cube) ms) i j = covariance ms (nth i cube []) (nth j cube []).
Proof. intros. eapply pair_field; eauto. Qed.
Theorem field_own : forall eps big ms q n m cube i, enough ms n -> channels_of n cube -> reorders q (n + m) -> (i < length cube)%nat ->
  at2 0 (var_cov_cube eps big (in_blank_field q m cube) ms) i i = covariance ms (nth i cube [] ++ repeat eps m) (nth i cube [] ++ repeat eps m).
Proof. intros. eapply own_field; eauto. Qed.
Lemma lsum_const_sq eps m : lsum (map2 Rmult (repeat eps m) (repeat eps m)) = INR m * eps ^ 2.
Proof. induction m as [|m IH]; [unfold lsum; cbn; ring|]. rewrite S_INR. cbn [repeat map2]. unfold lsum in *. cbn [fold_right]. rewrite IH. ring. Qed.
Theorem field_diluted : forall eps big q n m cube i, (1 <= n)%nat -> channels_of n cube -> reorders q (n + m) -> (i < length cube)%nat ->
  at2 0 (var_cov_cube eps big (in_blank_field q m cube) false) i i =
  (INR n * covariance false (nth i cube []) (nth i cube []) + INR m * eps ^ 2) / (INR n + INR m).
Proof.
  intros eps big q n m cube i Hn Hc Hq Hi. rewrite (field_own eps big false q n m) by assumption. assert (L : length (nth i cube []) = n) by (apply Hc, nth_In, Hi).
  unfold covariance. cbn [centred]. rewrite app_length, repeat_length, L, plus_INR, map2_app, lsum_app, lsum_const_sq by reflexivity.
  assert (0 < INR n) by (apply lt_0_INR; lia). pose proof (pos_INR m). field. lra.
Qed.
Lemma identity_order n : reorders (fun k => k) n.
Proof. unfold reorders. now rewrite map_id. Qed.
Theorem field_negative_refuted : forall eps big, 0 <= eps < 1 -> ~ (forall q n m cube lambda v, (1 <= n)%nat -> channels_of n cube -> reorders q (n + m) ->
  eigen (length cube) (at2 0 (var_cov_cube eps big (in_blank_field q m cube) false)) lambda v -> 0 <= lambda).
Proof.
  intros eps big He H. specialize (H (fun k => k) 1%nat 1%nat [[1]; [1]] ((1 + eps ^ 2) / 2 - 1) (fun i => if Nat.eqb i 0 then 1 else -1) (le_n _)).
  assert (C : channels_of 1 [[1]; [1]]) by (intros c [<-|[<-|[]]]; reflexivity). specialize (H C (identity_order _)). cut (0 <= (1 + eps ^ 2) / 2 - 1); [nra|]. apply H.
  split; [exists 0%nat; split; [cbn; lia|cbn; lra]|].
  assert (V : covariance false [1] [1] = 1) by (unfold covariance, lsum; cbn; field).
  assert (D : forall i, (i < 2)%nat -> at2 0 (var_cov_cube eps big (in_blank_field (fun k => k) 1 [[1]; [1]]) false) i i = (1 + eps ^ 2) / 2).
  { intros i Hi. rewrite (field_diluted eps big (fun k => k) 1 1 [[1]; [1]] i (le_n _) C (identity_order _) Hi). destruct i as [|[|i]]; [| |lia]; cbn [nth]; rewrite V; cbn [INR]; field. }
  assert (O : forall i j, (i < 2)%nat -> (j < 2)%nat -> i <> j -> at2 0 (var_cov_cube eps big (in_blank_field (fun k => k) 1 [[1]; [1]]) false) i j = 1).
  { intros i j Hi Hj N. rewrite (field_pairs eps big false (fun k => k) 1 1 [[1]; [1]] i j (le_n _) C (identity_order _) Hi Hj N). destruct i as [|[|i]]; [| |lia]; destruct j as [|[|j]]; try lia; exact V. }
  intros i Hi. cbn [length] in *. cbn [rsum]. destruct i as [|[|i]]; [| |lia]; rewrite ?D, ?O by lia; cbn [Nat.eqb]; field.
Qed.
