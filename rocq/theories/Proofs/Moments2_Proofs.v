(** Proofs about the moments: scaling, windows, radii, histograms. *)
From Coq Require Import Reals List Bool ZArith Arith Lra Lia FunctionalExtensionality.
From Verif Require Import Lib.PyBase Lib.RSum Lib.Fl Lib.Arr Lib.Hist Spec.Bins Spec.Blank Spec.Distrib Model.Units Model.StatMoments Proofs.Fl_Proofs Proofs.Hist_Proofs Proofs.Moments_Proofs.
Import ListNotations.
Local Open Scope R_scope.

Lemma cmF l : compute_moments (xs_of l) (ws_of l) = cm (F l).
Proof. unfold cm, F, xs_of, ws_of. now rewrite !map_map. Qed.

(** ** Scaling *)
Definition affine (a b : R) (l : list (R * R)) : list (R * R) := map (fun p => (a * fst p + b, snd p)) l.
Lemma affine_total a b l : total (affine a b l) = total l.
Proof. unfold total, affine. now rewrite map_map. Qed.
Lemma affine_avg a b l f : wavg f (affine a b l) = wavg (fun x => f (a * x + b)) l.
Proof. unfold wavg. rewrite affine_total. unfold affine. now rewrite map_map. Qed.
Lemma affine_mean a b l : 0 < total l -> wmean (affine a b l) = a * wmean l + b.
Proof.
  intros H. unfold wmean. rewrite affine_avg. rewrite (wavg_plus l (fun x => a * x) (fun _ => b)), (wavg_scal l a (fun x => x)), wavg_const by exact H. reflexivity.
Qed.
Lemma affine_var a b l : 0 < total l -> wvar (affine a b l) = a ^ 2 * wvar l.
Proof.
  intros H. unfold wvar at 1. rewrite affine_avg, affine_mean by exact H. rewrite (wavg_ext l _ (fun x => a ^ 2 * (x - wmean l) ^ 2)) by (intros; ring). now rewrite wavg_scal.
Qed.
Lemma affine_sd a b l : 0 < total l -> sqrt (wvar (affine a b l)) = Rabs a * sqrt (wvar l).
Proof.
  intros H. rewrite affine_var by exact H. rewrite sqrt_mult_alt by apply pow2_ge_0. f_equal. rewrite <- Rsqr_pow2. apply sqrt_Rsqr_abs.
Qed.
Lemma affine_std a b l : 0 < total l -> a <> 0 -> 0 < wvar l -> forall x,
  (a * x + b - wmean (affine a b l)) / sqrt (wvar (affine a b l)) = sign a * ((x - wmean l) / sqrt (wvar l)).
Proof.
  intros H Ha V x. rewrite affine_sd, affine_mean by exact H. assert (S := sqrt_lt_R0 _ V). unfold sign. destruct (Rlt_dec a 0).
  - rewrite Rabs_left by lra. field. split; lra.
  - rewrite Rabs_right by lra. field. split; lra.
Qed.
Lemma sign_3 a : sign a ^ 3 = sign a. Proof. unfold sign. destruct (Rlt_dec a 0); ring. Qed.
Lemma sign_4 a : sign a ^ 4 = 1. Proof. unfold sign. destruct (Rlt_dec a 0); ring. Qed.
Lemma affine_skew a b l : 0 < total l -> a <> 0 -> 0 < wvar l -> wskew (affine a b l) = sign a * wskew l.
Proof.
  intros H Ha V. unfold wskew at 1. rewrite affine_avg. rewrite (wavg_ext l _ (fun x => sign a * ((x - wmean l) / sqrt (wvar l)) ^ 3)); [now rewrite wavg_scal|].
  intros x. rewrite affine_std by assumption. rewrite Rpow_mult_distr, sign_3. reflexivity.
Qed.
Lemma affine_kurt a b l : 0 < total l -> a <> 0 -> 0 < wvar l -> wkurt (affine a b l) = wkurt l.
Proof.
  intros H Ha V. unfold wkurt at 1. rewrite affine_avg. rewrite (wavg_ext l _ (fun x => ((x - wmean l) / sqrt (wvar l)) ^ 4)); [reflexivity|].
  intros x. rewrite affine_std by assumption. rewrite Rpow_mult_distr, sign_4. ring.
Qed.

Lemma cm_cases l : (forall p, In p l -> 0 <= snd p) -> 0 < total l ->
  (0 < wvar l /\ cm (F l) = (Fin (wmean l), Fin (wvar l), Fin (wskew l), Fin (wkurt l))) \/
  (wvar l = 0 /\ cm (F l) = (Fin (wmean l), Fin 0, Fin 0, Fin (-3))).
Proof.
  intros Hn Hp. destruct (var_nonneg l Hn Hp) as [V|V]; [left|right]; (split; [auto|]).
  - apply cm_real; [lra|exact V].
  - now apply cm_degenerate.
Qed.

Lemma moments_laws l : (forall p, In p l -> 0 <= snd p) -> 0 < total l -> exists m v s k,
  compute_moments (xs_of l) (ws_of l) = (Fin m, Fin v, Fin s, Fin k) /\
  (forall lo hi, (forall p, In p l -> lo <= fst p <= hi) -> lo <= m <= hi) /\ 0 <= v /\ (0 < v -> s ^ 2 + 1 <= k + 3).
Proof.
  intros Hn Hp. rewrite cmF. destruct (cm_cases l Hn Hp) as [[V E]|[V E]]; rewrite E.
  - exists (wmean l), (wvar l), (wskew l), (wkurt l). split; [reflexivity|]. split; [intros lo hi B; now apply mean_between|].
    split; [lra|]. intros _. now apply pearson.
  - exists (wmean l), 0, 0, (-3). split; [reflexivity|]. split; [intros lo hi B; now apply mean_between|]. split; [lra|]. intros; lra.
Qed.
Lemma moments_meaning l : (forall p, In p l -> 0 <= snd p) -> 0 < total l -> 0 < wvar l ->
  compute_moments (xs_of l) (ws_of l) = (Fin (wmean l), Fin (wvar l), Fin (wskew l), Fin (wkurt l)).
Proof. intros Hn Hp V. rewrite cmF. apply cm_real; [lra|exact V]. Qed.
Lemma moments_affine l a b m v s k : (forall p, In p l -> 0 <= snd p) -> 0 < total l -> a <> 0 ->
  compute_moments (xs_of l) (ws_of l) = (Fin m, Fin v, Fin s, Fin k) ->
  compute_moments (xs_of (map (fun p => (a * fst p + b, snd p)) l)) (ws_of (map (fun p => (a * fst p + b, snd p)) l)) =
  (Fin (a * m + b), Fin (a ^ 2 * v), Fin (sign a * s), Fin k).
Proof.
  intros Hn Hp Ha. fold (affine a b l). rewrite !cmF. intros E.
  assert (Hn' : forall p, In p (affine a b l) -> 0 <= snd p).
  { intros p H. apply in_map_iff in H. destruct H as [q [<- Hq]]. cbn [snd]. now apply Hn. }
  assert (Hp' : 0 < total (affine a b l)) by now rewrite affine_total.
  assert (A2 : 0 < a ^ 2) by (rewrite <- Rsqr_pow2; now apply Rsqr_pos_lt).
  destruct (cm_cases l Hn Hp) as [[V C]|[V C]]; rewrite C in E; inversion E; subst; clear E.
  - rewrite cm_real by (rewrite ?affine_total, ?affine_var by exact Hp; try lra; nra).
    rewrite affine_mean, affine_var, affine_skew, affine_kurt by assumption. reflexivity.
  - rewrite (cm_degenerate _ Hn' Hp') by (rewrite affine_var by exact Hp; rewrite V; ring).
    rewrite affine_mean by assumption. repeat f_equal; ring.
Qed.

Lemma pearson_refuted : ~ (forall l, l <> [] -> (forall p, In p l -> 0 <= snd p) -> 0 < total l -> forall m v s k,
  compute_moments (xs_of l) (ws_of l) = (Fin m, Fin v, Fin s, Fin k) -> s ^ 2 + 1 <= k + 3).
Proof.
  intros H. set (l := [(5, 1); (5, 1)]). assert (Hn : forall p, In p l -> 0 <= snd p) by (intros p [<-|[<-|[]]]; cbn; lra).
  assert (T : total l = 2) by (unfold total, l, lsum; cbn; lra). assert (Hp : 0 < total l) by lra.
  assert (M : wmean l = 5) by (unfold wmean, wavg; rewrite T; unfold l, lsum; cbn; lra).
  assert (V : wvar l = 0) by (unfold wvar, wavg; rewrite T, M; unfold l, lsum; cbn; lra).
  assert (N : l <> []) by (unfold l; discriminate).
  pose proof (cm_degenerate l Hn Hp V) as E. rewrite <- cmF in E. specialize (H l N Hn Hp _ _ _ _ E). lra.
Qed.

(** ** Blanks *)
Lemma cmI_drop {A} (keep : A -> bool) (g h : A -> fl) l : (forall p, In p l -> keep p = false -> h p = NaN) ->
  compute_moments (map g l) (map h l) = compute_moments (map g (filter keep l)) (map h (filter keep l)).
Proof.
  intros H. assert (M : forall (f : fl -> fl -> fl) k, map2 f (map g k) (map h k) = map (fun p => f (g p) (h p)) k).
  { intros f k. induction k as [|a k IH]; cbn; [reflexivity|]. now rewrite IH. }
  unfold compute_moments. cbv zeta. rewrite !M.
  rewrite (nansum_filter keep h l) by exact H.
  rewrite (nansum_filter keep (fun p => fmul (g p) (h p)) l) by (intros p Hp E; rewrite (H p Hp E); apply fmul_NaN_r).
  set (m := fdiv (nansum (map (fun p => fmul (g p) (h p)) (filter keep l))) (nansum (map h (filter keep l)))).
  rewrite (nansum_filter keep (fun p => fmul (h p) (fsqr (fsub (g p) m))) l) by (intros p Hp E; now rewrite (H p Hp E)).
  set (s := fsqrt _).
  rewrite (nansum_filter keep (fun p => fmul (h p) (fcube (fdiv (fsub (g p) m) s))) l) by (intros p Hp E; now rewrite (H p Hp E)).
  rewrite (nansum_filter keep (fun p => fmul (h p) (fquart (fdiv (fsub (g p) m) s))) l) by (intros p Hp E; now rewrite (H p Hp E)).
  reflexivity.
Qed.
Lemma blanks_dropped l : (forall x w, In (x, w) l -> x = NaN -> w = NaN) ->
  compute_moments (map fst l) (map snd l) =
  compute_moments (map fst (filter (fun p => negb (is_nan (fst p)) && negb (is_nan (snd p))) l)) (map snd (filter (fun p => negb (is_nan (fst p)) && negb (is_nan (snd p))) l)).
Proof.
  intros H. apply cmI_drop. intros [x w] Hp E. cbn [fst snd] in *. destruct x, w; cbn in E; try discriminate; try reflexivity; now apply (H NaN _ Hp).
Qed.
(** The mean when the weights of the blanks count. *)
Lemma blank_bias (l : list (option R * R)) :
  let valid := flat_map (fun p => match fst p with Some x => [(x, snd p)] | None => [] end) l in
  lsum (map snd l) <> 0 -> total valid <> 0 ->
  fst (fst (fst (compute_moments (map (fun p => match fst p with Some x => Fin x | None => NaN end) l) (map (fun p => Fin (snd p)) l)))) =
  Fin (wmean valid * (total valid / lsum (map snd l))).
Proof.
  cbv zeta. intros H T. unfold compute_moments. cbv zeta. cbn [fst].
  assert (M : map2 fmul (map (fun p : option R * R => match fst p with Some x => Fin x | None => NaN end) l) (map (fun p => Fin (snd p)) l) = map (fun p => match fst p with Some x => Fin (x * snd p) | None => NaN end) l).
  { clear. induction l as [|[[x|] w] l IH]; cbn; [reflexivity| |]; now rewrite IH. }
  rewrite M. rewrite (nansum_Fin_map snd l).
  assert (N : nansum (map (fun p : option R * R => match fst p with Some x => Fin (x * snd p) | None => NaN end) l) =
    Fin (lsum (map (fun q => snd q * fst q) (flat_map (fun p => match fst p with Some x => [(x, snd p)] | None => [] end) l)))).
  { clear. induction l as [|[[x|] w] l IH]; [reflexivity| |].
    - cbn [map flat_map fst snd app]. rewrite lsum_cons. unfold nansum, nonnan in *. cbn [filter is_nan negb fsum fold_right]. fold (fsum (filter (fun x => negb (is_nan x)) (map (fun p : option R * R => match fst p with Some x => Fin (x * snd p) | None => NaN end) l))).
      rewrite IH. cbn [fadd]. f_equal. ring.
    - cbn [map flat_map fst snd app]. unfold nansum, nonnan in *. cbn [filter is_nan negb]. exact IH. }
  rewrite N, fdiv_fin by exact H. f_equal. unfold wmean, wavg. field. split; [exact H|exact T].
Qed.
Definition two_blank (i j : nat) : fl := match j with O => Fin 1 | _ => NaN end.
Lemma blanks_refuted : ~ (forall n0 n1 (data : image) (valid : list R),
  fins (flat n0 n1 data) = valid -> Forall blankable (flat n0 n1 data) -> valid <> [] ->
  fst (fst (fst (array_moments n0 n1 data None))) = Fin (rmean valid)).
Proof.
  intros H. specialize (H 1%nat 2%nat two_blank [1] eq_refl ltac:(repeat constructor) ltac:(discriminate)).
  pose proof (blank_bias [(Some 1, 1); (None, 1)]) as B. cbv zeta in B.
  assert (S : lsum (map snd [(Some 1, 1); (@None R, 1)]) = 2) by (unfold lsum; cbn; lra).
  assert (T : total (flat_map (fun p => match fst p with Some x => [(x, snd p)] | None => [] end) [(Some 1, 1); (None, 1)]) = 1) by (unfold total, lsum; cbn; lra).
  rewrite S, T in B. specialize (B ltac:(lra) ltac:(lra)).
  assert (E : fst (fst (fst (array_moments 1 2 two_blank None))) = Fin (1 / 2)).
  { unfold array_moments, flat. cbn [list_prod seq map app two_blank weights_of fst snd]. etransitivity; [exact B|]. f_equal. unfold wmean, wavg. rewrite T. unfold lsum. cbn. lra. }
  rewrite E in H. unfold rmean, lsum in H. cbn in H. inversion H. lra.
Qed.

(** ** Windows *)
Lemma filter_map {A B} (f : A -> B) (P : B -> bool) l : filter P (map f l) = map f (filter (fun x => P (f x)) l).
Proof. induction l as [|a l IH]; cbn; [reflexivity|]. rewrite IH. destruct (P (f a)); reflexivity. Qed.
Lemma list_prod_map {A B C D} (f : A -> B) (g : C -> D) l k : list_prod (map f l) (map g k) = map (fun p => (f (fst p), g (snd p))) (list_prod l k).
Proof.
  induction l as [|a l IH]; cbn; [reflexivity|]. rewrite IH, map_app, !map_map. reflexivity.
Qed.
Definition off (r : nat) (p : nat * nat) : Z * Z := ((Z.of_nat (fst p) - Z.of_nat r)%Z, (Z.of_nat (snd p) - Z.of_nat r)%Z).
Lemma square_eq r : square r = map (off r) (list_prod (seq 0 (2 * r + 1)) (seq 0 (2 * r + 1))).
Proof. unfold square, span. rewrite list_prod_map. reflexivity. Qed.

Lemma slice_at n0 n1 r per a y x p : slice2 (pad n0 n1 r per a) (y + r) (x + r) r (fst p) (snd p) = at_offset per n0 n1 a y x (off r p).
Proof.
  unfold slice2, pad, at_offset, wrapped, or_blank, off. cbn [fst snd]. destruct per.
  - do 2 f_equal; f_equal; lia.
  - cbv zeta. replace (y + r - r + fst p)%nat with (y + fst p)%nat by lia. replace (x + r - r + snd p)%nat with (x + snd p)%nat by lia.
    destruct (Nat.leb_spec r (y + fst p)), (Nat.ltb_spec (y + fst p) (n0 + r)), (Nat.leb_spec r (x + snd p)), (Nat.ltb_spec (x + snd p) (n1 + r)); cbn [andb];
    destruct (Z.leb_spec 0 (Z.of_nat y + (Z.of_nat (fst p) - Z.of_nat r))), (Z.ltb_spec (Z.of_nat y + (Z.of_nat (fst p) - Z.of_nat r)) (Z.of_nat n0)),
      (Z.leb_spec 0 (Z.of_nat x + (Z.of_nat (snd p) - Z.of_nat r))), (Z.ltb_spec (Z.of_nat x + (Z.of_nat (snd p) - Z.of_nat r)) (Z.of_nat n1)); cbn [andb]; try lia; try reflexivity.
    f_equal; lia.
Qed.
Lemma frac_eq n0 n1 r per a y x : valid_frac (2 * r + 1) (slice2 (pad n0 n1 r per a) (y + r) (x + r) r) = finite_share (map (at_offset per n0 n1 a y x) (square r)).
Proof.
  unfold valid_frac, finite_share. rewrite square_eq, map_length, map_length, prod_length, seq_length.
  assert (E : flat (2 * r + 1) (2 * r + 1) (slice2 (pad n0 n1 r per a) (y + r) (x + r) r) = map (at_offset per n0 n1 a y x) (map (off r) (list_prod (seq 0 (2 * r + 1)) (seq 0 (2 * r + 1))))).
  { unfold flat. rewrite map_map. apply map_ext. intros p. apply slice_at. }
  now rewrite E.
Qed.
Lemma fmul_1_r v : fmul v (Fin 1) = v.
Proof. destruct v; cbn; unfold sinf; try (destruct (Rltb_spec 0 1); [|lra]); try reflexivity. f_equal. ring. Qed.

Lemma window n0 n1 r per mf data weights y x :
  local_moments n0 n1 r per mf data weights y x =
  if Rltb (finite_share (map (at_offset per n0 n1 data y x) (square r))) mf || Rltb (finite_share (map (at_offset per n0 n1 weights y x) (square r))) mf
  then (NaN, NaN, NaN, NaN)
  else compute_moments (map (at_offset per n0 n1 data y x) (disc r)) (map (at_offset per n0 n1 weights y x) (disc r)).
Proof.
  unfold local_moments. cbv zeta. rewrite !frac_eq. destruct (Rltb _ mf || Rltb _ mf); [reflexivity|].
  unfold flat. set (L := list_prod (seq 0 (2 * r + 1)) (seq 0 (2 * r + 1))).
  set (keep := fun p : nat * nat => negb (is_nan (circular_region r (fst p) (snd p)))).
  rewrite (cmI_drop keep (fun p => fmul (slice2 (pad n0 n1 r per data) (y + r) (x + r) r (fst p) (snd p)) (circular_region r (fst p) (snd p)))
    (fun p => fmul (slice2 (pad n0 n1 r per weights) (y + r) (x + r) r (fst p) (snd p)) (circular_region r (fst p) (snd p))) L).
  2:{ intros p _ K. unfold keep in K. destruct (circular_region r (fst p) (snd p)); cbn in K; try discriminate. apply fmul_NaN_r. }
  assert (D : disc r = map (off r) (filter keep L)).
  { unfold disc. change (list_prod (span r) (span r)) with (square r). rewrite square_eq, filter_map. f_equal. apply filter_ext. intros p. unfold keep, circular_region, off. cbn [fst snd].
    destruct (Z.ltb _ _); reflexivity. }
  assert (K1 : forall p, In p (filter keep L) -> circular_region r (fst p) (snd p) = Fin 1).
  { intros p Hp. apply filter_In in Hp. destruct Hp as [_ Hp]. unfold keep in Hp. revert Hp. unfold circular_region. cbv zeta. destruct (Z.ltb _ _); [reflexivity|discriminate]. }
  rewrite D, !map_map. f_equal; apply map_ext_in; intros p Hp; rewrite (K1 p Hp), fmul_1_r; apply slice_at.
Qed.

Lemma share_all l : l <> [] -> (forall v, In v l -> is_fin v = true) -> finite_share l = 1.
Proof.
  intros H A. unfold finite_share. assert (E : filter is_fin l = l).
  { clear H. induction l as [|v l IH]; [reflexivity|]. cbn [filter]. rewrite (A v) by now left. rewrite IH; [reflexivity|]. intros; apply A; now right. }
  rewrite E. apply Rinv_r. apply not_0_INR. destruct l; [contradiction|discriminate].
Qed.
Lemma square_ne r : square r <> [].
Proof. intros E. apply (f_equal (@length _)) in E. rewrite square_eq, map_length, prod_length, seq_length in E. cbn in E. nia. Qed.
Lemma map_ne {A B} (f : A -> B) l : l <> [] -> map f l <> [].
Proof. destruct l; [contradiction|discriminate]. Qed.

Lemma wrapped_fin n0 n1 a y x d : (0 < n0)%nat -> (0 < n1)%nat -> (forall i j, (i < n0)%nat -> (j < n1)%nat -> is_fin (a i j) = true) -> is_fin (wrapped n0 n1 a y x d) = true.
Proof.
  intros H0 H1 H. unfold wrapped. apply H.
  - pose proof (Z.mod_pos_bound (Z.of_nat y + fst d) (Z.of_nat n0) ltac:(lia)). lia.
  - pose proof (Z.mod_pos_bound (Z.of_nat x + snd d) (Z.of_nat n1) ltac:(lia)). lia.
Qed.
Lemma window_periodic n0 n1 r mf data weights y x : (0 < n0)%nat -> (0 < n1)%nat -> mf <= 1 ->
  (forall i j, (i < n0)%nat -> (j < n1)%nat -> is_fin (data i j) = true) -> (forall i j, (i < n0)%nat -> (j < n1)%nat -> is_fin (weights i j) = true) ->
  local_moments n0 n1 r true mf data weights y x = compute_moments (map (wrapped n0 n1 data y x) (disc r)) (map (wrapped n0 n1 weights y x) (disc r)).
Proof.
  intros H0 H1 Hm Hd Hw. rewrite window. unfold at_offset.
  rewrite !share_all; try (apply map_ne, square_ne); try (intros v Hv; apply in_map_iff in Hv; destruct Hv as [d [<- _]]; now apply wrapped_fin).
  destruct (Rltb_spec 1 mf); [lra|]. reflexivity.
Qed.

(** Shifted images. *)
Lemma shift_index n y s k : (0 < n)%nat ->
  ((Z.to_nat ((Z.of_nat y + k) mod Z.of_nat n) + s) mod n)%nat = Z.to_nat ((Z.of_nat ((y + s) mod n) + k) mod Z.of_nat n).
Proof.
  intros H. apply Nat2Z.inj. rewrite Nat2Z.inj_mod, Nat2Z.inj_add. rewrite !Z2Nat.id by (apply Z.mod_pos_bound; lia). rewrite Nat2Z.inj_mod, Nat2Z.inj_add.
  rewrite Z.add_mod_idemp_l by lia. rewrite Z.add_mod_idemp_l by lia. f_equal. lia.
Qed.
Lemma wrapped_shift n0 n1 s t a y x d : (0 < n0)%nat -> (0 < n1)%nat ->
  wrapped n0 n1 (shifted n0 n1 s t a) y x d = wrapped n0 n1 a ((y + s) mod n0)%nat ((x + t) mod n1)%nat d.
Proof. intros H0 H1. unfold wrapped, shifted. now rewrite !shift_index. Qed.
Lemma maps_shift n0 n1 r mf data weights s t y x : (0 < n0)%nat -> (0 < n1)%nat ->
  local_moments n0 n1 r true mf (shifted n0 n1 s t data) (shifted n0 n1 s t weights) y x =
  local_moments n0 n1 r true mf data weights ((y + s) mod n0)%nat ((x + t) mod n1)%nat.
Proof.
  intros H0 H1. rewrite !window. unfold at_offset.
  replace (wrapped n0 n1 (shifted n0 n1 s t data) y x) with (wrapped n0 n1 data ((y + s) mod n0)%nat ((x + t) mod n1)%nat) by (apply functional_extensionality; intros d; symmetry; now apply wrapped_shift).
  replace (wrapped n0 n1 (shifted n0 n1 s t weights) y x) with (wrapped n0 n1 weights ((y + s) mod n0)%nat ((x + t) mod n1)%nat) by (apply functional_extensionality; intros d; symmetry; now apply wrapped_shift).
  reflexivity.
Qed.

(** ** The share of finite values *)
Definition corner (i j : nat) : fl := match i, j with O, O => NaN | _, _ => Fin 1 end.
Definition ones (i j : nat) : fl := Fin 1.
Lemma ones_moments n : (0 < n)%nat -> exists m v s k, compute_moments (repeat (Fin 1) n) (repeat (Fin 1) n) = (Fin m, Fin v, Fin s, Fin k).
Proof.
  intros H. destruct (moments_laws (repeat (1, 1) n)) as [m [v [s [k [E _]]]]].
  - intros p Hp. apply repeat_spec in Hp. subst. cbn. lra.
  - unfold total. replace (map snd (repeat (1, 1) n)) with (repeat 1 n) by (clear; induction n; cbn; congruence).
    destruct n as [|n]; [lia|]. cbn [repeat]. rewrite lsum_cons. assert (0 <= lsum (repeat 1 n)); [|lra]. apply lsum_nonneg. intros x Hx. apply repeat_spec in Hx. lra.
  - exists m, v, s, k. rewrite <- E. unfold xs_of, ws_of. f_equal; clear; (induction n; cbn [repeat map fst snd]; [reflexivity|now rewrite IHn]).
Qed.
Lemma disc_2_corner : map (at_offset false 5 5 corner 2 2) (disc 2) = repeat (Fin 1) 9. Proof. reflexivity. Qed.
Lemma disc_2_ones : map (at_offset false 5 5 ones 2 2) (disc 2) = repeat (Fin 1) 9. Proof. reflexivity. Qed.
Lemma share_ones n : (0 < n)%nat -> finite_share (repeat (Fin 1) n) = 1.
Proof. intros H. apply share_all; [destruct n; [lia|discriminate]|]. intros v Hv. apply repeat_spec in Hv. now subst. Qed.
Lemma circle_refuted : ~ (forall n0 n1 r per mf data weights y x, 0 < mf <= 1 ->
  mf <= finite_share (map (at_offset per n0 n1 data y x) (disc r)) -> mf <= finite_share (map (at_offset per n0 n1 weights y x) (disc r)) ->
  local_moments n0 n1 r per mf data weights y x =
  compute_moments (map (at_offset per n0 n1 data y x) (disc r)) (map (at_offset per n0 n1 weights y x) (disc r))).
Proof.
  intros H. specialize (H 5%nat 5%nat 2%nat false 1 corner ones 2%nat 2%nat). rewrite disc_2_corner, disc_2_ones, share_ones in H by lia.
  assert (A : 0 < 1 <= 1) by lra. assert (B : 1 <= 1) by lra. specialize (H A B B). rewrite window in H.
  assert (S : finite_share (map (at_offset false 5 5 corner 2 2) (square 2)) < 1).
  { unfold finite_share. replace (length (filter is_fin (map (at_offset false 5 5 corner 2 2) (square 2)))) with 24%nat by reflexivity.
    replace (length (map (at_offset false 5 5 corner 2 2) (square 2))) with 25%nat by reflexivity.
    replace (INR 25) with (INR 24 + 1) by (rewrite <- S_INR; reflexivity). assert (0 < INR 24) by (apply lt_0_INR; lia). apply (Rmult_lt_reg_r (INR 24 + 1)); [lra|]. unfold Rdiv. rewrite Rmult_assoc, Rinv_l; lra. }
  destruct (Rltb_spec (finite_share (map (at_offset false 5 5 corner 2 2) (square 2))) 1); [|lra]. cbn [orb] in H.
  destruct (ones_moments 9 ltac:(lia)) as [m [v [s [k E]]]]. rewrite E in H. discriminate.
Qed.
(** A blank-free square is enough. *)
Lemma full_square n0 n1 r per mf data weights y x : mf <= 1 ->
  (forall d, In d (square r) -> is_fin (at_offset per n0 n1 data y x d) = true) -> (forall d, In d (square r) -> is_fin (at_offset per n0 n1 weights y x d) = true) ->
  local_moments n0 n1 r per mf data weights y x =
  compute_moments (map (at_offset per n0 n1 data y x) (disc r)) (map (at_offset per n0 n1 weights y x) (disc r)).
Proof.
  intros Hm Hd Hw. rewrite window. rewrite !share_all; try (apply map_ne, square_ne); try (intros v Hv; apply in_map_iff in Hv; destruct Hv as [d [<- K]]; auto).
  destruct (Rltb_spec 1 mf); [lra|]. reflexivity.
Qed.

(** ** run *)
Definition pix_q (v : R) : quantity := mk_q [v] pix.
Lemma to_pixel_pix s v : to_pixel s (pix_q v) = Ok (pix_q v). Proof. reflexivity. Qed.
Lemma run_refuted : ~ (forall s n0 n1 data weights self_radius radius periodic mf,
  run_maps s n0 n1 data weights self_radius radius periodic mf = compute_spatial_distrib s n0 n1 data weights self_radius radius periodic mf).
Proof.
  intros H. specialize (H (mk_stat None None) 5%nat 5%nat ones ones (pix_q 2) None true 2). revert H. unfold run_maps, compute_spatial_distrib.
  destruct (Rleb_spec (8 / 10) 0); [lra|]. destruct (Rltb_spec 1 (8 / 10)); [lra|]. destruct (Rltb_spec 1 2); [|lra]. rewrite orb_true_r. cbn [orb bind]. rewrite to_pixel_pix. cbn [bind]. discriminate.
Qed.
Lemma run_default s n0 n1 data weights self_radius radius periodic mf :
  run_maps s n0 n1 data weights self_radius radius periodic mf = compute_spatial_distrib s n0 n1 data weights self_radius radius periodic (8 / 10).
Proof. reflexivity. Qed.

(** ** Radii *)
Lemma Int_val x n : IZR n <= x < IZR n + 1 -> Int_part x = n.
Proof.
  intros [H1 H2]. destruct (base_Int_part x) as [A B]. assert (IZR (Int_part x) < IZR (n + 1)) by (rewrite plus_IZR; lra). assert (IZR n < IZR (Int_part x + 1)) by (rewrite plus_IZR; lra).
  apply lt_IZR in H, H0. lia.
Qed.
Lemma ceil_nat v k : INR k - 1 < v <= INR k -> Z.to_nat (ceil v) = k.
Proof.
  intros [H1 H2]. unfold ceil. assert (E : (- Z.of_nat k)%Z = Int_part (- v)).
  { symmetry. apply Int_val. rewrite opp_IZR, <- INR_IZR_INZ. lra. }
  rewrite <- E. lia.
Qed.
Lemma radius_rule s n0 n1 q v k p : to_pixel s q = Ok p -> hd 0 (q_vals p) = v -> INR k - 1 < v <= INR k ->
  forall data weights self_radius periodic mf, 0 < mf <= 1 ->
  compute_spatial_distrib s n0 n1 data weights self_radius (Some q) periodic mf =
  if Rleb 2 v && Rleb v (INR (Nat.min n0 n1) / 2) then Ok (local_moments n0 n1 k periodic mf data weights) else Err ValueError.
Proof.
  intros Hp Hv Hk data weights sr per mf Hm. unfold compute_spatial_distrib.
  destruct (Rleb_spec mf 0); [lra|]. destruct (Rltb_spec 1 mf); [lra|]. cbn [orb].
  unfold set_radius. rewrite Hp. cbn [bind]. rewrite Hv. set (h := INR (Nat.min n0 n1) / 2).
  destruct (Rltb_spec v 2), (Rleb_spec 2 v); try lra; cbn [bind andb]; [reflexivity|].
  destruct (Rltb_spec h v), (Rleb_spec v h); try lra; cbn [bind]; [reflexivity|]. rewrite Hp. cbn [bind]. rewrite Hv, (ceil_nat v k Hk). reflexivity.
Qed.
Lemma window_fin_2 : exists m v s k, local_moments 10 10 2 false 1 ones ones 2 2 = (Fin m, Fin v, Fin s, Fin k).
Proof.
  rewrite full_square; [|lra| |].
  - change (map (at_offset false 10 10 ones 2 2) (disc 2)) with (repeat (Fin 1) 9). apply ones_moments. lia.
  - apply forallb_forall. reflexivity.
  - apply forallb_forall. reflexivity.
Qed.
Lemma window_nan_3 : local_moments 10 10 3 false 1 ones ones 2 2 = (NaN, NaN, NaN, NaN).
Proof.
  rewrite window. assert (S : finite_share (map (at_offset false 10 10 ones 2 2) (square 3)) < 1).
  { unfold finite_share. replace (length (filter is_fin (map (at_offset false 10 10 ones 2 2) (square 3)))) with 36%nat by reflexivity.
    replace (length (map (at_offset false 10 10 ones 2 2) (square 3))) with 49%nat by reflexivity.
    apply (Rmult_lt_reg_r (INR 49)); [apply lt_0_INR; lia|]. unfold Rdiv. rewrite Rmult_assoc, Rinv_l by (apply not_0_INR; lia). rewrite Rmult_1_r, Rmult_1_l. apply lt_INR. lia. }
  destruct (Rltb_spec (finite_share (map (at_offset false 10 10 ones 2 2) (square 3))) 1); [|lra]. reflexivity.
Qed.
Lemma radius_refuted : ~ (forall s n0 n1 v data weights self_radius periodic mf, 0 < mf <= 1 -> 2 <= v <= INR (Nat.min n0 n1) / 2 ->
  compute_spatial_distrib s n0 n1 data weights self_radius (Some (pix_q v)) periodic mf = Ok (local_moments n0 n1 (Z.to_nat (Int_part v)) periodic mf data weights)).
Proof.
  intros H. assert (A : 0 < 1 <= 1) by lra. assert (B : 2 <= 5 / 2 <= INR (Nat.min 10 10) / 2) by (cbn; lra).
  specialize (H (mk_stat None None) 10%nat 10%nat (5 / 2) ones ones (pix_q 2) false 1 A B).
  rewrite (radius_rule _ 10 10 (pix_q (5 / 2)) (5 / 2) 3 (pix_q (5 / 2))) in H; [|reflexivity|reflexivity|cbn; lra|lra].
  destruct (Rleb_spec 2 (5 / 2)); [|lra]. destruct (Rleb_spec (5 / 2) (INR (Nat.min 10 10) / 2)); [|lra]. cbn [andb] in H.
  assert (I : Int_part (5 / 2) = 2%Z) by (apply Int_val; lra). rewrite I in H.
  apply (f_equal (fun r => match r with Ok f => f 2%nat 2%nat | Err _ => (NaN, NaN, NaN, NaN) end)) in H. change (Z.to_nat 2) with 2%nat in H.
  destruct window_fin_2 as [m [v [s [k E]]]]. rewrite E, window_nan_3 in H. discriminate.
Qed.

(** ** Distance *)
Lemma radii_common s1 s2 radius : 0 < s1 -> 0 < s2 -> let '(r1, r2) := distance_radii (s2 / s1) radius in
  r1 * s1 = r2 * s2 /\ (s2 <= s1 -> r1 = radius) /\ (s1 <= s2 -> r2 = radius).
Proof.
  intros H1 H2. unfold distance_radii. assert (E : s2 = s2 / s1 * s1) by (field; lra). assert (0 < s2 / s1) by (apply Rdiv_lt_0_compat; lra). revert E H. generalize (s2 / s1). intros c E H.
  destruct (Reqb_spec c 1) as [K|K].
  - rewrite K, Rmult_1_l in E. rewrite E. repeat split; reflexivity.
  - destruct (Rltb_spec 1 c) as [L|L].
    + split; [rewrite E; ring|]. split; intros; [|reflexivity]. exfalso. assert (0 < (c - 1) * s1) by (apply Rmult_lt_0_compat; lra). lra.
    + split; [rewrite E; field; lra|]. split; intros; [reflexivity|]. exfalso. assert (0 < (1 - c) * s1) by (apply Rmult_lt_0_compat; lra). lra.
Qed.

Lemma spatial_pdf arr n c h : (0 < n)%nat -> fins arr <> [] -> spatial_histogram arr None (Some (NumBins n)) = Ok (c, h) ->
  exists edges, is_pdf edges h /\ c = mid edges /\ length c = n /\ (forall x, In (Fin x) arr -> in_range edges x).
Proof.
  intros Hn Hf E. unfold spatial_histogram, histogram_fl in E. destruct (forallb is_fin (nonnan arr)) eqn:A; [|discriminate].
  assert (N : fins (nonnan arr) = fins arr). { clear. unfold nonnan. induction arr as [|[x| | |] l IH]; cbn [filter is_nan negb]; [reflexivity| | | |exact IH]; unfold fins in *; cbn [flat_map app]; now rewrite IH. }
  rewrite N in E. destruct (histogram (fins arr) (NumBins n)) as [[g e]|] eqn:H; [|discriminate]. cbn [bind] in E. inversion E; subst. exists e.
  split; [now apply (histogram_auto (fins arr) n)|]. split; [reflexivity|].
  unfold histogram, bind in H. destruct (bin_edges (fins arr) (NumBins n)) as [e'|] eqn:B; [|discriminate]. inversion H; subst. destruct (auto_edges _ _ _ B) as [_ [L [_ I]]].
  split; [unfold mid; rewrite tab1_length; lia|]. intros x Hx. apply I. apply in_fins, Hx.
Qed.
Lemma spatial_works arr n : (0 < n)%nat -> Forall blankable arr -> is_ok (spatial_histogram arr None (Some (NumBins n))) = true.
Proof.
  intros Hn Hb. unfold spatial_histogram, histogram_fl.
  assert (A : forallb is_fin (nonnan arr) = true). { apply forallb_forall. intros v Hv. unfold nonnan in Hv. apply filter_In in Hv. destruct Hv as [Hv K]. rewrite Forall_forall in Hb. specialize (Hb v Hv). destruct v; cbn in *; try discriminate; [reflexivity|destruct Hb|destruct Hb]. }
  rewrite A. unfold histogram, bind. destruct n as [|n]; [lia|]. cbn [bin_edges]. destruct (outer_edges _). reflexivity.
Qed.
Lemma precomputed_refuted : ~ (forall nbins auto pre1 pre2 mean1 mean2, (0 < auto)%nat -> (forall n, nbins = Some n -> (0 < n)%nat) ->
  (forall n d, pre1 = Some (n, d) -> (0 < n)%nat) -> (forall n d, pre2 = Some (n, d) -> (0 < n)%nat) -> Forall blankable mean1 -> Forall blankable mean2 ->
  is_ok (distance_mean_hists nbins auto pre1 pre2 mean1 mean2) = true).
Proof.
  intros H. specialize (H None 3%nat (Some (3%nat, true)) None [Fin 1; Fin 2] [Fin 1; Fin 2] ltac:(lia)).
  discriminate H; [discriminate| |discriminate|repeat constructor|repeat constructor]. intros n d E. inversion E. lia.
Qed.
Lemma precomputed_works nbins auto pre1 pre2 mean1 mean2 : (0 < auto)%nat -> (forall n, nbins = Some n -> (0 < n)%nat) ->
  (forall n d, pre1 = Some (n, d) -> (0 < n)%nat) -> (forall n d, pre2 = Some (n, d) -> (0 < n)%nat) -> Forall blankable mean1 -> Forall blankable mean2 ->
  is_ok (distance_mean_hists nbins auto pre1 pre2 mean1 mean2) = true <-> ~ (nbins = None /\ exists n, pre1 = Some (n, true)).
Proof.
  intros Ha Hn H1 H2 B1 B2.
  assert (S : (0 < match nbins with None => auto | Some n => n end)%nat) by (destruct nbins as [n|]; [now apply Hn|exact Ha]).
  assert (N2 : exists n, distance_nbins2 nbins auto pre2 = Some n /\ (0 < n)%nat).
  { unfold distance_nbins2. destruct pre2 as [[n d]|]; [exists n; split; [reflexivity|now apply (H2 n d)]|]. eexists. split; [reflexivity|exact S]. }
  destruct N2 as [k2 [E2 P2]]. unfold distance_mean_hists. rewrite E2. cbn [option_map].
  pose proof (spatial_works mean2 k2 P2 B2) as W2.
  assert (C : forall k1, distance_nbins1 nbins auto pre1 = Some k1 -> (0 < k1)%nat -> is_ok (h1 <- spatial_histogram mean1 None (option_map NumBins (distance_nbins1 nbins auto pre1)) ;; h2 <- spatial_histogram mean2 None (Some (NumBins k2)) ;; Ok (h1, h2)) = true).
  { intros k1 E1 P1. rewrite E1. cbn [option_map]. pose proof (spatial_works mean1 k1 P1 B1) as W1.
    destruct (spatial_histogram mean1 None (Some (NumBins k1))); [|discriminate]. destruct (spatial_histogram mean2 None (Some (NumBins k2))); [|discriminate]. reflexivity. }
  destruct pre1 as [[n [|]]|].
  - destruct nbins as [m|].
    + rewrite (C m) by (try reflexivity; now apply Hn). split; [intros _ [K _]; discriminate|reflexivity].
    + cbn. split; [discriminate|]. intros K. exfalso. apply K. split; [reflexivity|]. now exists n.
  - rewrite (C n) by (try reflexivity; now apply (H1 n false)). split; [intros _ [_ [q K]]; discriminate|reflexivity].
  - rewrite (C (match nbins with None => auto | Some n => n end)) by (try reflexivity; exact S). split; [intros _ [_ [q K]]; discriminate|reflexivity].
Qed.

(** ** Examples *)
Definition two : list (R * R) := [(0, 1); (2, 1)].
Lemma two_example : (forall p, In p two -> 0 <= snd p) /\ 0 < total two /\ wmean two = 1 /\ wvar two = 1.
Proof.
  assert (T : total two = 2) by (unfold total, two, lsum; cbn; lra).
  assert (M : wmean two = 1) by (unfold wmean, wavg; rewrite T; unfold two, lsum; cbn; lra).
  split; [intros p [<-|[<-|[]]]; cbn; lra|]. split; [lra|]. split; [exact M|]. unfold wvar, wavg. rewrite T, M. unfold two, lsum. cbn. lra.
Qed.
Lemma wrap_example : local_moments 5 5 2 true 1 (fun i j => Fin (INR i + 5 * INR j)) ones 0 4 =
  compute_moments (map (wrapped 5 5 (fun i j => Fin (INR i + 5 * INR j)) 0 4) (disc 2)) (map (wrapped 5 5 ones 0 4) (disc 2)).
Proof. apply window_periodic; try lia; try lra; intros; reflexivity. Qed.
Lemma spatial_example : is_ok (spatial_histogram [Fin 1; NaN; Fin 2] None (Some (NumBins 3))) = true.
Proof. apply spatial_works; [lia|]. repeat constructor. Qed.
