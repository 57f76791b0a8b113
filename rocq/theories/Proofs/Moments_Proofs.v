(** Proofs about the statistical moments. *)
From Coq Require Import Reals List Bool ZArith Arith Lra Lia FunctionalExtensionality.
From Verif Require Import Lib.PyBase Lib.RSum Lib.Fl Lib.Arr Lib.Hist Spec.Bins Spec.Blank Spec.Distrib Model.Units Model.StatMoments Proofs.Hist_Proofs.
Import ListNotations.
Local Open Scope R_scope.

Definition cm (l : list (fl * fl)) := compute_moments (map fst l) (map snd l).

Lemma map2_fst_snd {A B C} (f : A -> B -> C) (l : list (A * B)) : map2 f (map fst l) (map snd l) = map (fun p => f (fst p) (snd p)) l.
Proof. induction l as [|[a b] l IH]; cbn; [reflexivity|]. now rewrite IH. Qed.

Lemma cm_eq l : cm l =
  let sw := nansum (map snd l) in
  let mean := fdiv (nansum (map (fun p => fmul (fst p) (snd p)) l)) sw in
  let variance := fdiv (nansum (map (fun p => fmul (snd p) (fsqr (fsub (fst p) mean))) l)) sw in
  let std := fsqrt variance in
  (mean, variance, fdiv (nansum (map (fun p => fmul (snd p) (fcube (fdiv (fsub (fst p) mean) std))) l)) sw,
   fsub (fdiv (nansum (map (fun p => fmul (snd p) (fquart (fdiv (fsub (fst p) mean) std))) l)) sw) (Fin 3)).
Proof. unfold cm, compute_moments. cbv zeta. now rewrite !map2_fst_snd. Qed.

(** ** Blanks *)
Lemma nansum_filter {A} (keep : A -> bool) (g : A -> fl) l : (forall p, In p l -> keep p = false -> g p = NaN) ->
  nansum (map g l) = nansum (map g (filter keep l)).
Proof.
  intros H. unfold nansum, nonnan. f_equal. induction l as [|p l IH]; [reflexivity|]. cbn [map filter].
  rewrite IH by (intros q Hq; apply H; now right). destruct (keep p) eqn:E; [reflexivity|].
  now rewrite (H p (or_introl eq_refl) E).
Qed.
Lemma fmul_NaN_r x : fmul x NaN = NaN.
Proof. destruct x; reflexivity. Qed.

Lemma cm_drop keep l : (forall p, In p l -> keep p = false -> snd p = NaN) -> cm l = cm (filter keep l).
Proof.
  intros H. rewrite !cm_eq. cbv zeta.
  rewrite (nansum_filter keep snd l) by exact H.
  rewrite (nansum_filter keep (fun p => fmul (fst p) (snd p)) l) by (intros p Hp E; rewrite (H p Hp E); apply fmul_NaN_r).
  set (m := fdiv (nansum (map (fun p => fmul (fst p) (snd p)) (filter keep l))) (nansum (map snd (filter keep l)))).
  rewrite (nansum_filter keep (fun p => fmul (snd p) (fsqr (fsub (fst p) m))) l) by (intros p Hp E; now rewrite (H p Hp E)).
  set (s := fsqrt _).
  rewrite (nansum_filter keep (fun p => fmul (snd p) (fcube (fdiv (fsub (fst p) m) s))) l) by (intros p Hp E; now rewrite (H p Hp E)).
  rewrite (nansum_filter keep (fun p => fmul (snd p) (fquart (fdiv (fsub (fst p) m) s))) l) by (intros p Hp E; now rewrite (H p Hp E)).
  reflexivity.
Qed.

(** ** Finite data *)
Definition F (l : list (R * R)) : list (fl * fl) := map (fun p => (Fin (fst p), Fin (snd p))) l.
Lemma nansum_Fin_map {A} (g : A -> R) l : nansum (map (fun p => Fin (g p)) l) = Fin (lsum (map g l)).
Proof.
  rewrite <- (map_map g Fin). rewrite nansum_fins by apply blankable_map_Fin. now rewrite fins_map_Fin.
Qed.
Lemma nansum_F (g : fl * fl -> fl) (h : R * R -> R) l : (forall p, In p l -> g (Fin (fst p), Fin (snd p)) = Fin (h p)) ->
  nansum (map g (F l)) = Fin (lsum (map h l)).
Proof.
  intros H. unfold F. rewrite map_map. rewrite (map_ext_in _ (fun p => Fin (h p))) by exact H. apply nansum_Fin_map.
Qed.
Lemma nansum_all_nan {A} (g : A -> fl) l : (forall p, In p l -> g p = NaN) -> nansum (map g l) = Fin 0.
Proof.
  intros H. rewrite (nansum_filter (fun _ => false) g l) by auto. replace (filter (fun _ => false) l) with (@nil A); [reflexivity|].
  clear H. induction l; auto.
Qed.

Lemma cm_mean l : total l <> 0 -> fdiv (nansum (map (fun p => fmul (fst p) (snd p)) (F l))) (nansum (map snd (F l))) = Fin (wmean l).
Proof.
  intros H. rewrite (nansum_F (fun p => fmul (fst p) (snd p)) (fun p => snd p * fst p) l) by (intros p _; cbn [fmul fst snd]; f_equal; ring).
  rewrite (nansum_F snd snd l) by reflexivity. now rewrite fdiv_fin.
Qed.
Lemma cm_var l : total l <> 0 -> fdiv (nansum (map (fun p => fmul (snd p) (fsqr (fsub (fst p) (Fin (wmean l))))) (F l))) (nansum (map snd (F l))) = Fin (wvar l).
Proof.
  intros H. rewrite (nansum_F _ (fun p => snd p * (fst p - wmean l) ^ 2) l) by (intros p _; cbn; f_equal; ring).
  rewrite (nansum_F snd snd l) by reflexivity. now rewrite fdiv_fin.
Qed.
Lemma cm_real l : total l <> 0 -> 0 < wvar l -> cm (F l) = (Fin (wmean l), Fin (wvar l), Fin (wskew l), Fin (wkurt l)).
Proof.
  intros H V. rewrite cm_eq. cbv zeta. rewrite cm_mean, cm_var by exact H. rewrite fsqrt_fin by lra.
  assert (S : 0 < sqrt (wvar l)) by now apply sqrt_lt_R0.
  rewrite (nansum_F (fun p => fmul (snd p) (fcube (fdiv (fsub (fst p) (Fin (wmean l))) (Fin (sqrt (wvar l)))))) (fun p => snd p * ((fst p - wmean l) / sqrt (wvar l)) ^ 3) l)
    by (intros p _; cbn [fst snd]; rewrite fsub_fin, fdiv_fin by lra; cbn [fcube fsqr fmul]; f_equal; ring).
  rewrite (nansum_F (fun p => fmul (snd p) (fquart (fdiv (fsub (fst p) (Fin (wmean l))) (Fin (sqrt (wvar l)))))) (fun p => snd p * ((fst p - wmean l) / sqrt (wvar l)) ^ 4) l)
    by (intros p _; cbn [fst snd]; rewrite fsub_fin, fdiv_fin by lra; cbn [fquart fsqr fmul]; f_equal; ring).
  rewrite (nansum_F snd snd l) by reflexivity. rewrite !fdiv_fin by exact H. reflexivity.
Qed.

Section Laws.
Variable l : list (R * R).
Hypothesis Wnn : forall p, In p l -> 0 <= snd p.
Hypothesis Wpos : 0 < total l.

Lemma wavg_scal c f : wavg (fun x => c * f x) l = c * wavg f l.
Proof.
  unfold wavg, Rdiv. rewrite (lsum_map_ext _ (fun p => c * (snd p * f (fst p)))) by (intros; ring). rewrite lsum_map_scal. ring.
Qed.
Lemma wavg_plus f g : wavg (fun x => f x + g x) l = wavg f l + wavg g l.
Proof.
  unfold wavg, Rdiv. rewrite (lsum_map_ext _ (fun p => snd p * f (fst p) + snd p * g (fst p))) by (intros; ring). rewrite lsum_map_plus. ring.
Qed.
Lemma wavg_const c : wavg (fun _ => c) l = c.
Proof. unfold wavg. rewrite (lsum_map_scal_r c snd). fold (total l). field. lra. Qed.
Lemma wavg_le f g : (forall p, In p l -> f (fst p) <= g (fst p)) -> wavg f l <= wavg g l.
Proof.
  intros H. unfold wavg, Rdiv. apply Rmult_le_compat_r; [left; now apply Rinv_0_lt_compat|]. apply lsum_map_le.
  intros p Hp. apply Rmult_le_compat_l; auto.
Qed.
Lemma wavg_ext f g : (forall x, f x = g x) -> wavg f l = wavg g l.
Proof. intros H. unfold wavg. f_equal. apply lsum_map_ext. intros. now rewrite H. Qed.
Lemma mean_between a b : (forall p, In p l -> a <= fst p <= b) -> a <= wmean l <= b.
Proof.
  intros H. unfold wmean. split.
  - rewrite <- (wavg_const a). apply wavg_le. intros p Hp. apply H, Hp.
  - rewrite <- (wavg_const b). apply wavg_le. intros p Hp. apply H, Hp.
Qed.
Lemma var_nonneg : 0 <= wvar l.
Proof. unfold wvar. rewrite <- (wavg_const 0). apply wavg_le. intros p _. apply pow2_ge_0. Qed.
Lemma var_zero : wvar l = 0 -> forall p, In p l -> snd p = 0 \/ fst p = wmean l.
Proof.
  intros H p Hp. unfold wvar, wavg in H. apply Rmult_integral in H. destruct H as [H|H]; [|exfalso; apply Rinv_neq_0_compat in H; [exact H|lra]].
  assert (Z := lsum_nonneg_eq0 (map (fun q => snd q * (fst q - wmean l) ^ 2) l)).
  assert (E : snd p * (fst p - wmean l) ^ 2 = 0).
  { apply Z; [|exact H|apply in_map_iff; exists p; split; [reflexivity|exact Hp]]. intros x Hx. apply in_map_iff in Hx. destruct Hx as [q [<- Hq]].
    apply Rmult_le_pos; [now apply Wnn|apply pow2_ge_0]. }
  apply Rmult_integral in E. destruct E as [E|E]; [now left|right]. assert (fst p - wmean l = 0); [|lra]. destruct (Req_dec (fst p - wmean l) 0); [assumption|]. exfalso. now apply (pow_nonzero _ 2) in H0.
Qed.
(** Pearson's inequality. *)
Lemma pearson : 0 < wvar l -> wskew l ^ 2 + 1 <= wkurt l + 3.
Proof.
  intros V. set (s := sqrt (wvar l)). assert (S : 0 < s) by now apply sqrt_lt_R0.
  set (y := fun x => (x - wmean l) / s).
  assert (M1 : wavg y l = 0).
  { unfold y. rewrite (wavg_ext _ (fun x => / s * (x + - wmean l))) by (intros; unfold Rdiv; ring). rewrite wavg_scal, (wavg_plus (fun x => x) (fun _ => - wmean l)), wavg_const. fold (wmean l). ring. }
  assert (M2 : wavg (fun x => y x ^ 2) l = 1).
  { unfold y. rewrite (wavg_ext _ (fun x => / (s * s) * (x - wmean l) ^ 2)) by (intros; field; lra). rewrite wavg_scal. fold (wvar l).
    unfold s. rewrite sqrt_sqrt by lra. apply Rinv_l. lra. }
  assert (K : 0 <= wavg (fun x => (y x ^ 2 + - (wskew l * y x + 1)) ^ 2) l).
  { rewrite <- (wavg_const 0) at 1. apply wavg_le. intros p _. apply pow2_ge_0. }
  rewrite (wavg_ext _ (fun x => y x ^ 4 + (- (2 * wskew l) * y x ^ 3 + ((wskew l ^ 2 - 2) * y x ^ 2 + (2 * wskew l * y x + 1))))) in K by (intros; ring).
  rewrite (wavg_plus (fun x => y x ^ 4)), (wavg_plus (fun x => - (2 * wskew l) * y x ^ 3)), (wavg_plus (fun x => (wskew l ^ 2 - 2) * y x ^ 2)),
    (wavg_plus (fun x => 2 * wskew l * y x)) in K.
  rewrite (wavg_scal _ (fun x => y x ^ 3)), (wavg_scal _ (fun x => y x ^ 2)), (wavg_scal _ y), wavg_const, M1, M2 in K.
  assert (E3 : wavg (fun x => y x ^ 3) l = wskew l) by reflexivity.
  assert (E4 : wavg (fun x => y x ^ 4) l = wkurt l + 3) by (unfold wkurt; fold s; unfold y; ring).
  rewrite E3, E4 in K. lra.
Qed.
(** Constant images: the code returns 0 and -3. *)
Lemma cm_degenerate : wvar l = 0 -> cm (F l) = (Fin (wmean l), Fin 0, Fin 0, Fin (-3)).
Proof.
  intros V. rewrite cm_eq. cbv zeta. assert (T : total l <> 0) by lra. rewrite cm_mean, cm_var by exact T. rewrite V, fsqrt_fin, sqrt_0 by lra.
  assert (N : forall p, In p (F l) -> exists r w, p = (Fin r, Fin w) /\ (w = 0 \/ r = wmean l)).
  { intros p Hp. apply in_map_iff in Hp. destruct Hp as [q [<- Hq]]. exists (fst q), (snd q). split; [reflexivity|]. now apply var_zero. }
  assert (D : forall p, In p (F l) -> forall x, (x = NaN \/ x = PInf \/ x = NInf) -> (fst p = Fin (wmean l) -> x = NaN) -> fmul (snd p) x = NaN).
  { intros p Hp x Hx Hm. destruct (N p Hp) as [r [w [-> [->| ->]]]]; cbn [fst snd] in *.
    - destruct Hx as [-> | [-> | ->]]; cbn; unfold sinf; destruct (Rltb_spec 0 0); try lra; reflexivity.
    - now rewrite Hm. }
  assert (Q : forall p, In p (F l) -> let q := fdiv (fsub (fst p) (Fin (wmean l))) (Fin 0) in (q = NaN \/ q = PInf \/ q = NInf) /\ (fst p = Fin (wmean l) -> q = NaN)).
  { intros p Hp. destruct (N p Hp) as [r [w [-> _]]]. cbv zeta. cbn [fst]. rewrite fsub_fin. unfold fdiv. destruct (Reqb_spec 0 0); [|lra]. unfold sinf.
    split.
    - destruct (Rltb 0 (r - wmean l)); [auto|]. destruct (Rltb (r - wmean l) 0); auto.
    - intros E. inversion E; subst. replace (wmean l - wmean l) with 0 by ring. destruct (Rltb_spec 0 0); [lra|reflexivity]. }
  rewrite (nansum_all_nan (fun p => fmul (snd p) (fcube (fdiv (fsub (fst p) (Fin (wmean l))) (Fin 0)))) (F l)).
  2:{ intros p Hp. apply D; [exact Hp| |]; destruct (Q p Hp) as [[E|[E|E]] E']; rewrite E in *; cbn; auto. }
  rewrite (nansum_all_nan (fun p => fmul (snd p) (fquart (fdiv (fsub (fst p) (Fin (wmean l))) (Fin 0)))) (F l)).
  2:{ intros p Hp. apply D; [exact Hp| |]; destruct (Q p Hp) as [[E|[E|E]] E']; rewrite E in *; cbn; auto. intros H. now apply E' in H. }
  rewrite (nansum_F snd snd l) by reflexivity. fold (total l). rewrite !fdiv_fin by exact T. rewrite fsub_fin.
  replace (0 / total l) with 0 by (field; lra). repeat f_equal; lra.
Qed.
End Laws.
