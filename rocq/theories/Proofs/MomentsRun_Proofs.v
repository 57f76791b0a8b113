(** The moments of regions with blanks, and of regions in other units. *)
From Coq Require Import Reals List Bool ZArith Arith Lra Lia.
From Verif Require Import Lib.PyBase Lib.RSum Lib.Fl Lib.Arr Lib.Hist Spec.Bins Spec.Blank Spec.Distrib Model.Units Model.StatMoments Proofs.Hist_Proofs Proofs.Moments_Proofs Proofs.Moments2_Proofs.
Import ListNotations.
Local Open Scope R_scope.

Lemma zero_inf : sinf 0 = NaN. Proof. unfold sinf. destruct (Rltb_spec 0 0); [lra|reflexivity]. Qed.
(** A pixel and its weight: the value is a number or blank, the weight is positive or blank. *)
Definition fair (p : fl * fl) : Prop := blankable (fst p) /\ (snd p = NaN \/ exists w, snd p = Fin w /\ 0 < w).
Definition both (l : list (fl * fl)) : list (R * R) := flat_map (fun p => match p with (Fin x, Fin w) => [(x, w)] | _ => [] end) l.
Definition weight_sum (l : list (fl * fl)) : R := lsum (fins (map snd l)).

Lemma both_sum (g : fl * fl -> fl) (h : R * R -> R) l :
  (forall x w, In (Fin x, Fin w) l -> g (Fin x, Fin w) = Fin (h (x, w))) -> (forall p, In p l -> fst p = NaN \/ snd p = NaN -> g p = NaN) -> Forall fair l ->
  nansum (map g l) = Fin (lsum (map h (both l))).
Proof.
  intros A B H. induction H as [|[a b] l [P Q] H IH]; [reflexivity|]. cbn [fst snd] in P, Q.
  assert (IH' : nansum (map g l) = Fin (lsum (map h (both l)))). { apply IH; [intros x w I; apply A; now right|intros p I; apply B; now right]. }
  destruct Q as [E|(w & E & W)]; subst b.
  - unfold nansum, nonnan in *. cbn [map filter]. rewrite (B (a, NaN)) by (cbn; auto). cbn [is_nan negb]. destruct a; exact IH'.
  - destruct a as [x| | |]; try contradiction.
    + unfold nansum, nonnan in *. cbn [map filter]. rewrite (A x w) by now left. cbn [is_nan negb]. cbn [both flat_map app map lsum fold_right].
      change (fsum (Fin (h (x, w)) :: filter (fun v => negb (is_nan v)) (map g l))) with (fadd (Fin (h (x, w))) (fsum (filter (fun v => negb (is_nan v)) (map g l)))). rewrite IH'. reflexivity.
    + unfold nansum, nonnan in *. cbn [map filter]. rewrite (B (NaN, Fin w)) by (cbn; auto). cbn [is_nan negb]. exact IH'.
Qed.
Lemma weight_nansum l : Forall fair l -> nansum (map snd l) = Fin (weight_sum l).
Proof.
  intros H. apply nansum_fins. apply Forall_forall. intros v Hv. apply in_map_iff in Hv. destruct Hv as (p & <- & Hp). rewrite Forall_forall in H. destruct (H _ Hp) as [_ [E|(w & E & _)]]; rewrite E; exact I.
Qed.
Lemma weight_pos l : Forall fair l -> weight_sum l = 0 /\ both l = [] \/ 0 < weight_sum l.
Proof.
  intros H. induction H as [|[a b] l [P Q] H IH]; [left; split; reflexivity|]. cbn [fst snd] in P, Q. unfold weight_sum in *. destruct Q as [E|(w & E & W)]; subst b.
  - cbn [map snd]. change (fins (NaN :: map snd l)) with (fins (map snd l)). destruct IH as [[I1 I2]|I]; [left|now right]. split; [exact I1|]. cbn [both flat_map]. destruct a; exact I2.
  - right. cbn [map snd]. change (fins (Fin w :: map snd l)) with (w :: fins (map snd l)). change (lsum (w :: fins (map snd l))) with (w + lsum (fins (map snd l))). destruct IH as [[I1 I2]|I]; lra.
Qed.

(** Averages over all weights. *)
Definition bavg (f : R -> R) (l : list (fl * fl)) : R := lsum (map (fun p => snd p * f (fst p)) (both l)) / weight_sum l.
Definition bmean l : R := bavg (fun x => x) l.
Definition bvar l : R := bavg (fun x => (x - bmean l) ^ 2) l.

Lemma both_in x w l : In (x, w) (both l) -> In (Fin x, Fin w) l.
Proof.
  unfold both. rewrite in_flat_map. intros (p & Hp & I). destruct p as [[a| | |] [b| | |]]; try contradiction. destruct I as [I|I]; [|contradiction]. now inversion I; subst.
Qed.
Lemma both_weight x w l : Forall fair l -> In (x, w) (both l) -> 0 < w.
Proof. intros H I. apply both_in in I. rewrite Forall_forall in H. destruct (H _ I) as [_ [E|(v & E & V)]]; [discriminate|]. cbn in E. now inversion E; subst. Qed.

Lemma cm_bmean l : Forall fair l -> 0 < weight_sum l -> fdiv (nansum (map (fun p => fmul (fst p) (snd p)) l)) (nansum (map snd l)) = Fin (bmean l).
Proof.
  intros H W. rewrite (both_sum _ (fun p => snd p * fst p)); [|intros; cbn; f_equal; ring| |exact H].
  - rewrite weight_nansum by exact H. rewrite fdiv_fin by lra. reflexivity.
  - intros [a b] _ [E|E]; cbn in *; subst; [reflexivity|apply fmul_NaN_r].
Qed.
Lemma cm_bvar l : Forall fair l -> 0 < weight_sum l -> fdiv (nansum (map (fun p => fmul (snd p) (fsqr (fsub (fst p) (Fin (bmean l))))) l)) (nansum (map snd l)) = Fin (bvar l).
Proof.
  intros H W. rewrite (both_sum _ (fun p => snd p * (fst p - bmean l) ^ 2)); [|intros; cbn; f_equal; ring| |exact H].
  - rewrite weight_nansum by exact H. rewrite fdiv_fin by lra. reflexivity.
  - intros [a b] _ [E|E]; cbn in *; subst; [apply fmul_NaN_r|reflexivity].
Qed.
Lemma bvar_nonneg l : Forall fair l -> 0 < weight_sum l -> 0 <= bvar l.
Proof.
  intros H W. unfold bvar, bavg. apply Rmult_le_pos; [|left; now apply Rinv_0_lt_compat]. apply lsum_nonneg. intros v Hv. apply in_map_iff in Hv. destruct Hv as ([x w] & <- & I). cbn [fst snd].
  pose proof (both_weight x w l H I). apply Rmult_le_pos; [lra|apply pow2_ge_0].
Qed.
Lemma lsum_zero_all l : (forall v, In v l -> 0 <= v) -> lsum l = 0 -> forall v, In v l -> v = 0.
Proof.
  induction l as [|a l IH]; intros P E v; [contradiction|]. intros [Hv|Hv]; cbn in E.
  - subst. assert (0 <= v) by (apply P; now left). assert (0 <= lsum l) by (apply lsum_nonneg; intros; apply P; now right). unfold lsum in *. lra.
  - assert (0 <= a) by (apply P; now left). assert (0 <= lsum l) by (apply lsum_nonneg; intros; apply P; now right). apply IH; auto; [intros; apply P; now right|unfold lsum in *; lra].
Qed.
Lemma bvar_zero l : Forall fair l -> 0 < weight_sum l -> bvar l = 0 -> forall x w, In (x, w) (both l) -> x = bmean l.
Proof.
  intros H W Z x w I. unfold bvar, bavg in Z. apply Rmult_integral in Z. destruct Z as [Z|Z]; [|pose proof (Rinv_0_lt_compat _ W); lra].
  assert (E : w * (x - bmean l) ^ 2 = 0).
  { apply (lsum_zero_all (map (fun p => snd p * (fst p - bmean l) ^ 2) (both l))); [|exact Z|].
    - intros v Hv. apply in_map_iff in Hv. destruct Hv as ([y u] & <- & J). cbn [fst snd]. pose proof (both_weight y u l H J). apply Rmult_le_pos; [lra|apply pow2_ge_0].
    - apply in_map_iff. exists (x, w). auto. }
  pose proof (both_weight x w l H I). apply Rmult_integral in E. destruct E as [E|E]; [lra|]. cbn in E. nra.
Qed.

Definition bpow (n : nat) l : R := if Req_EM_T (bvar l) 0 then 0 else bavg (fun x => ((x - bmean l) / sqrt (bvar l)) ^ n) l.
Lemma cm_fair l : Forall fair l -> 0 < weight_sum l -> cm l = (Fin (bmean l), Fin (bvar l), Fin (bpow 3 l), Fin (bpow 4 l - 3)).
Proof.
  intros H W. rewrite cm_eq. cbv zeta. rewrite cm_bmean, cm_bvar by assumption. pose proof (bvar_nonneg l H W) as V.
  assert (S : fsqrt (Fin (bvar l)) = Fin (sqrt (bvar l))). { cbn [fsqrt]. destruct (Rltb_spec (bvar l) 0); [lra|reflexivity]. }
  rewrite S. unfold bpow. destruct (Req_EM_T (bvar l) 0) as [Z|Z].
  - rewrite Z, sqrt_0.
    assert (N : forall x w, In (Fin x, Fin w) l -> fdiv (fsub (Fin x) (Fin (bmean l))) (Fin 0) = NaN).
    { intros x w I. assert (J : In (x, w) (both l)) by (unfold both; apply in_flat_map; exists (Fin x, Fin w); split; [exact I|now left]).
      rewrite (bvar_zero l H W Z x w J). cbn [fsub fneg fadd]. replace (bmean l + - bmean l) with 0 by ring. unfold fdiv. destruct (Reqb_spec 0 0); [apply zero_inf|lra]. }
    assert (G : forall g : fl -> fl, g NaN = NaN -> nansum (map (fun p => fmul (snd p) (g (fdiv (fsub (fst p) (Fin (bmean l))) (Fin 0)))) l) = Fin 0).
    { intros g G. apply nansum_all_nan. intros [a b] I. cbn [fst snd]. rewrite Forall_forall in H. destruct (H _ I) as [P [E|(w & E & _)]]; cbn [fst snd] in *; subst; [reflexivity|].
      destruct a as [x| | |]; try contradiction; [rewrite (N x w I)|change (fdiv (fsub NaN (Fin (bmean l))) (Fin 0)) with NaN]; rewrite G; apply fmul_NaN_r. }
    rewrite (G fcube eq_refl), (G fquart eq_refl). rewrite weight_nansum by exact H. rewrite fdiv_fin by lra. replace (0 / weight_sum l) with 0 by (field; lra). cbn [fsub fneg fadd].
    reflexivity.
  - assert (SV : 0 < sqrt (bvar l)) by (apply sqrt_lt_R0; lra).
    assert (D : forall x, fdiv (fsub (Fin x) (Fin (bmean l))) (Fin (sqrt (bvar l))) = Fin ((x - bmean l) / sqrt (bvar l))) by (intros; cbn [fsub fneg fadd]; rewrite fdiv_fin by lra; reflexivity).
    rewrite (both_sum (fun p => fmul (snd p) (fcube (fdiv (fsub (fst p) (Fin (bmean l))) (Fin (sqrt (bvar l)))))) (fun p => snd p * ((fst p - bmean l) / sqrt (bvar l)) ^ 3)).
    2: { intros x w _. cbn [fst snd]. rewrite D. cbn. f_equal. ring. }
    2: { intros [a b] _ [E|E]; cbn in *; subst; [apply fmul_NaN_r|reflexivity]. }
    2: exact H.
    rewrite (both_sum (fun p => fmul (snd p) (fquart (fdiv (fsub (fst p) (Fin (bmean l))) (Fin (sqrt (bvar l)))))) (fun p => snd p * ((fst p - bmean l) / sqrt (bvar l)) ^ 4)).
    2: { intros x w _. cbn [fst snd]. rewrite D. cbn. f_equal. ring. }
    2: { intros [a b] _ [E|E]; cbn in *; subst; [apply fmul_NaN_r|reflexivity]. }
    2: exact H.
    rewrite weight_nansum by exact H. rewrite !fdiv_fin by lra. reflexivity.
Qed.
Lemma cm_none l : Forall fair l -> weight_sum l = 0 -> both l = [] -> cm l = (NaN, NaN, NaN, NaN).
Proof.
  intros H W B. rewrite cm_eq. cbv zeta. rewrite weight_nansum by exact H. rewrite W.
  rewrite (both_sum (fun p => fmul (fst p) (snd p)) (fun p => snd p * fst p)); [|intros; cbn; f_equal; ring| |exact H].
  2: { intros [a b] _ [E|E]; cbn in *; subst; [reflexivity|apply fmul_NaN_r]. }
  rewrite B. cbn [map lsum fold_right]. assert (Z : fdiv (Fin 0) (Fin 0) = NaN) by (unfold fdiv; destruct (Reqb_spec 0 0); [apply zero_inf|lra]). rewrite Z.
  assert (G : forall g : fl -> fl, g NaN = NaN -> nansum (map (fun p : fl * fl => fmul (snd p) (g (fsub (fst p) NaN))) l) = Fin 0).
  { intros g G. apply nansum_all_nan. intros [a b] _. cbn [fst snd]. replace (fsub a NaN) with NaN by (destruct a; reflexivity). rewrite G. apply fmul_NaN_r. }
  rewrite (G fsqr eq_refl). rewrite Z. cbn [fsqrt].
  rewrite (G (fun v => fcube (fdiv v NaN)) eq_refl). rewrite (G (fun v => fquart (fdiv v NaN)) eq_refl). rewrite Z. reflexivity.
Qed.

(** ** Other units *)
Definition bright (a b : R) (v : fl) : fl := match v with Fin x => Fin (a * x + b) | v => v end.
Definition brights (a b : R) (l : list (fl * fl)) : list (fl * fl) := map (fun p => (bright a b (fst p), snd p)) l.
Lemma brights_fair a b l : Forall fair l -> Forall fair (brights a b l).
Proof. intros H. apply Forall_map. apply (Forall_impl _ (P := fair)); [|exact H]. intros [[x| | |] w] [P Q]; split; cbn in *; auto. Qed.
Lemma brights_both a b l : both (brights a b l) = map (fun p => (a * fst p + b, snd p)) (both l).
Proof. induction l as [|[[x| | |] [w| | |]] l IH]; cbn [brights map both flat_map app fst snd bright]; auto; try exact IH. apply (f_equal (cons (a * x + b, w))). exact IH. Qed.
Lemma brights_weight a b l : weight_sum (brights a b l) = weight_sum l.
Proof. unfold weight_sum, brights. rewrite map_map. reflexivity. Qed.
Lemma bavg_brights a b l f : bavg f (brights a b l) = bavg (fun x => f (a * x + b)) l.
Proof. unfold bavg. rewrite brights_weight, brights_both, map_map. reflexivity. Qed.
Lemma lsum_scal c l : lsum (map (fun v => c * v) l) = c * lsum l.
Proof. unfold lsum. induction l as [|x l IH]; cbn; [ring|]. rewrite IH. ring. Qed.
Lemma bavg_scal c l f : bavg (fun x => c * f x) l = c * bavg f l.
Proof. unfold bavg. rewrite (map_ext _ (fun p => c * (snd p * f (fst p)))) by (intros; ring). rewrite <- (map_map (fun p => snd p * f (fst p)) (fun v => c * v)). rewrite lsum_scal. unfold Rdiv. ring. Qed.
Lemma lsum_map_plus {A} (f g : A -> R) l : lsum (map (fun x => f x + g x) l) = lsum (map f l) + lsum (map g l).
Proof. induction l as [|x l IH]; cbn; [ring|]. unfold lsum in IH. rewrite IH. ring. Qed.
(** Where a pixel has a weight it has a value. *)
Definition full (l : list (fl * fl)) : Prop := forall p, In p l -> fst p = NaN -> snd p = NaN.
Lemma full_sum l : Forall fair l -> full l -> lsum (map snd (both l)) = weight_sum l.
Proof.
  intros H. induction H as [|[a b] l [P Q] H IH]; intros G; [reflexivity|]. cbn [fst snd] in P, Q. specialize (IH (fun p I => G p (or_intror I))).
  unfold weight_sum in *. cbn [map snd]. destruct Q as [E|(w & E & W)]; subst b.
  - change (fins (NaN :: map snd l)) with (fins (map snd l)). destruct a; exact IH.
  - destruct a as [x| | |]; try contradiction; [|specialize (G (NaN, Fin w) (or_introl eq_refl) eq_refl); discriminate].
    change (fins (Fin w :: map snd l)) with (w :: fins (map snd l)). cbn [both flat_map app map snd lsum fold_right]. unfold lsum in IH. unfold both in IH. now rewrite <- IH.
Qed.
Lemma bmean_brights a b l : Forall fair l -> 0 < weight_sum l -> b = 0 \/ full l -> bmean (brights a b l) = a * bmean l + b.
Proof.
  intros H W D. unfold bmean at 1. rewrite bavg_brights. unfold bmean, bavg.
  rewrite (map_ext _ (fun p => a * (snd p * fst p) + b * snd p)) by (intros; ring). rewrite (lsum_map_plus (fun p => a * (snd p * fst p)) (fun p => b * snd p)).
  rewrite <- (map_map (fun p : R * R => snd p * fst p) (fun v => a * v)), <- (map_map (fun p : R * R => snd p) (fun v => b * v)). rewrite !lsum_scal.
  destruct D as [->|D]; [field; lra|]. rewrite full_sum by assumption. field; lra.
Qed.
Lemma bvar_brights a b l : Forall fair l -> 0 < weight_sum l -> b = 0 \/ full l -> bvar (brights a b l) = a ^ 2 * bvar l.
Proof.
  intros H W D. unfold bvar at 1. rewrite bavg_brights, bmean_brights by assumption. unfold bvar. rewrite <- bavg_scal. unfold bavg. f_equal. f_equal. apply map_ext. intros p. ring.
Qed.
Lemma bpow_brights a b n l : Forall fair l -> 0 < weight_sum l -> b = 0 \/ full l -> 0 < a -> bpow n (brights a b l) = bpow n l.
Proof.
  intros H W D A. unfold bpow. rewrite bvar_brights by assumption. pose proof (bvar_nonneg l H W) as V.
  destruct (Req_EM_T (bvar l) 0) as [Z|Z].
  - rewrite Z, Rmult_0_r. destruct (Req_EM_T 0 0); [reflexivity|lra].
  - assert (P : 0 < a ^ 2) by (apply pow_lt; exact A). destruct (Req_EM_T (a ^ 2 * bvar l) 0) as [E|E].
    + apply Rmult_integral in E. destruct E; lra.
    + rewrite bavg_brights, bmean_brights by assumption. rewrite sqrt_mult by lra. replace (sqrt (a ^ 2)) with a by (rewrite sqrt_pow2; lra).
      assert (0 < sqrt (bvar l)) by (apply sqrt_lt_R0; lra). unfold bavg. f_equal. f_equal. apply map_ext. intros p. f_equal. f_equal. field. lra.
Qed.
(** The skewness and the kurtosis of a region do not depend on the units, the mean and the variance stay numbers or blank. *)
Definition shape (m : fl * fl * fl * fl) : fl * fl := (snd (fst m), snd m).
Lemma cm_brights a b l : Forall fair l -> b = 0 \/ full l -> 0 < a -> shape (cm (brights a b l)) = shape (cm l).
Proof.
  intros H D A. destruct (weight_pos l H) as [[W B]|W].
  - rewrite (cm_none l) by assumption. rewrite cm_none; [reflexivity|now apply brights_fair|now rewrite brights_weight|now rewrite brights_both, B].
  - rewrite (cm_fair l) by assumption. rewrite cm_fair; [|now apply brights_fair|now rewrite brights_weight]. unfold shape. cbn [fst snd]. now rewrite !bpow_brights by assumption.
Qed.
Lemma cm_blankable l : Forall fair l -> let '(m, v, s, k) := cm l in blankable m /\ blankable v /\ blankable s /\ blankable k.
Proof.
  intros H. destruct (weight_pos l H) as [[W B]|W]; [rewrite (cm_none l) by assumption|rewrite (cm_fair l) by assumption]; cbn; auto.
Qed.
