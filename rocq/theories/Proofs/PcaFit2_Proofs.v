(** Proofs about Model/PcaFit.v: the fitted components and histories of fits (C197, C198). *)
From Coq Require Import String Reals List ZArith Lia Lra Arith Bool.
From Verif Require Import Lib.PyBase Lib.RSum Lib.Fl Lib.Arr Spec.MexHat Spec.Units Spec.SizeWidth
  Model.Units Model.BaseStat Model.Pca Model.EllipPlaw Model.PcaFit Proofs.Units_Proofs Proofs.Wavelet3_Proofs.
Import ListNotations.
Local Open Scope R_scope.

Lemma ln10 : 0 < ln 10.
Proof. rewrite <- ln_1. apply ln_increasing; lra. Qed.

Lemma limit_value s v lo : limit_is s v lo -> limit_pixels s v = Ok lo.
Proof.
  intros H. destruct H as [|r Hr|r u c Hr H Hc Hu|r u c d du Hr H Hu].
  - reflexivity.
  - reflexivity.
  - cbn [limit_pixels]. rewrite (to_pixel_angle s c) by auto. cbn [bind q_vals map]. do 2 f_equal.
    pose proof (angle_factor 1 u Hu). field. lra.
  - cbn [limit_pixels]. rewrite (to_pixel_length s c d du) by auto. cbn [bind q_vals map]. do 2 f_equal.
    pose proof (length_factor 1 u Hu). destruct H as (_&Ha&_&Hd&Hdu). pose proof (length_factor 1 du Hdu). pose proof PI_RGT_0. field. lra.
Qed.

Lemma limit_positive s v r : limit_is s v (Some r) -> 0 < r.
Proof. intros H. inversion H; assumption. Qed.

Lemma log_le l a : 0 < l -> 0 <= a -> fleb (flog10 (Fin l)) (flog10 (Fin a)) = true <-> l <= a.
Proof.
  intros Hl Ha. unfold flog10. destruct (Rltb_spec 0 l); [|lra]. destruct (Rltb_spec 0 a) as [K|K].
  - cbn [fleb]. unfold log10. pose proof ln10. destruct (Rleb_spec (ln l / ln 10) (ln a / ln 10)) as [E|E]; split; auto; try discriminate; intros F.
    + destruct (Rle_lt_dec l a) as [G|G]; [exact G|exfalso]. apply ln_increasing in G; [|exact K].
      apply (Rmult_le_compat_r (ln 10)) in E; [|lra]. unfold Rdiv in E. rewrite !Rmult_assoc, Rinv_l in E by lra. lra.
    + exfalso. assert (G : ln l <= ln a) by (destruct F as [F| ->]; [left; apply ln_increasing; auto|right; reflexivity]).
      apply (Rmult_le_compat_r (/ ln 10)) in G; [|left; now apply Rinv_0_lt_compat]. unfold Rdiv in E. lra.
  - destruct (Rltb_spec a 0); [lra|]. cbn [fleb]. split; [discriminate|lra].
Qed.

Lemma log_ge h a : 0 < h -> 0 <= a -> fleb (flog10 (Fin a)) (flog10 (Fin h)) = true <-> a <= h.
Proof.
  intros Hh Ha. destruct (Rlt_dec 0 a) as [K|K].
  - apply log_le; lra.
  - assert (a = 0) by lra. subst a. unfold flog10. destruct (Rltb_spec 0 0); [lra|]. destruct (Rltb_spec 0 h); [|lra].
    cbn. split; [lra|reflexivity].
Qed.

Lemma within_between lo hi r : size_like (w_spat r) -> (forall l, lo = Some l -> 0 < l) -> (forall h, hi = Some h -> 0 < h) ->
  (within lo hi r = true <-> between lo hi r).
Proof.
  intros Hr Hlo Hhi. unfold within, between. cbv zeta. rewrite andb_true_iff.
  assert (A : (match lo with Some l => fleb (flog10 (Fin l)) (flog10 (w_spat r)) | None => true end = true <->
               forall l, lo = Some l -> exists v, w_spat r = Fin v /\ l <= v)).
  { destruct lo as [l|]; [|split; [discriminate|reflexivity]].
    destruct Hr as [Hr|[a [Hr Ha]]]; rewrite Hr.
    - cbn [flog10]. split.
      + intros E. exfalso. unfold flog10 in E. destruct (Rltb_spec 0 l); [discriminate|]. specialize (Hlo l eq_refl). lra.
      + intros E. destruct (E l eq_refl) as [v [F _]]. discriminate.
    - rewrite log_le by auto. split.
      + intros E l' [= <-]. eauto.
      + intros E. destruct (E l eq_refl) as [v [[= <-] F]]. exact F. }
  assert (B : (match hi with Some h => fleb (flog10 (w_spat r)) (flog10 (Fin h)) | None => true end = true <->
               forall h, hi = Some h -> exists v, w_spat r = Fin v /\ v <= h)).
  { destruct hi as [h|]; [|split; [discriminate|reflexivity]].
    destruct Hr as [Hr|[a [Hr Ha]]]; rewrite Hr.
    - split.
      + intros E. cbn in E. discriminate.
      + intros E. destruct (E h eq_refl) as [v [F _]]. discriminate.
    - rewrite log_ge by auto. split.
      + intros E h' [= <-]. eauto.
      + intros E. destruct (E h eq_refl) as [v [[= <-] F]]. exact F. }
  tauto.
Qed.

Lemma all_finite_usable r : all_finite r = true <-> usable r.
Proof. unfold all_finite, usable. rewrite !andb_true_iff. tauto. Qed.

Lemma filter_le {A} (f g : A -> bool) l : (forall a, f a = true -> g a = true) -> existsb g l = false -> filter f l = [].
Proof.
  intros H. induction l as [|a l IH]; [reflexivity|]. cbn [existsb filter]. rewrite orb_false_iff. intros [E K].
  destruct (f a) eqn:F; [apply H in F; congruence|]. now apply IH.
Qed.

Lemma fit_rows_spec lo hi rows pts : Forall (fun r => size_like (w_spat r)) rows -> (forall l, lo = Some l -> 0 < l) -> (forall h, hi = Some h -> 0 < h) ->
  only (fun r => between lo hi r /\ usable r) rows pts ->
  (if Nat.ltb (length pts) 2 then exists e, fit_rows lo hi rows = Err e else fit_rows lo hi rows = Ok pts).
Proof.
  intros Hr Hlo Hhi Ho.
  assert (E : pts = filter (fun r => within lo hi r && all_finite r) rows).
  { apply (only_unique _ rows pts Ho). apply only_filter. intros r Hin. rewrite Forall_forall in Hr.
    rewrite andb_true_iff, within_between, all_finite_usable by auto. reflexivity. }
  unfold fit_rows. cbv zeta. rewrite <- E. destruct (existsb (within lo hi) rows) eqn:X; cbn [negb].
  - destruct (Nat.ltb (length pts) 2); eauto.
  - assert (P : pts = []). { rewrite E. apply (filter_le _ (within lo hi)); [|exact X]. intros a K. apply andb_true_iff in K. tauto. }
    rewrite P. cbn. eauto.
Qed.

Section Fit.
Variables (s : stat) (rows : list width_row) (odr : list width_row -> fitted) (bayes : list width_row -> fitted * list (R * R)).
Let fitp := fit_plaw s rows odr bayes.

Lemma known_test m : negb (String.eqb m "odr") && negb (String.eqb m "bayes") = false <-> known_method m.
Proof.
  unfold known_method. rewrite andb_false_iff, !negb_false_iff, !String.eqb_eq. reflexivity.
Qed.

Lemma fit_selects st c lo hi pts : known_method (c_method c) -> limit_is s (c_xlow c) lo -> limit_is s (c_xhigh c) hi ->
  Forall (fun r => size_like (w_spat r)) rows -> only (fun r => between lo hi r /\ usable r) rows pts ->
  ((2 <= length pts)%nat -> snd (fitp st c) = None /\
     p_fit (fst (fitp st c)) = Some (if String.eqb (c_method c) "odr" then odr pts else fst (bayes pts))) /\
  ((length pts < 2)%nat -> exists e, snd (fitp st c) = Some e /\ p_fit (fst (fitp st c)) = p_fit st).
Proof.
  intros Hm Hl Hh Hr Ho. unfold fitp, fit_plaw. cbv zeta. apply known_test in Hm. rewrite Hm. cbn [p_method p_xlow p_xhigh p_fit p_samps].
  rewrite (limit_value s _ lo Hl), (limit_value s _ hi Hh).
  pose proof (fit_rows_spec lo hi rows pts Hr) as K.
  specialize (K (fun l E => limit_positive s (c_xlow c) l (eq_ind lo (limit_is s (c_xlow c)) Hl _ E)) (fun h E => limit_positive s (c_xhigh c) h (eq_ind hi (limit_is s (c_xhigh c)) Hh _ E)) Ho).
  destruct (Nat.ltb_spec (length pts) 2) as [L|L].
  - destruct K as [e K]. rewrite K. split; [lia|]. intros _. exists e. split; reflexivity.
  - rewrite K. split; [|lia]. intros _. destruct (String.eqb (c_method c) "odr"); split; reflexivity.
Qed.

(** A call that raises leaves fit and samples alone, whatever came before *)
Lemma rejected_keeps st c : snd (fitp st c) <> None -> p_fit (fst (fitp st c)) = p_fit st /\ p_samps (fst (fitp st c)) = p_samps st.
Proof.
  unfold fitp, fit_plaw. cbv zeta. destruct (negb _ && negb _); [auto|]. cbn [p_method p_xlow p_xhigh p_fit p_samps].
  destruct (limit_pixels s (c_xlow c)) as [lo|e]; [|auto]. destruct (limit_pixels s (c_xhigh c)) as [hi|e]; [|auto].
  destruct (fit_rows lo hi rows); [|auto]. destruct (String.eqb (c_method c) "odr"); cbn; intros H; exfalso; now apply H.
Qed.

Lemma raises_state st st' c : snd (fitp st c) = snd (fitp st' c).
Proof.
  unfold fitp, fit_plaw. cbv zeta. destruct (negb _ && negb _); [auto|].
  destruct (limit_pixels s (c_xlow c)) as [lo|e]; [|auto]. destruct (limit_pixels s (c_xhigh c)) as [hi|e]; [|auto].
  destruct (fit_rows lo hi rows); [|auto]. destruct (String.eqb (c_method c) "odr"); reflexivity.
Qed.

Lemma fit_all_app st l1 l2 : fit_all s rows odr bayes st (l1 ++ l2) = fit_all s rows odr bayes (fit_all s rows odr bayes st l1) l2.
Proof. revert st. induction l1 as [|c l1 IH]; intros st; [reflexivity|]. cbn [app fit_all]. apply IH. Qed.

Lemma rejected_all st l : (forall c, In c l -> snd (fitp unfit c) <> None) ->
  p_fit (fit_all s rows odr bayes st l) = p_fit st /\ p_samps (fit_all s rows odr bayes st l) = p_samps st.
Proof.
  revert st. induction l as [|c l IH]; intros st H; [auto|]. cbn [fit_all].
  destruct (IH (fst (fitp st c))) as [A B]; [intros; apply H; now right|]. fold fitp. rewrite A, B.
  apply rejected_keeps. rewrite (raises_state st unfit). apply H. now left.
Qed.

Lemma last_fit st l1 c l2 : snd (fitp unfit c) = None -> (forall c', In c' l2 -> snd (fitp unfit c') <> None) ->
  let after := fit_all s rows odr bayes st (l1 ++ c :: l2) in
  let then_ := fst (fitp (fit_all s rows odr bayes st l1) c) in
  p_fit after = p_fit then_ /\ p_samps after = p_samps then_.
Proof.
  intros Hc H2. cbv zeta. rewrite fit_all_app. cbn [fit_all]. fold fitp. now apply rejected_all.
Qed.
End Fit.

(** *** A rejected fit changes the method *)
Definition ex_rows : list width_row := [mk_row (Fin 1) (Fin 1) (Fin 1) (Fin 1); mk_row (Fin 2) (Fin 1) (Fin 2) (Fin 1); mk_row NaN NaN (Fin 3) (Fin 1)].
Definition ex_fitted : fitted := odr_fitted 1 0 0 1.
Definition ex_odr (_ : list width_row) : fitted := ex_fitted.
Definition ex_bayes (_ : list width_row) : fitted * list (R * R) := (ex_fitted, [(1, 0); (1, 1)]).
Definition ex_stat : stat := mk_stat None None.
Definition ex_ok : fit_call := mk_call "odr" None None.
Definition ex_bad : fit_call := mk_call "bayes" (Some (LagQuantity (mk_q [100] pix))) None.

Lemma ex_sizes : Forall (fun r => size_like (w_spat r)) ex_rows.
Proof.
  apply Forall_cons; [right; exists 1; split; [reflexivity|lra]|]. apply Forall_cons; [right; exists 2; split; [reflexivity|lra]|].
  apply Forall_cons; [now left|]. constructor.
Qed.

Lemma ex_selected : only (fun r => between None None r /\ usable r) ex_rows (firstn 2 ex_rows).
Proof.
  unfold ex_rows. cbn [firstn]. constructor; [repeat split; discriminate|]. constructor; [repeat split; discriminate|].
  apply only_drop; [|constructor]. intros [_ [H _]]. cbn in H. discriminate.
Qed.

Lemma ex_none : only (fun r => between (Some 100) None r /\ usable r) ex_rows [].
Proof.
  unfold ex_rows. apply only_drop; [|apply only_drop; [|apply only_drop; [|constructor]]].
  - intros [[H _] _]. destruct (H 100 eq_refl) as [v [[= <-] K]]. lra.
  - intros [[H _] _]. destruct (H 100 eq_refl) as [v [[= <-] K]]. lra.
  - intros [_ [H _]]. cbn in H. discriminate.
Qed.

Lemma ex_accept st : snd (fit_plaw ex_stat ex_rows ex_odr ex_bayes st ex_ok) = None /\ p_fit (fst (fit_plaw ex_stat ex_rows ex_odr ex_bayes st ex_ok)) = Some ex_fitted.
Proof.
  apply (fit_selects ex_stat ex_rows ex_odr ex_bayes st ex_ok None None (firstn 2 ex_rows)).
  - now left.
  - constructor.
  - constructor.
  - apply ex_sizes.
  - apply ex_selected.
  - cbn. lia.
Qed.

Lemma ex_reject st : exists e, snd (fit_plaw ex_stat ex_rows ex_odr ex_bayes st ex_bad) = Some e.
Proof.
  destruct (fit_selects ex_stat ex_rows ex_odr ex_bayes st ex_bad (Some 100) None []) as [_ H].
  - now right.
  - constructor. lra.
  - constructor.
  - apply ex_sizes.
  - apply ex_none.
  - destruct H as [e [A _]]; [cbn; lia|]. eauto.
Qed.

Lemma method_of st c : known_method (c_method c) -> p_method (fst (fit_plaw ex_stat ex_rows ex_odr ex_bayes st c)) = Some (c_method c).
Proof.
  intros H. apply known_test in H. unfold fit_plaw. cbv zeta. rewrite H. cbn [p_method p_xlow p_xhigh p_fit p_samps].
  destruct (limit_pixels ex_stat (c_xlow c)) as [lo|e]; [|auto]. destruct (limit_pixels ex_stat (c_xhigh c)) as [hi|e]; [|auto].
  destruct (fit_rows lo hi ex_rows); [|auto]. destruct (String.eqb (c_method c) "odr"); reflexivity.
Qed.

Lemma rejected_changes : exists s rows odr bayes c c', snd (fit_plaw s rows odr bayes unfit c) = None /\ snd (fit_plaw s rows odr bayes unfit c') <> None /\
  (exists r, sonic_length (fit_all s rows odr bayes unfit [c]) 1 false = Ok r) /\
  sonic_length (fit_all s rows odr bayes unfit [c; c']) 1 false = Err AttributeError.
Proof.
  exists ex_stat, ex_rows, ex_odr, ex_bayes, ex_ok, ex_bad.
  split; [apply ex_accept|]. destruct (ex_reject unfit) as [e He]. split; [rewrite He; discriminate|].
  cbn [fit_all]. set (st1 := fst (fit_plaw ex_stat ex_rows ex_odr ex_bayes unfit ex_ok)).
  assert (F1 : p_fit st1 = Some ex_fitted) by apply ex_accept.
  assert (M1 : p_method st1 = Some "odr"%string) by (apply (method_of unfit ex_ok); now left).
  assert (S1 : p_samps st1 = None).
  { unfold st1, fit_plaw. cbv zeta. change (c_method ex_ok) with "odr"%string. rewrite String.eqb_refl. cbn [negb andb].
    change (c_xlow ex_ok) with (@None lag_value). change (c_xhigh ex_ok) with (@None lag_value). cbn [limit_pixels].
    destruct (fit_rows None None ex_rows); reflexivity. }
  destruct (rejected_keeps ex_stat ex_rows ex_odr ex_bayes st1 ex_bad) as [F2 S2].
  { destruct (ex_reject st1) as [e' He']. rewrite He'. discriminate. }
  assert (M2 : p_method (fst (fit_plaw ex_stat ex_rows ex_odr ex_bayes st1 ex_bad)) = Some "bayes"%string) by (apply (method_of st1 ex_bad); now right).
  split.
  - unfold sonic_length. rewrite F1, M1. cbn. eauto.
  - unfold sonic_length. rewrite F2, F1, M2, S2, S1. reflexivity.
Qed.
