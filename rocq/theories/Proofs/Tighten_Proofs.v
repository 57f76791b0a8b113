(** Further facts about the bootstrap, the break of the VCS, the genus distance and the
    stored 2D fit. *)
From Coq Require Import Reals List Arith Lia Lra Bool.
From Verif Require Import Lib.PyBase Lib.RSum Lib.Fl Lib.Arr Spec.Blank Spec.Segmented Spec.EllipFit Model.Units Model.EllipPlaw Model.LmSeg Model.FitUtils Model.FitState Model.Distances
  Proofs.Fl_Proofs Proofs.LmSeg_Proofs Proofs.FitUtils_Proofs Proofs.Distances_Proofs Proofs.LmSeg2_Proofs.
Import ListNotations.
Local Open Scope R_scope.

Lemma resample_all_values wendog wresid draw : forall l ys, resample_all wendog wresid draw l = Ok ys ->
  length ys = length l /\ forall k, (k < length l)%nat -> resample wendog wresid (draw (nth k l 0%nat)) = Ok (nth k ys []).
Proof.
  induction l as [|b l IH]; cbn [resample_all]; intros ys H.
  - injection H as <-. split; [reflexivity|]. cbn. intros; lia.
  - apply bind_ok in H. destruct H as (y&Hy&H). apply bind_ok in H. destruct H as (r&Hr&H). injection H as <-.
    destruct (IH _ Hr) as [L V]. split; [cbn; lia|]. intros [|k] Hk; [exact Hy|]. cbn [nth]. apply V. cbn in Hk. lia.
Qed.
Lemma bootstrap_spread refit y res draw nboot npar r : residual_bootstrap refit y res draw nboot npar = Ok r ->
  length r = npar /\ exists ys, length ys = nboot /\ (forall k, (k < nboot)%nat -> resample y res (draw k) = Ok (nth k ys [])) /\
  forall p, (p < npar)%nat -> nth p r 0 = sqrt (rvar (map (fun v => nth p (refit v) 0) ys)).
Proof.
  unfold residual_bootstrap. intros H. apply bind_ok in H. destruct H as (ys&Hy&H). injection H as <-. rewrite map_length, seq_length. split; [reflexivity|].
  destruct (resample_all_values _ _ _ _ _ Hy) as [L V]. rewrite seq_length in L, V. exists ys. split; [exact L|]. split.
  - intros k Hk. rewrite <- (V k Hk). rewrite seq_nth by exact Hk. reflexivity.
  - intros p Hp. rewrite (nth_indep _ _ (rstd (map (fun v => nth 0 (refit v) 0) ys))) by (rewrite map_length, seq_length; exact Hp).
    rewrite (map_nth (fun p => rstd (map (fun v => nth p (refit v) 0) ys)) (seq 0 npar) 0%nat p). rewrite seq_nth by exact Hp. cbn [Nat.add].
    unfold rstd, rvar, rmean. rewrite !map_length. reflexivity.
Qed.

Lemma vcs_found_log try knots default b : vcs_breaks try knots default false = Ok b ->
  exists k, 0 < k /\ Rpower 10 b = k /\ (In k knots \/ (knots = [] /\ k = default)) /\ (try k = true \/ knots = [k] \/ knots = []).
Proof.
  unfold vcs_breaks. intros H. apply bind_ok in H. destruct H as (c&Hc&H). destruct (Rltb_spec 0 c) as [P|P]; [|discriminate]. injection H as <-.
  exists c. split; [exact P|]. split.
  { unfold Rpower. replace (ln c / ln 10 * ln 10) with (ln c); [now apply exp_ln|]. field. assert (0 < ln 10) by (rewrite <- ln_1; apply ln_increasing; lra). lra. }
  apply (vcs_found try knots default c). unfold vcs_breaks. rewrite Hc. reflexivity.
Qed.

Lemma fold_max_spec l : l <> [] -> is_max (fold_right Rmax (hd 0 l) l) l.
Proof. intros N. exact (rmax_of_spec l N). Qed.
Lemma fold_min_spec l : l <> [] -> is_min (fold_right Rmin (hd 0 l) l) l.
Proof.
  intros N. assert (G : forall d r, is_min (fold_right Rmin d r) (d :: r)).
  { intros d r. induction r as [|v r [IH1 IH2]]; cbn [fold_right].
    - split; [now left|]. intros y [<-|[]]. lra.
    - split.
      + unfold Rmin at 1. destruct (Rle_dec v _); [right; now left|]. destruct IH1 as [E|E]; [left; exact E|right; right; exact E].
      + intros y [<-|[<-|Hy]]; [eapply Rle_trans; [apply Rmin_r|apply IH2; now left]|apply Rmin_l|eapply Rle_trans; [apply Rmin_r|apply IH2; now right]]. }
  destruct l as [|a l]; [contradiction|]. cbn [hd]. destruct (G a (a :: l)) as [A B]. split; [destruct A as [E|A]; [left; exact E|exact A]|]. intros y Hy. apply B. now right.
Qed.

Lemma min_unique l a b : is_min a l -> is_min b l -> a = b.
Proof. intros [A1 A2] [B1 B2]. apply Rle_antisym; auto. Qed.
Lemma max_unique l a b : is_max a l -> is_max b l -> a = b.
Proof. intros [A1 A2] [B1 B2]. apply Rle_antisym; auto. Qed.

(** The genus distance at equal pixel sizes, in full. *)
Lemma genus_value interp scale t1 g1 n1 t2 g2 n2 a1 b1 a2 b2 : is_min a1 t1 -> is_max b1 t1 -> is_min a2 t2 -> is_max b2 t2 ->
  let n := (2 * ((length t1 + length t2) / 2))%nat in let lo := Rmax a1 a2 in let hi := Rmin b1 b2 in
  (genus_distance interp scale t1 g1 n1 t2 g2 n2) ^ 2 =
  rsum n (fun k => let p := lo + INR k * ((hi - lo) / INR (n - 1)) in
    (interp t1 (map (fun g => g / (INR n1 / scale)) g1) p - interp t2 (map (fun g => g / INR n2) g2) p) ^ 2).
Proof.
  intros A1 B1 A2 B2 n lo hi. assert (N1 : t1 <> []) by (destruct A1 as [H _]; intros ->; destruct H). assert (N2 : t2 <> []) by (destruct A2 as [H _]; intros ->; destruct H).
  assert (PTS : genus_points t1 t2 = tab1 n (fun k => lo + INR k * ((hi - lo) / INR (n - 1)))).
  { unfold genus_points. cbv zeta. rewrite <- (min_unique t1 _ _ A1 (fold_min_spec t1 N1)), <- (min_unique t2 _ _ A2 (fold_min_spec t2 N2)).
    rewrite <- (max_unique t1 _ _ B1 (fold_max_spec t1 N1)), <- (max_unique t2 _ _ B2 (fold_max_spec t2 N2)). fold n lo hi. unfold linspace.
    destruct (Nat.leb_spec n 1) as [L|L]; [|reflexivity]. exfalso. unfold n in L. destruct t1; [contradiction|]. destruct t2; [contradiction|].
    cbn [length] in L. pose proof (Nat.div_le_mono 2 (S (length t1) + S (length t2)) 2 ltac:(lia) ltac:(lia)). change (2 / 2)%nat with 1%nat in H. lia. }
  unfold genus_distance. cbv zeta. rewrite PTS. rewrite pow2_sqrt.
  - unfold tab1. rewrite map_map. rewrite rsum_lsum. reflexivity.
  - apply lsum_nonneg. intros v Hv. apply in_map_iff in Hv. destruct Hv as (p&<-&_). apply pow2_ge_0.
Qed.

Lemma store_errs r s : store_2D r = Ok s -> nth_error (r_stderrs r) 3 = Some (slope2D_err s) /\ nth_error (r_stderrs r) 2 = Some (theta2D_err s) /\
  forall cov, errors_of cov (r_stderrs r) ->
    slope2D_err s = Fin (sqrt (Rabs (nth 3 (nth 3 cov []) 0))) /\ theta2D_err s = Fin (sqrt (Rabs (nth 2 (nth 2 cov []) 0))).
Proof.
  unfold store_2D. destruct (nth_error (r_stderrs r) 3) as [e3|] eqn:E3; [|discriminate]. destruct (nth_error (r_stderrs r) 2) as [e2|] eqn:E2; [|discriminate].
  destruct (nth_error (r_stderrs r) 1); [|discriminate]. intros E. injection E as <-. cbn [slope2D_err theta2D_err].
  split; [reflexivity|]. split; [reflexivity|]. intros cov [L V].
  assert (3 < length cov)%nat by (rewrite <- L; apply nth_error_Some; congruence).
  apply nth_error_nth with (d := NaN) in E3. apply nth_error_nth with (d := NaN) in E2. rewrite <- E3, <- E2. split; apply V; lia.
Qed.

(** A search in which the step is halved four times. *)
Definition ex_solver4 (cols : list (list R)) : fit_result :=
  mk_fit [Fin 0; Fin 1; Fin 1; Fin 8] [Fin 1; Fin 1; Fin 1; Fin 1] [Fin 0] (repeat (repeat (Fin 1) 4) 4).
Lemma ex_halved : exists c' stop, search_step ex_seg ex_solver4 true 100 (mk_search 2 (Fin 2) (Fin 10) (Fin 1) false 0 None) = Ok (c', stop, 4%nat) /\
  c_fit c' = Some (ex_solver4 []) /\ c_brk c' = 3.
Proof.
  assert (exists c' stop h, search_step ex_seg ex_solver4 true 100 (mk_search 2 (Fin 2) (Fin 10) (Fin 1) false 0 None) = Ok (c', stop, h)) as (c'&stop&h&E).
  { unfold search_step, lm_fit. change (seg_weights ex_seg) with (@None (list R)). cbn [bind ex_solver4 f_params index nth_error].
    destruct (if usable _ _ then _ else _) as [[found sx] hh]. destruct found; eauto. }
  assert (F : c_fit c' = Some (ex_solver4 [])).
  { destruct (step_spec _ _ _ _ _ _ _ _ E) as (_&_&(f&Hf&Hl&_)&_). apply lm_fit_solver in Hl. rewrite Hf, Hl. reflexivity. }
  destruct (step_moves _ _ _ _ _ _ _ _ 2 1 8 E eq_refl) as (M1&M2&M3).
  { intros f Ef. rewrite F in Ef. injection Ef as <-. split; reflexivity. }
  { lra. }
  cbn [c_brk] in *. change (seg_x ex_seg) with [1; 2; 3; 4] in *. unfold moved_break in *.
  assert (SP : forall b, splits b [1; 2; 3; 4] <-> 1 <= b < 4).
  { intros b. split.
    - intros [(u&Hu&U) (v&Hv&V)]. cbn in Hu, Hv. split; [destruct Hu as [<-|[<-|[<-|[<-|[]]]]]; lra|destruct Hv as [<-|[<-|[<-|[<-|[]]]]]; lra].
    - intros [A B]. split; [exists 1|exists 4]; cbn; auto 10. }
  assert (h = 4%nat).
  { destruct (le_lt_dec h 3) as [L|L].
    - exfalso. destruct M3 as [(M3&_)|(M3&_)]; [|lia]. apply SP in M3.
      assert (1 <= / 2 ^ h * 8). { assert (H : h = 0%nat \/ h = 1%nat \/ h = 2%nat \/ h = 3%nat) by lia. destruct H as [->|[->|[->| ->]]]; cbn [pow]; lra. }
      replace (2 + 2 / 2 ^ h * 8 / 1) with (2 + 2 * (/ 2 ^ h * 8)) in M3 by (field; apply pow_nonzero; lra). lra.
    - destruct (Nat.eq_dec h 4) as [|N]; [assumption|]. exfalso. apply (M2 4%nat); [lia|]. apply SP. cbn [pow]. lra. }
  subst h. exists c', stop. split; [exact E|]. split; [exact F|]. destruct M3 as [(_&M3&_)|(M3&_)]; [|discriminate].
  rewrite M3. cbn [pow]. field.
Qed.
