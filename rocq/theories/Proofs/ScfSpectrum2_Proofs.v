From Coq Require Import String Reals List ZArith Arith Bool Lia Lra.
From Verif Require Import Lib.PyBase Lib.Arr Lib.Fl Lib.RSum Lib.Bins Spec.Bins Spec.Annulus Spec.Blank Spec.Freq Spec.EllipFit Spec.ScfSpectrum
  Model.StatsUtils Model.Psds Model.Scf Model.EllipPlaw Model.ScfSpectrum Proofs.Psds_Proofs Proofs.Psds2_Proofs Proofs.StatsUtils2_Proofs
  Proofs.Azim_Proofs Proofs.EllipPlaw_Proofs Proofs.ScfSpectrum_Proofs.
Import ListNotations.
Local Open Scope R_scope.

(** ** The 1D fit *)
Lemma log10_le a b : 0 < a -> 0 < b -> (log10 a <= log10 b <-> a <= b).
Proof.
  intros Ha Hb. unfold log10. assert (L : 0 < ln 10) by (rewrite <- ln_1; apply ln_increasing; lra). split; intros H.
  - apply Rnot_lt_le. intros C. apply ln_increasing in C; [|exact Hb].
    assert (ln b / ln 10 < ln a / ln 10) by (unfold Rdiv; apply Rmult_lt_compat_r; [now apply Rinv_0_lt_compat|exact C]). lra.
  - unfold Rdiv. apply Rmult_le_compat_r; [left; now apply Rinv_0_lt_compat|]. destruct H as [H| ->]; [left; now apply ln_increasing|right; reflexivity].
Qed.
Lemma flog10_pos a : 0 < a -> flog10 (Fin a) = Fin (log10 a).
Proof. intros H. unfold flog10. destruct (Rltb_spec 0 a); [reflexivity|lra]. Qed.
Lemma log10_inj a b : 0 < a -> 0 < b -> log10 a = log10 b -> a = b.
Proof. intros Ha Hb E. apply Rle_antisym; apply log10_le; auto; rewrite E; apply Rle_refl. Qed.
Lemma log10_plaw A s l : 0 < A -> log10 (A * Rpower l s) = log10 A + s * log10 l.
Proof.
  intros H. unfold log10. rewrite ln_mult by (auto; apply exp_pos). unfold Rpower. rewrite ln_exp. field.
  assert (0 < ln 10) by (rewrite <- ln_1; apply ln_increasing; lra). lra.
Qed.

Lemma lower_ok_spec xlow l : good_limit xlow -> 0 < l -> lower_ok xlow (flog10 (Fin l)) = true <-> above xlow l.
Proof.
  intros G H. destruct xlow as [|r|]; cbn [good_limit lower_ok above] in *; try tauto. rewrite !flog10_pos by assumption. cbn [fleb].
  destruct (Rleb_spec (log10 r) (log10 l)) as [L|L]; rewrite log10_le in L by assumption; split; intros; first [assumption | reflexivity | discriminate | contradiction].
Qed.
Lemma upper_ok_spec xhigh l : good_limit xhigh -> 0 < l -> upper_ok xhigh (flog10 (Fin l)) = true <-> below xhigh l.
Proof.
  intros G H. destruct xhigh as [|r|]; cbn [good_limit upper_ok below] in *; try tauto. rewrite !flog10_pos by assumption. cbn [fleb].
  destruct (Rleb_spec (log10 l) (log10 r)) as [L|L]; rewrite log10_le in L by assumption; split; intros; first [assumption | reflexivity | discriminate | contradiction].
Qed.

Definition to_row (b : R * fl * fl) : fl * fl * fl := let '(l, v, e) := b in (flog10 (Fin l), flog10 v, fdiv (Fin 1) (fsqr e)).
Lemma rows_bins lags spec sd :
  combine (combine (map (fun l => flog10 (Fin l)) lags) (map flog10 spec)) (map (fun s => fdiv (Fin 1) (fsqr s)) sd) = map to_row (spectrum_bins lags spec sd).
Proof.
  unfold spectrum_bins. revert spec sd. induction lags as [|l lags IH]; intros [|v spec] [|e sd]; cbn; auto. now rewrite IH.
Qed.

Lemma filter_map_comm {A B} (f : A -> B) g l : filter g (map f l) = map f (filter (fun x => g (f x)) l).
Proof. induction l as [|a l IH]; cbn; [reflexivity|]. destruct (g (f a)); cbn; now rewrite IH. Qed.
Lemma filter_filter {A} (f g : A -> bool) l : filter f (filter g l) = filter (fun x => g x && f x) l.
Proof. induction l as [|a l IH]; cbn; [reflexivity|]. destruct (g a); cbn; now rewrite IH. Qed.

Lemma wsse_zero rows a b : (forall x y w, In (x, y, w) rows -> y = a + b * x) -> wsse rows a b = 0.
Proof.
  unfold wsse. induction rows as [|[[x y] w] rows IH]; intros H; cbn [map fold_right]; [reflexivity|].
  rewrite IH by (intros; apply (H _ _ w0); now right). rewrite (H x y w) by now left. ring.
Qed.
Lemma wsse_nonneg rows a b : (forall x y w, In (x, y, w) rows -> 0 < w) -> 0 <= wsse rows a b.
Proof.
  unfold wsse. induction rows as [|[[x y] w] rows IH]; intros H; cbn [map fold_right]; [apply Rle_refl|].
  apply Rplus_le_le_0_compat; [|apply IH; intros; apply (H x0 y0); now right].
  apply Rmult_le_pos; [left; apply (H x y); now left|apply pow2_ge_0].
Qed.
Lemma wsse_null rows a b : (forall x y w, In (x, y, w) rows -> 0 < w) -> wsse rows a b <= 0 -> forall x y w, In (x, y, w) rows -> y = a + b * x.
Proof.
  induction rows as [|[[x0 y0] w0] rows IH]; intros Hw H x y w; [intros []|].
  assert (Hw' : forall x y w, In (x, y, w) rows -> 0 < w) by (intros; apply (Hw x1 y1); now right).
  pose proof (wsse_nonneg rows a b Hw') as P.
  change (w0 * (y0 - a - b * x0) ^ 2 + wsse rows a b <= 0) in H.
  assert (W : 0 < w0) by (apply (Hw x0 y0); now left).
  assert (Q : 0 <= w0 * (y0 - a - b * x0) ^ 2) by (apply Rmult_le_pos; [lra|apply pow2_ge_0]).
  intros [E|E].
  - injection E as -> -> ->. assert (Z : w * (y - a - b * x) ^ 2 = 0) by lra.
    apply Rmult_integral in Z. destruct Z as [Z|Z]; [lra|]. rewrite <- Rsqr_pow2 in Z. apply Rsqr_0_uniq in Z. lra.
  - apply (IH Hw' ltac:(lra) x y w E).
Qed.
Lemma best_line_exact rows a b a0 b0 : (forall x y w, In (x, y, w) rows -> 0 < w) -> (forall x y w, In (x, y, w) rows -> y = a0 + b0 * x) ->
  (exists x1 y1 w1 x2 y2 w2, In (x1, y1, w1) rows /\ In (x2, y2, w2) rows /\ x1 <> x2) -> best_line rows a b -> a = a0 /\ b = b0.
Proof.
  intros Hw Hl [x1 [y1 [w1 [x2 [y2 [w2 [I1 [I2 N]]]]]]]] B.
  assert (Z : wsse rows a b <= 0) by (rewrite <- (wsse_zero rows a0 b0 Hl); apply B).
  pose proof (wsse_null rows a b Hw Z _ _ _ I1) as E1. pose proof (wsse_null rows a b Hw Z _ _ _ I2) as E2.
  rewrite (Hl _ _ _ I1) in E1. rewrite (Hl _ _ _ I2) in E2.
  assert (D : (b0 - b) * (x1 - x2) = 0) by lra. apply Rmult_integral in D. destruct D as [D|D]; [|lra].
  assert (b = b0) by lra. subst b. split; [lra|reflexivity].
Qed.

Section Fit.
  Variable wls : list (fl * fl * fl) -> fl * fl.
  Variable o : scf_obj.
  Variables (lags : list R) (spec sd : list fl) (xlow xhigh : limit).
  Hypothesis HL : s_lags o = Some lags.
  Hypothesis HS : s_spectrum o = Some spec.
  Hypothesis HD : s_stddev o = Some sd.
  Hypothesis Hlow : good_limit xlow.
  Hypothesis Hhigh : good_limit xhigh.

  Lemma do_fit_eq : do_fit wls o xlow xhigh =
    let within := filter (fun b => lower_ok xlow (flog10 (Fin (fst (fst b)))) && upper_ok xhigh (flog10 (Fin (fst (fst b))))) (spectrum_bins lags spec sd) in
    if Nat.eqb (length within) 0 then Err ValueError
    else Ok (mk_scf (s_nz o) (s_ny o) (s_nx o) (s_cube o) (s_roll_lags o) (s_surface o) (s_lags o) (s_spectrum o) (s_stddev o) (s_azim_mask o)
               (Some (wls (map to_row (filter (fun b => row_ok (to_row b)) within)))) (s_fit2D o)).
  Proof.
    unfold do_fit. rewrite HL, HS, HD, rows_bins, filter_map_comm, map_length, filter_map_comm. cbv zeta.
    replace (filter (fun x : R * fl * fl => lower_ok xlow (fst (fst (to_row x))) && upper_ok xhigh (fst (fst (to_row x)))) (spectrum_bins lags spec sd))
      with (filter (fun b : R * fl * fl => lower_ok xlow (flog10 (Fin (fst (fst b)))) && upper_ok xhigh (flog10 (Fin (fst (fst b))))) (spectrum_bins lags spec sd)).
    - destruct xlow, xhigh; cbn in Hlow, Hhigh; try contradiction; reflexivity.
    - apply filter_ext. intros [[l v] e]. reflexivity.
  Qed.

  Theorem fit_recovers A s : 0 < A -> least_squares wls -> answers wls ->
    (forall b, In b (spectrum_bins lags spec sd) -> 0 < fst (fst b)) ->
    (forall b, In b (spectrum_bins lags spec sd) -> above xlow (fst (fst b)) -> below xhigh (fst (fst b)) -> on_power_law A s b) ->
    (exists b1 b2, In b1 (spectrum_bins lags spec sd) /\ In b2 (spectrum_bins lags spec sd) /\ fst (fst b1) <> fst (fst b2) /\
       (forall b, b = b1 \/ b = b2 -> measured b /\ above xlow (fst (fst b)) /\ below xhigh (fst (fst b)))) ->
    exists o', do_fit wls o xlow xhigh = Ok o' /\ s_fit o' = Some (Fin (log10 A), Fin s) /\
      forall x, 0 < x -> fitted_model (log10 A, s) x = A * Rpower x s.
  Proof.
    intros HA LS AN Hpos Hp [b1 [b2 [I1 [I2 [Nb Hb]]]]]. rewrite do_fit_eq. cbv zeta.
    set (within := filter _ (spectrum_bins lags spec sd)).
    assert (W : forall b, In b within <-> In b (spectrum_bins lags spec sd) /\ above xlow (fst (fst b)) /\ below xhigh (fst (fst b))).
    { intros b. unfold within. rewrite filter_In. split.
      - intros [H E]. split; [exact H|]. apply andb_prop in E. destruct E as [E1 E2]. pose proof (Hpos b H).
        rewrite lower_ok_spec in E1 by auto. rewrite upper_ok_spec in E2 by auto. auto.
      - intros [H [E1 E2]]. pose proof (Hpos b H). split; [exact H|]. apply andb_true_intro. rewrite lower_ok_spec, upper_ok_spec by auto. auto. }
    set (kept := filter (fun b => row_ok (to_row b)) within).
    assert (GOOD : forall b, In b within -> measured b -> exists l g, b = (l, Fin (A * Rpower l s), Fin g) /\ 0 < l /\ g <> 0).
    { intros b Hb' M. apply W in Hb'. destruct Hb' as [H [E1 E2]]. pose proof (Hpos b H) as P. pose proof (Hp b H E1 E2) as Q.
      destruct b as [[l v] e]. cbn in *. destruct M as [M1 M2]. destruct Q as [->|[->|[-> [g [-> G]]]]]; try discriminate. exists l, g. auto. }
    assert (KEEP : forall b, In b kept <-> In b within /\ measured b).
    { intros b. unfold kept. rewrite filter_In. split; intros [H E]; split; auto.
      - apply W in H. destruct H as [H [E1 E2]]. pose proof (Hp b H E1 E2) as Q. pose proof (Hpos b H) as P. destruct b as [[l v] e]. cbn in Q, P |- *.
        destruct Q as [->|[->|[-> [g [-> G]]]]]; [| |auto].
        + cbn [to_row flog10] in E. unfold row_ok in E. rewrite orb_true_r in E. discriminate.
        + cbn [to_row fsqr fdiv fmul] in E. unfold row_ok in E. rewrite orb_true_r in E. discriminate.
      - destruct (GOOD b H E) as [l [g [-> [P G]]]]. unfold to_row. rewrite !flog10_pos by (first [assumption | apply Rmult_lt_0_compat; [assumption|apply exp_pos]]).
        unfold row_ok, fsqr. cbn [fmul fdiv]. destruct (Reqb_spec (g * g) 0) as [E0|E0]; [apply Rmult_integral in E0; tauto|]. reflexivity. }
    assert (ROW : forall b, In b kept -> exists l g, b = (l, Fin (A * Rpower l s), Fin g) /\ 0 < l /\ g <> 0).
    { intros b H. apply KEEP in H. now apply GOOD. }
    set (real := fun b : R * fl * fl => let '(l, v, e) := b in (log10 l, log10 (fl_real v), 1 / (fl_real e * fl_real e))).
    assert (RE : map to_row kept = map as_row (map real kept)).
    { rewrite map_map. apply map_ext_in. intros b H. destruct (ROW b H) as [l [g [-> [P G]]]]. unfold to_row, real, as_row. cbn [fl_real].
      rewrite !flog10_pos by (first [assumption | apply Rmult_lt_0_compat; [assumption|apply exp_pos]]). unfold fsqr. cbn [fmul fdiv].
      destruct (Reqb_spec (g * g) 0) as [E0|E0]; [apply Rmult_integral in E0; tauto|]. reflexivity. }
    assert (KB : forall b, b = b1 \/ b = b2 -> In b kept).
    { intros b E. apply KEEP. destruct (Hb b E) as [M [E1 E2]]. split; [|exact M]. apply W. split; [|auto]. destruct E as [->| ->]; assumption. }
    assert (NE : Nat.eqb (length within) 0 = false).
    { apply Nat.eqb_neq. intros E. apply length_zero_iff_nil in E. pose proof (KB b1 (or_introl eq_refl)) as K. apply KEEP in K. rewrite E in K. destruct K as [[] _]. }
    rewrite NE. eexists. split; [reflexivity|]. cbn [s_fit]. split.
    - fold kept. rewrite RE. destruct (AN (map real kept)) as [a [b E]].
      assert (WP : forall x y w, In (x, y, w) (map real kept) -> 0 < w).
      { intros x y w H. apply in_map_iff in H. destruct H as [c [Hc K]]. destruct (ROW c K) as [l [g [-> [P G]]]]. unfold real in Hc. cbn [fl_real] in Hc.
        injection Hc as _ _ <-. apply Rdiv_lt_0_compat; [lra|]. assert (0 < g * g) by (destruct (Rtotal_order g 0) as [?|[?|?]]; [nra|contradiction|nra]). assumption. }
      pose proof (LS _ _ _ WP E) as B.
      destruct (best_line_exact (map real kept) a b (log10 A) s WP) as [-> ->]; [| |exact B|now rewrite E].
      + intros x y w H. apply in_map_iff in H. destruct H as [c [Hc K]]. destruct (ROW c K) as [l [g [-> [P G]]]]. unfold real in Hc. cbn [fl_real] in Hc.
        injection Hc as <- <- _. now apply log10_plaw.
      + pose proof (KB b1 (or_introl eq_refl)) as K1. pose proof (KB b2 (or_intror eq_refl)) as K2.
        destruct (ROW _ K1) as [l1 [g1 [E1 [P1 G1]]]]. destruct (ROW _ K2) as [l2 [g2 [E2 [P2 G2]]]].
        exists (log10 l1), (log10 (A * Rpower l1 s)), (1 / (g1 * g1)), (log10 l2), (log10 (A * Rpower l2 s)), (1 / (g2 * g2)).
        split; [apply in_map_iff; exists b1; rewrite E1 at 1; auto|]. split; [apply in_map_iff; exists b2; rewrite E2 at 1; auto|].
        intros C. apply log10_inj in C; auto. rewrite E1, E2 in Nb. cbn in Nb. contradiction.
    - intros x Hx. unfold fitted_model. cbn [fst snd]. rewrite <- log10_plaw by assumption. unfold log10, Rpower at 1.
      assert (0 < ln 10) by (rewrite <- ln_1; apply ln_increasing; lra).
      replace (ln (A * Rpower x s) / ln 10 * ln 10) with (ln (A * Rpower x s)) by (field; lra).
      apply exp_ln. apply Rmult_lt_0_compat; [assumption|apply exp_pos].
  Qed.

  Theorem fit_nothing_left : (forall b, In b (spectrum_bins lags spec sd) -> 0 < fst (fst b)) ->
    (do_fit wls o xlow xhigh = Err ValueError <->
     forall b, In b (spectrum_bins lags spec sd) -> above xlow (fst (fst b)) -> below xhigh (fst (fst b)) -> False).
  Proof.
    intros Hpos. rewrite do_fit_eq. cbv zeta. set (within := filter _ (spectrum_bins lags spec sd)).
    assert (W : forall b, In b within <-> In b (spectrum_bins lags spec sd) /\ above xlow (fst (fst b)) /\ below xhigh (fst (fst b))).
    { intros b. unfold within. rewrite filter_In. split.
      - intros [H E]. split; [exact H|]. apply andb_prop in E. destruct E as [E1 E2]. pose proof (Hpos b H).
        rewrite lower_ok_spec in E1 by auto. rewrite upper_ok_spec in E2 by auto. auto.
      - intros [H [E1 E2]]. pose proof (Hpos b H). split; [exact H|]. apply andb_true_intro. rewrite lower_ok_spec, upper_ok_spec by auto. auto. }
    destruct (Nat.eqb_spec (length within) 0) as [E|E].
    - apply length_zero_iff_nil in E. split; [|reflexivity]. intros _ b H1 H2 H3. assert (In b within) by (apply W; auto). rewrite E in H. destruct H.
    - split; [discriminate|]. intros H. exfalso. destruct within as [|b w]; [now apply E|]. destruct (proj1 (W b) (or_introl eq_refl)) as [H1 [H2 H3]]. eauto.
  Qed.
End Fit.

(** A solver as supposed exists: the normal equations. *)
Definition wsum (f : R -> R -> R) (rows : list (R * R * R)) : R := fold_right Rplus 0 (map (fun r => let '(x, y, w) := r in w * f x y) rows).
Lemma wsum_cons f x y w rows : wsum f ((x, y, w) :: rows) = w * f x y + wsum f rows.
Proof. reflexivity. Qed.
Lemma wsum_pos f rows : (forall x y w, In (x, y, w) rows -> 0 < w) -> (forall x y, 0 <= f x y) -> 0 <= wsum f rows.
Proof.
  intros Hw Hf. induction rows as [|[[x y] w] rows IH]; [apply Rle_refl|]. rewrite wsum_cons.
  apply Rplus_le_le_0_compat; [|apply IH; intros; apply (Hw x0 y0); now right]. apply Rmult_le_pos; [left; apply (Hw x y); now left|apply Hf].
Qed.
Lemma wsum_null f rows : (forall x y w, In (x, y, w) rows -> 0 < w) -> (forall x y, 0 <= f x y) -> wsum f rows <= 0 ->
  forall x y w, In (x, y, w) rows -> f x y = 0.
Proof.
  intros Hw Hf. induction rows as [|[[x0 y0] w0] rows IH]; intros H x y w; [intros []|].
  assert (Hw' : forall x y w, In (x, y, w) rows -> 0 < w) by (intros; apply (Hw x1 y1); now right).
  rewrite wsum_cons in H. pose proof (wsum_pos f rows Hw' Hf). assert (W : 0 < w0) by (apply (Hw x0 y0); now left).
  pose proof (Hf x0 y0). assert (0 <= w0 * f x0 y0) by (apply Rmult_le_pos; lra). intros [E|E].
  - injection E as <- <- <-. assert (Z : w0 * f x0 y0 = 0) by lra. apply Rmult_integral in Z. destruct Z; lra.
  - apply (IH Hw' ltac:(lra) x y w E).
Qed.
Definition s1 := wsum (fun _ _ => 1). Definition sx := wsum (fun x _ => x). Definition sy := wsum (fun _ y => y).
Definition sxx := wsum (fun x _ => x * x). Definition sxy := wsum (fun x y => x * y).
Definition normal (rows : list (R * R * R)) : R * R :=
  let D := s1 rows * sxx rows - sx rows * sx rows in
  if Reqb D 0 then (sy rows / s1 rows, 0)
  else ((sy rows * sxx rows - sx rows * sxy rows) / D, (s1 rows * sxy rows - sx rows * sy rows) / D).
Lemma normal_best rows a b : (forall x y w, In (x, y, w) rows -> 0 < w) ->
  sy rows = a * s1 rows + b * sx rows -> sxy rows = a * sx rows + b * sxx rows -> best_line rows a b.
Proof.
  intros Hw N1 N2 a' b'.
  assert (E : wsse rows a' b' = wsse rows a b + wsum (fun x _ => ((a' - a) + (b' - b) * x) ^ 2) rows
      - 2 * (a' - a) * (sy rows - a * s1 rows - b * sx rows) - 2 * (b' - b) * (sxy rows - a * sx rows - b * sxx rows)).
  { clear. unfold sy, s1, sx, sxy, sxx. induction rows as [|[[x y] w] rows IH]; [cbn; ring|].
    change (wsse ((x, y, w) :: rows) a' b') with (w * (y - a' - b' * x) ^ 2 + wsse rows a' b').
    change (wsse ((x, y, w) :: rows) a b) with (w * (y - a - b * x) ^ 2 + wsse rows a b).
    rewrite !wsum_cons, IH. ring. }
  rewrite E, N1, N2. pose proof (wsum_pos (fun x _ => ((a' - a) + (b' - b) * x) ^ 2) rows Hw (fun x _ => pow2_ge_0 _)). lra.
Qed.
Lemma normal_solves rows a b : (forall x y w, In (x, y, w) rows -> 0 < w) -> normal rows = (a, b) -> best_line rows a b.
Proof.
  intros Hw. destruct rows as [|r rows]; [intros _ a' b'; cbn; apply Rle_refl|]. set (l := r :: rows) in *.
  assert (P1 : 0 < s1 l).
  { unfold l. destruct r as [[x y] w]. unfold s1. rewrite wsum_cons.
    assert (0 < w) by (apply (Hw x y); now left). assert (0 <= wsum (fun _ _ => 1) rows) by (apply wsum_pos; [intros; apply (Hw x0 y0); now right|intros; lra]). lra. }
  set (D := s1 l * sxx l - sx l * sx l). set (m := sx l / s1 l).
  assert (V : D = s1 l * wsum (fun x _ => (x - m) ^ 2) l).
  { assert (Q : forall r, wsum (fun x _ => (x - m) ^ 2) r = sxx r - 2 * m * sx r + m * m * s1 r).
    { unfold sxx, sx, s1. induction r0 as [|[[x y] w] r0 IH]; [cbn; ring|]. rewrite !wsum_cons, IH. ring. }
    rewrite Q. unfold D, m. field. lra. }
  unfold normal. fold D. destruct (Reqb_spec D 0) as [E|E]; intros [= <- <-]; apply normal_best; auto.
  - field. lra.
  - rewrite V in E. apply Rmult_integral in E. destruct E as [E|E]; [lra|].
    assert (X : forall x y w, In (x, y, w) l -> x = m).
    { intros x y w H. assert (Z : (x - m) ^ 2 = 0) by (apply (wsum_null (fun x _ => (x - m) ^ 2) l Hw (fun x _ => pow2_ge_0 _) ltac:(lra) x y w H)).
      rewrite <- Rsqr_pow2 in Z. apply Rsqr_0_uniq in Z. lra. }
    assert (XY : forall r, (forall x y w, In (x, y, w) r -> x = m) -> sxy r = m * sy r).
    { unfold sxy, sy. induction r0 as [|[[x y] w] r0 IH]; intros H; [cbn; ring|]. rewrite !wsum_cons, IH by (intros; apply (H x0 y0 w0); now right).
      rewrite (H x y w) by now left. ring. }
    rewrite (XY l X). unfold m. field. lra.
  - unfold D in *. field. exact E.
  - unfold D in *. field. exact E.
Qed.
Definition solver_1D (rows : list (fl * fl * fl)) : fl * fl :=
  let '(a, b) := normal (map (fun r => let '(x, y, w) := r in (fl_real x, fl_real y, fl_real w)) rows) in (Fin a, Fin b).
Lemma solver_1D_real rows : solver_1D (map as_row rows) = (Fin (fst (normal rows)), Fin (snd (normal rows))).
Proof.
  unfold solver_1D. rewrite map_map. replace (map _ rows) with rows; [now destruct (normal rows)|].
  induction rows as [|[[x y] w] rows IH]; [reflexivity|]. cbn [map as_row fl_real]. now rewrite <- IH.
Qed.
Theorem solver_exists : least_squares solver_1D /\ answers solver_1D.
Proof.
  split.
  - intros rows a b Hw. rewrite solver_1D_real. intros E. apply normal_solves; [exact Hw|].
    pose proof (f_equal fst E) as E1. pose proof (f_equal snd E) as E2. cbn [fst snd] in E1, E2. injection E1 as <-. injection E2 as <-. now destruct (normal rows).
  - intros rows. rewrite solver_1D_real. eauto.
Qed.

Lemma fit_wrong_type wls o xlow xhigh : s_lags o <> None -> s_spectrum o <> None -> s_stddev o <> None -> xlow = NotQuantity \/ xhigh = NotQuantity ->
  do_fit wls o xlow xhigh = Err TypeError.
Proof.
  intros A B C H. unfold do_fit. destruct (s_lags o); [|easy]. destruct (s_spectrum o); [|easy]. destruct (s_stddev o); [|easy].
  destruct H as [->| ->]; [reflexivity|]. now destruct xlow.
Qed.

(** ** The run does not depend on earlier runs *)
Section Again.
  Variables (tppf : nat -> fl) (wls : list (fl * fl * fl) -> fl * fl) (solve : list R -> list R -> solver) (perms : list (list nat)).
  Variables o1 o2 : scf_obj.
  Hypothesis D : same_data o1 o2.
  Variable a : run_args.

  Definition again_state (p1 p2 : scf_obj) : Prop :=
    same_data p1 p2 /\ same_1D p1 p2 /\ (k_theta_0 (a_spec a) <> None -> s_azim_mask p1 = s_azim_mask p2).

  Lemma again_1D : 
    match (o <- do_surface o1 (a_boundary a) ;; o <- do_spectrum tppf o (a_spec a) ;; do_fit wls o (a_xlow a) (a_xhigh a)),
          (o <- do_surface o2 (a_boundary a) ;; o <- do_spectrum tppf o (a_spec a) ;; do_fit wls o (a_xlow a) (a_xhigh a)) with
    | Ok p1, Ok p2 => again_state p1 p2
    | Err e1, Err e2 => e1 = e2
    | _, _ => False
    end.
  Proof.
    destruct o1 as [nz ny nx cube rl sf lg sp sd am ft f2]. destruct o2 as [nz' ny' nx' cube' rl' sf' lg' sp' sd' am' ft' f2'].
    destruct D as [D1 [D2 [D3 [D4 D5]]]]. cbn in D1, D2, D3, D4, D5. subst nz' ny' nx' cube' rl'.
    unfold do_surface. cbn [s_nz s_ny s_nx s_cube s_roll_lags].
    destruct (compute_surface nz ny nx cube rl (a_boundary a)) as [s|e]; cbn [bind]; [|reflexivity].
    unfold do_spectrum, set_surface. cbn [s_surface s_nz s_ny s_nx s_cube s_roll_lags s_azim_mask s_fit s_fit2D bind].
    match goal with |- context [bind (pspec ?A ?B ?C ?D ?E ?F ?G ?H ?I ?J ?K ?L) _] => destruct (pspec A B C D E F G H I J K L) as [prof|e] end; cbn [bind]; [|reflexivity].
    destruct (k_theta_0 (a_spec a)) as [t|] eqn:Et.
    - destruct (prof_mask prof) as [m|]; cbn [bind]; [|reflexivity]. destruct rl as [|x [|y rl]]; cbn [bind]; try reflexivity.
      unfold do_fit. cbn [s_lags s_spectrum s_stddev s_nz s_ny s_nx s_cube s_roll_lags s_surface s_azim_mask s_fit2D].
      destruct (prof_stddev prof) as [sdv|]; [|reflexivity].
      destruct (a_xlow a), (a_xhigh a); try reflexivity; match goal with |- context [Nat.eqb ?u 0] => destruct (Nat.eqb u 0) end; try reflexivity; repeat split.
    - cbn [bind]. destruct rl as [|x [|y rl]]; cbn [bind]; try reflexivity.
      unfold do_fit. cbn [s_lags s_spectrum s_stddev s_nz s_ny s_nx s_cube s_roll_lags s_surface s_azim_mask s_fit2D].
      destruct (prof_stddev prof) as [sdv|]; [|reflexivity].
      destruct (a_xlow a), (a_xhigh a); try reflexivity; match goal with |- context [Nat.eqb ?u 0] => destruct (Nat.eqb u 0) end; try reflexivity;
      split; try (now repeat split); split; try (now repeat split); intros C; now destruct C.
  Qed.

  Theorem run_again : a_fit_2D a = false \/ a_use_azimmask a = false \/ k_theta_0 (a_spec a) <> None ->
    same_outcome (fun p1 p2 => same_1D p1 p2 /\ (a_fit_2D a = true -> s_fit2D p1 = s_fit2D p2))
      (do_run tppf wls solve perms o1 a) (do_run tppf wls solve perms o2 a).
  Proof.
    intros H. pose proof again_1D as G.
    assert (E : forall o, do_run tppf wls solve perms o a =
       (o <- (o <- do_surface o (a_boundary a) ;; o <- do_spectrum tppf o (a_spec a) ;; do_fit wls o (a_xlow a) (a_xhigh a)) ;;
        if a_fit_2D a then do_fit2D solve perms o (a_p0 a) (lim (a_xlow a)) (lim (a_xhigh a)) (a_levmarq a) (a_bootstrap a) (a_use_azimmask a) else Ok o)).
    { intros o. unfold do_run. destruct (do_surface o (a_boundary a)) as [q|e]; cbn [bind]; [|reflexivity].
      destruct (do_spectrum tppf q (a_spec a)) as [q'|e]; cbn [bind]; reflexivity. }
    rewrite !E.
    destruct (o <- do_surface o1 (a_boundary a) ;; o <- do_spectrum tppf o (a_spec a) ;; do_fit wls o (a_xlow a) (a_xhigh a)) as [p1|e1],
             (o <- do_surface o2 (a_boundary a) ;; o <- do_spectrum tppf o (a_spec a) ;; do_fit wls o (a_xlow a) (a_xhigh a)) as [p2|e2];
      cbn [bind]; try contradiction; [|exact G].
    destruct G as [_ [G1 G2]]. destruct (a_fit_2D a) eqn:F2; [|cbn; split; [exact G1|discriminate]].
    assert (M : forall s l, pixels_2D p1 s l (lim (a_xlow a)) (lim (a_xhigh a)) (a_use_azimmask a) = pixels_2D p2 s l (lim (a_xlow a)) (lim (a_xhigh a)) (a_use_azimmask a)).
    { intros s l. unfold pixels_2D. destruct l as [|x [|y l]]; try reflexivity. destruct H as [H|[H|H]]; [discriminate| |].
      - rewrite H. destruct (s_azim_mask p1), (s_azim_mask p2); reflexivity.
      - now rewrite (G2 H). }
    pose proof G1 as [K1 [K2 [K3 [K4 K5]]]]. unfold do_fit2D. rewrite K1, K2, K5.
    destruct (s_lags p2) as [l|]; [|reflexivity]. destruct (s_surface p2) as [s|]; [|reflexivity]. rewrite M.
    destruct (pixels_2D p2 s l (lim (a_xlow a)) (lim (a_xhigh a)) (a_use_azimmask a)) as [sel|e]; cbn [bind]; [|reflexivity].
    match goal with |- context [bind (fit_elliptical_powerlaw ?A ?B ?C ?D ?E ?F ?G ?H ?I ?J ?K) _] => destruct (fit_elliptical_powerlaw A B C D E F G H I J K) as [r|e] end; cbn [bind]; [|reflexivity].
    destruct (store_2D r) as [f|e]; cbn [bind]; [|reflexivity]. cbn. split; [|reflexivity]. unfold same_1D. cbn. auto.
  Qed.
End Again.
