From Coq Require Import String Reals List ZArith Arith Bool Lia Lra Permutation.
From Coquelicot Require Import Complex.
From Verif Require Import Lib.PyBase Lib.Arr Lib.DFT Lib.Fl Lib.RSum Lib.Bins Spec.Blank Spec.Freq Spec.ScfSpectrum Spec.PspecFit
  Model.StatsUtils Model.Psds Model.EllipPlaw Model.FitState Model.ScfSpectrum Model.PspecFit
  Proofs.Fl_Proofs Proofs.Psds_Proofs Proofs.Psds2_Proofs Proofs.ScfSpectrum2_Proofs Proofs.PspecFit_Proofs.
Import ListNotations.
Local Open Scope R_scope.

(** ** Least squares *)
Lemma wsse_mid rows a b a' b' :
  wsse rows ((a + a') / 2) ((b + b') / 2) = (wsse rows a b + wsse rows a' b') / 2 - wsum (fun x _ => ((a - a') + (b - b') * x) ^ 2) rows / 4.
Proof.
  unfold wsse. induction rows as [|[[x y] w] rows IH]; [cbn; field|]. rewrite wsum_cons. cbn [map fold_right]. rewrite IH. field.
Qed.
Lemma best_line_unique rows a b a' b' : (forall x y w, In (x, y, w) rows -> 0 < w) ->
  (exists x1 y1 w1 x2 y2 w2, In (x1, y1, w1) rows /\ In (x2, y2, w2) rows /\ x1 <> x2) ->
  best_line rows a b -> best_line rows a' b' -> a = a' /\ b = b'.
Proof.
  intros Hw [x1 [y1 [w1 [x2 [y2 [w2 [I1 [I2 N]]]]]]]] B B'.
  assert (Z : wsum (fun x _ => ((a - a') + (b - b') * x) ^ 2) rows <= 0).
  { pose proof (wsse_mid rows a b a' b') as M. pose proof (B ((a + a') / 2) ((b + b') / 2)). pose proof (B' ((a + a') / 2) ((b + b') / 2)). lra. }
  pose proof (wsum_null (fun x _ => ((a - a') + (b - b') * x) ^ 2) rows Hw (fun x _ => pow2_ge_0 _) Z) as Nu.
  pose proof (Nu _ _ _ I1) as E1. pose proof (Nu _ _ _ I2) as E2. cbv beta in E1, E2.
  assert (F1 : (a - a') + (b - b') * x1 = 0) by nra. assert (F2 : (a - a') + (b - b') * x2 = 0) by nra.
  assert (Hb : (b - b') * (x1 - x2) = 0) by lra. apply Rmult_integral in Hb. destruct Hb as [Hb|Hb]; [|lra]. rewrite Hb in F1. split; lra.
Qed.
Definition shift_y (d : R) (r : R * R * R) : R * R * R := let '(x, y, w) := r in (x, y + d, w).
Lemma wsse_shift d rows a b : wsse (map (shift_y d) rows) (a + d) b = wsse rows a b.
Proof. unfold wsse. induction rows as [|[[x y] w] rows IH]; [reflexivity|]. cbn [map fold_right shift_y]. rewrite IH. f_equal. ring. Qed.
Lemma best_line_shift d rows a b : best_line rows a b -> best_line (map (shift_y d) rows) (a + d) b.
Proof. intros B a' b'. rewrite wsse_shift. replace a' with (a' - d + d) by ring. rewrite wsse_shift. apply B. Qed.

(** ** The straight line *)
Lemma row_ok_as_row r : row_ok (as_row r) = true.
Proof. now destruct r as [[x y] w]. Qed.
Definition two_x (rr : list (R * R * R)) : Prop := exists x1 y1 w1 x2 y2 w2, In (x1, y1, w1) rr /\ In (x2, y2, w2) rr /\ x1 <> x2.
Lemma same_x_false rows r1 r2 x1 x2 : In r1 rows -> In r2 rows -> fst (fst r1) = Fin x1 -> fst (fst r2) = Fin x2 -> x1 <> x2 -> same_x rows = false.
Proof.
  intros I1 I2 E1 E2 N. unfold same_x. destruct rows as [|r rows]; [reflexivity|]. cbv zeta. set (l := r :: rows) in *. destruct (forallb _ l) eqn:F; [|apply andb_false_r].
  rewrite forallb_forall in F. pose proof (F _ I1) as A. pose proof (F _ I2) as B. rewrite E1 in A. rewrite E2 in B.
  destruct (fst (fst r)); cbn in A, B; try discriminate. destruct (Reqb_spec x1 r0), (Reqb_spec x2 r0); try discriminate. congruence.
Qed.
Lemma straight_rows line rows rr : least_squares line -> answers line -> filter row_ok rows = map as_row rr ->
  (forall x y w, In (x, y, w) rr -> 0 < w) -> two_x rr ->
  exists a b, straight_line line rows = Ok (Fin a, Fin b) /\ best_line rr a b.
Proof.
  intros LS AN E Hw T. destruct (AN rr) as [a [b Eab]]. exists a, b. split; [|now apply (LS rr)].
  destruct T as [x1 [y1 [w1 [x2 [y2 [w2 [I1 [I2 N]]]]]]]]. unfold straight_line. cbv zeta. rewrite E.
  assert (J : forall r, In r rr -> In (as_row r) rows).
  { intros r Hr. apply (in_map as_row) in Hr. rewrite <- E in Hr. now apply filter_In in Hr. }
  assert (L : Nat.eqb (length (map as_row rr)) 0 = false) by (destruct rr; [destruct I1|reflexivity]). rewrite L.
  assert (F : forallb (fun r => is_fin (fst (fst r))) (map as_row rr) = true).
  { apply forallb_forall. intros r Hr. apply in_map_iff in Hr. destruct Hr as [[[x y] w] [<- _]]. reflexivity. }
  rewrite F. cbn [negb]. rewrite (same_x_false rows (as_row (x1, y1, w1)) (as_row (x2, y2, w2)) x1 x2); auto. now rewrite Eab.
Qed.

(** do_fit without a break *)
Lemma do_fit_line line err seg o a low high rows ab : f_brk a = None -> fit_rows o a = Ok (low, high, rows) -> straight_line line rows = Ok ab ->
  exists o', do_fit line err seg o a = Ok o' /\ o_state o' = mk_state (Some None) (Some None) (Some [snd ab]) (Some [err (f_bootstrap a) rows]) /\
    o_amp o' = Some (fst ab) /\ o_low o' = Some low /\ o_high o' = Some high.
Proof. intros HB E L. unfold do_fit. rewrite E. cbn [bind]. rewrite HB, L. cbn [bind]. eexists. repeat split. Qed.

(** ** Unbinned *)
Definition low_of (ny nx : nat) (a : fit_args) (low : R) : Prop := f_low a = Some low \/ (f_low a = None /\ low = 2 / INR (Nat.max ny nx)).
Definition high_of (ny nx : nat) (a : fit_args) (high : R) : Prop := f_high a = Some high \/ (f_high a = None /\ is_max high (map (mode_freq ny nx) (modes ny nx))).

Lemma unbinned_rows o ny nx image a low high : (1 <= ny)%nat -> (1 <= nx)%nat -> holds_spectrum o ny nx image ->
  f_unbinned a = true -> f_weighted a = false -> low_of ny nx a low -> high_of ny nx a high -> 0 <= low ->
  fit_rows o a = Ok (low, high, map (mode_row ny nx image) (filter (fun k => within low high (mode_freq ny nx k)) (map (mode_at ny nx) (pixels ny nx)))).
Proof.
  intros Hy Hx HS HU HW HL HH L0. unfold fit_rows. rewrite HS, HU, HW. destruct (power_shape ny nx image Hy Hx) as [E1 E2]. rewrite E1, E2.
  assert (EL : match f_low a with Some r => r | None => default_low (map (map Fin) (power_ps2D ny nx image)) end = low).
  { destruct HL as [->|[-> ->]]; [reflexivity|]. now apply default_low_val. }
  assert (EH : match f_high a with Some r => r | None => rmax_list (map (fun p => freqs_raw ny nx (fst p) (snd p)) (pixels ny nx)) end = high).
  { destruct HH as [->|[-> M]]; [reflexivity|]. eapply is_max_unique; [now apply max_freq_spec|exact M]. }
  rewrite EL, EH. now rewrite pixel_rows.
Qed.
Lemma in_modes_at ny nx k : In k (map (mode_at ny nx) (pixels ny nx)) <-> In k (modes ny nx).
Proof. split; apply Permutation_in; [apply modes_perm|apply Permutation_sym, modes_perm]. Qed.

Lemma filter_all {A} (f : A -> bool) l : (forall x, In x l -> f x = true) -> filter f l = l.
Proof. induction l as [|x l IH]; intros H; [reflexivity|]. cbn [filter]. rewrite (H x) by now left. f_equal. apply IH. intros; apply H; now right. Qed.
Definition real_row (ny nx : nat) (image : nat -> nat -> R) (k : nat * nat) : R * R * R := (log10 (mode_freq ny nx k), log10 (mode_power ny nx image k), 1).
Lemma unbinned_line line ny nx image low high : least_squares line -> answers line -> 0 <= low ->
  (forall k, In k (modes ny nx) -> low < mode_freq ny nx k <= high -> 0 < mode_power ny nx image k) ->
  (exists k1 k2, In k1 (modes ny nx) /\ In k2 (modes ny nx) /\ low < mode_freq ny nx k1 <= high /\ low < mode_freq ny nx k2 <= high /\ mode_freq ny nx k1 <> mode_freq ny nx k2) ->
  let ks := filter (fun k => within low high (mode_freq ny nx k)) (map (mode_at ny nx) (pixels ny nx)) in
  let rr := map (real_row ny nx image) ks in
  two_x rr /\ (forall x y w, In (x, y, w) rr -> 0 < w) /\ filter row_ok (map (mode_row ny nx image) ks) = map as_row rr /\
  exists a b, straight_line line (map (mode_row ny nx image) ks) = Ok (Fin a, Fin b) /\ best_line rr a b.
Proof.
  intros LS AN L0 HP [k1 [k2 [I1 [I2 [W1 [W2 N]]]]]] ks rr.
  assert (IN : forall k, In k ks <-> In k (modes ny nx) /\ low < mode_freq ny nx k <= high).
  { intros k. unfold ks. rewrite filter_In, in_modes_at, within_iff. tauto. }
  assert (E : filter row_ok (map (mode_row ny nx image) ks) = map as_row rr).
  { unfold rr. rewrite map_map. rewrite <- (map_ext_in (mode_row ny nx image) (fun k => as_row (real_row ny nx image k))).
    2:{ intros k Hk. apply IN in Hk. unfold mode_row, real_row. cbn [as_row]. rewrite flog10_pos by now apply HP. reflexivity. }
    apply filter_all. intros r Hr. apply in_map_iff in Hr. destruct Hr as [k [<- Hk]]. apply IN in Hk. unfold mode_row. rewrite flog10_pos by now apply HP. reflexivity. }
  assert (T : two_x rr).
  { exists (log10 (mode_freq ny nx k1)), (log10 (mode_power ny nx image k1)), 1, (log10 (mode_freq ny nx k2)), (log10 (mode_power ny nx image k2)), 1.
    split; [apply in_map_iff; exists k1; split; [reflexivity|now apply IN]|]. split; [apply in_map_iff; exists k2; split; [reflexivity|now apply IN]|].
    intros C. apply N. apply log10_inj; [lra|lra|exact C]. }
  assert (Hw : forall x y w, In (x, y, w) rr -> 0 < w).
  { intros x y w H. apply in_map_iff in H. destruct H as [k [Ek _]]. apply (f_equal snd) in Ek. cbn in Ek. lra. }
  split; [exact T|]. split; [exact Hw|]. split; [exact E|]. now apply straight_rows.
Qed.

Theorem unbinned_recovers : forall line err seg o ny nx image a low high A s, (1 <= ny)%nat -> (1 <= nx)%nat -> holds_spectrum o ny nx image ->
  f_unbinned a = true -> f_weighted a = false -> f_brk a = None ->
  (f_low a = Some low \/ (f_low a = None /\ low = 2 / INR (Nat.max ny nx))) ->
  (f_high a = Some high \/ (f_high a = None /\ is_max high (map (mode_freq ny nx) (modes ny nx)))) -> 0 <= low ->
  least_squares line -> answers line -> 0 < A ->
  (forall k, In k (modes ny nx) -> low < mode_freq ny nx k <= high -> mode_power ny nx image k = A * Rpower (mode_freq ny nx k) s) ->
  (exists k1 k2, In k1 (modes ny nx) /\ In k2 (modes ny nx) /\ low < mode_freq ny nx k1 <= high /\ low < mode_freq ny nx k2 <= high /\ mode_freq ny nx k1 <> mode_freq ny nx k2) ->
  exists o', do_fit line err seg o a = Ok o' /\ t_brk (o_state o') = Some None /\ t_slope (o_state o') = Some [Fin s] /\ o_amp o' = Some (Fin (log10 A)).
Proof.
  intros line err seg o ny nx image a low high A s Hy Hx HS HU HW HB HL HH L0 LS AN HA HP HT.
  pose proof (unbinned_rows o ny nx image a low high Hy Hx HS HU HW HL HH L0) as ER.
  assert (HPos : forall k, In k (modes ny nx) -> low < mode_freq ny nx k <= high -> 0 < mode_power ny nx image k).
  { intros k Hk Wk. rewrite (HP k Hk Wk). apply Rmult_lt_0_compat; [exact HA|apply exp_pos]. }
  destruct (unbinned_line line ny nx image low high LS AN L0 HPos HT) as [T [Hw [_ [p [q [EL B]]]]]].
  destruct (do_fit_line line err seg o a _ _ _ _ HB ER EL) as [o' [E [ST [AM _]]]]. exists o'. split; [exact E|]. rewrite ST, AM. cbn [t_brk t_slope fst snd].
  assert (p = log10 A /\ q = s) as [-> ->]; [|auto].
  apply (best_line_exact _ p q (log10 A) s Hw); [|exact T|exact B]. intros x y w H. apply in_map_iff in H. destruct H as [k [Ek Hk]].
  apply filter_In in Hk. destruct Hk as [Hk Wk]. apply in_modes_at in Hk. apply within_iff in Wk. unfold real_row in Ek.
  pose proof (f_equal (fun t => fst (fst t)) Ek) as Ex. pose proof (f_equal (fun t => snd (fst t)) Ek) as Ey. cbn [fst snd] in Ex, Ey. rewrite <- Ex, <- Ey.
  rewrite (HP k Hk Wk). now apply log10_plaw.
Qed.

(** Scaling *)
Lemma mode_power_scaled ny nx c image k : mode_power ny nx (scaled c image) k = c ^ 2 * mode_power ny nx image k.
Proof.
  unfold mode_power, scaled. replace (dft2 ny nx (fun y x => RtoC (c * image y x)) (fst k) (snd k)) with (Cmult (RtoC c) (dft2 ny nx (fun y x => RtoC (image y x)) (fst k) (snd k))).
  - rewrite Cnorm2_mult, Cnorm2_RtoC. unfold Rsqr. ring.
  - unfold dft2. rewrite <- csum_scal. apply csum_ext. intros y _. rewrite <- csum_scal. apply csum_ext. intros x _. rewrite RtoC_mult. ring.
Qed.
Lemma log10_mult a b : 0 < a -> 0 < b -> log10 (a * b) = log10 a + log10 b.
Proof. intros Ha Hb. unfold log10. rewrite ln_mult by assumption. field. assert (0 < ln 10) by (rewrite <- ln_1; apply ln_increasing; lra). lra. Qed.

Theorem unbinned_scale : forall line err seg o1 o2 ny nx image c a low high, (1 <= ny)%nat -> (1 <= nx)%nat -> c <> 0 ->
  holds_spectrum o1 ny nx image -> holds_spectrum o2 ny nx (scaled c image) ->
  f_unbinned a = true -> f_weighted a = false -> f_brk a = None ->
  (f_low a = Some low \/ (f_low a = None /\ low = 2 / INR (Nat.max ny nx))) ->
  (f_high a = Some high \/ (f_high a = None /\ is_max high (map (mode_freq ny nx) (modes ny nx)))) -> 0 <= low ->
  least_squares line -> answers line ->
  (forall k, In k (modes ny nx) -> low < mode_freq ny nx k <= high -> 0 < mode_power ny nx image k) ->
  (exists k1 k2, In k1 (modes ny nx) /\ In k2 (modes ny nx) /\ low < mode_freq ny nx k1 <= high /\ low < mode_freq ny nx k2 <= high /\ mode_freq ny nx k1 <> mode_freq ny nx k2) ->
  exists o1' o2' s amp, do_fit line err seg o1 a = Ok o1' /\ do_fit line err seg o2 a = Ok o2' /\
    t_slope (o_state o1') = Some [Fin s] /\ t_slope (o_state o2') = Some [Fin s] /\
    o_amp o1' = Some (Fin amp) /\ o_amp o2' = Some (Fin (amp + log10 (c ^ 2))).
Proof.
  intros line err seg o1 o2 ny nx image c a low high Hy Hx Hc H1 H2 HU HW HB HL HH L0 LS AN HP HT.
  assert (C2 : 0 < c ^ 2) by (replace (c ^ 2) with (Rsqr c) by (unfold Rsqr; ring); now apply Rsqr_pos_lt).
  pose proof (unbinned_rows o1 ny nx image a low high Hy Hx H1 HU HW HL HH L0) as ER1.
  pose proof (unbinned_rows o2 ny nx (scaled c image) a low high Hy Hx H2 HU HW HL HH L0) as ER2.
  assert (HP2 : forall k, In k (modes ny nx) -> low < mode_freq ny nx k <= high -> 0 < mode_power ny nx (scaled c image) k).
  { intros k Hk Wk. rewrite mode_power_scaled. apply Rmult_lt_0_compat; [exact C2|now apply HP]. }
  destruct (unbinned_line line ny nx image low high LS AN L0 HP HT) as [T1 [Hw1 [_ [p [q [EL1 B1]]]]]].
  destruct (unbinned_line line ny nx (scaled c image) low high LS AN L0 HP2 HT) as [T2 [Hw2 [_ [p2 [q2 [EL2 B2]]]]]].
  destruct (do_fit_line line err seg o1 a _ _ _ _ HB ER1 EL1) as [o1' [E1 [ST1 [AM1 _]]]].
  destruct (do_fit_line line err seg o2 a _ _ _ _ HB ER2 EL2) as [o2' [E2 [ST2 [AM2 _]]]].
  exists o1', o2', q, p. split; [exact E1|]. split; [exact E2|]. rewrite ST1, ST2, AM1, AM2. cbn [t_slope fst snd].
  assert (p2 = p + log10 (c ^ 2) /\ q2 = q) as [-> ->]; [|auto].
  set (ks := filter (fun k => within low high (mode_freq ny nx k)) (map (mode_at ny nx) (pixels ny nx))) in *.
  assert (ES : map (real_row ny nx (scaled c image)) ks = map (shift_y (log10 (c ^ 2))) (map (real_row ny nx image) ks)).
  { rewrite map_map. apply map_ext_in. intros k Hk. unfold ks in Hk. apply filter_In in Hk. destruct Hk as [Hk Wk]. apply in_modes_at in Hk. apply within_iff in Wk.
    unfold real_row, shift_y. rewrite mode_power_scaled, log10_mult by auto. f_equal. f_equal. ring. }
  rewrite ES in *. apply (best_line_unique _ p2 q2 (p + log10 (c ^ 2)) q Hw2 T2 B2). now apply best_line_shift.
Qed.
