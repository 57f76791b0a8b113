(** Proofs about Model/CramerDistance.v. *)
From Coq Require Import Reals List Arith Bool ZArith Lia Lra Permutation.
From Verif Require Import Lib.PyBase Lib.Fl Lib.RSum Spec.Blank Spec.Covariance Spec.Energy Spec.CramerCubes Model.Psds Model.Formats Model.Cramer Model.CramerDistance
  Proofs.Fl_Proofs Proofs.Cov_Proofs Proofs.Cramer_Proofs.
Import ListNotations.
Local Open Scope R_scope.

(** ** Brightness scale *)
Section Scale.
Variable a : R.
Hypothesis Pos : 0 < a.
Let sc := fmul (Fin a).
Lemma sc_fltb x y : fltb (sc x) (sc y) = fltb x y.
Proof.
  unfold sc. assert (S1 : sinf a = PInf) by (unfold sinf; destruct (Rltb_spec 0 a); [reflexivity|lra]).
  destruct x, y; cbn [fmul]; rewrite ?S1; cbn [fneg fltb]; try reflexivity.
  destruct (Rltb_spec (a * r) (a * r0)) as [H|H], (Rltb_spec r r0) as [G|G]; try reflexivity; exfalso.
  - apply G. now apply Rmult_lt_reg_l with a.
  - apply H. now apply Rmult_lt_compat_l.
Qed.
Lemma sc_max x y : fmax2 (sc x) (sc y) = sc (fmax2 x y).
Proof. unfold fmax2. rewrite sc_fltb. now destruct (fltb x y). Qed.
Lemma sc_nan x : is_nan (sc x) = is_nan x.
Proof. unfold sc, fmul, sinf. destruct x; try reflexivity; destruct (Rltb_spec 0 a); try reflexivity; lra. Qed.
Lemma sc_nonnan l : nonnan (map sc l) = map sc (nonnan l).
Proof. unfold nonnan. induction l as [|x l IH]; [reflexivity|]. cbn [map filter]. rewrite sc_nan. destruct (is_nan x); cbn [negb map]; now rewrite IH. Qed.
Lemma sc_nanmax l : nanmax (map sc l) = sc (nanmax l).
Proof.
  unfold nanmax. rewrite sc_nonnan. destruct (nonnan l) as [|x r]; [reflexivity|]. cbn [map]. revert x.
  induction r as [|y r IH]; intros x; [reflexivity|]. cbn [map fold_left]. now rewrite sc_max, IH.
Qed.
Lemma sc_fins l : fins (map sc l) = map (Rmult a) (fins l).
Proof.
  unfold fins. induction l as [|x l IH]; [reflexivity|]. cbn. rewrite IH. unfold sc, sinf. destruct x; cbn; try reflexivity; destruct (Rltb_spec 0 a); try reflexivity; lra.
Qed.
Lemma sc_above lim l : above (option_map (Rmult a) lim) (map (Rmult a) l) = map (Rmult a) (above lim l).
Proof.
  destruct lim as [t|]; [|reflexivity]. cbn. induction l as [|x l IH]; [reflexivity|]. cbn.
  destruct (Rltb_spec (a * t) (a * x)) as [H|H], (Rltb_spec t x) as [G|G]; cbn; rewrite IH; try reflexivity; exfalso.
  - apply G. now apply Rmult_lt_reg_l with a.
  - apply H. now apply Rmult_lt_compat_l.
Qed.
Lemma sc_insert x l : insert_desc (a * x) (map (Rmult a) l) = map (Rmult a) (insert_desc x l).
Proof.
  induction l as [|y l IH]; [reflexivity|]. cbn. destruct (Rleb_spec (a * y) (a * x)) as [H|H], (Rleb_spec y x) as [G|G]; cbn; rewrite ?IH; try reflexivity; exfalso.
  - apply G. now apply Rmult_le_reg_l with a.
  - apply H. apply Rmult_le_compat_l; lra.
Qed.
Lemma sc_sort l : sort_desc (map (Rmult a) l) = map (Rmult a) (sort_desc l).
Proof. unfold sort_desc. induction l as [|x l IH]; [reflexivity|]. cbn. now rewrite IH, sc_insert. Qed.
Lemma sc_div v m : fdiv (Fin (a * v)) (sc m) = fdiv (Fin v) m.
Proof.
  unfold sc. assert (S1 : sinf a = PInf) by (unfold sinf; destruct (Rltb_spec 0 a); [reflexivity|lra]).
  destruct m as [b| | |]; cbn [fmul]; rewrite ?S1; cbn [fneg fdiv]; try reflexivity.
  destruct (Reqb_spec (a * b) 0) as [H|H], (Reqb_spec b 0) as [G|G].
  - unfold sinf. destruct (Rltb_spec 0 (a * v)), (Rltb_spec 0 v), (Rltb_spec (a * v) 0), (Rltb_spec v 0); try reflexivity; exfalso; nra.
  - exfalso. apply Rmult_integral in H. lra.
  - exfalso. apply H. rewrite G. ring.
  - f_equal. field. split; [exact G|lra].
Qed.
Lemma sc_row L lim m chan : intensity_row L (option_map (Rmult a) lim) (sc m) (map sc chan) = intensity_row L lim m chan.
Proof.
  unfold intensity_row. cbv zeta. rewrite sc_fins. fold (above (option_map (Rmult a) lim) (map (Rmult a) (fins chan))).
  fold (above lim (fins chan)). rewrite sc_above, sc_sort, map_length. set (s := sort_desc _).
  destruct (Nat.ltb (length s) L).
  - rewrite !map_app, map_map. f_equal; [apply map_ext; intros; apply sc_div|].
    induction (L - length s)%nat as [|n IH]; [reflexivity|]. cbn [repeat map]. rewrite IH. f_equal.
    replace (Fin 0) with (Fin (a * 0)) at 1 by (f_equal; ring). apply sc_div.
  - rewrite firstn_map, map_map. apply map_ext. intros. apply sc_div.
Qed.
Lemma sc_data cube L lim : intensity_data (map (map sc) cube) L (option_map (Rmult a) lim) true = intensity_data cube L lim true.
Proof.
  unfold intensity_data. cbv zeta. rewrite <- concat_map, sc_nanmax. set (m := nanmax (concat cube)).
  assert (E : feqb (sc m) (Fin 0) = feqb m (Fin 0)).
  { unfold sc. assert (S1 : sinf a = PInf) by (unfold sinf; destruct (Rltb_spec 0 a); [reflexivity|lra]).
    destruct m as [r| | |]; cbn [fmul]; rewrite ?S1; cbn [fneg feqb]; try reflexivity.
    destruct (Reqb_spec (a * r) 0) as [H|H], (Reqb_spec r 0) as [G|G]; try reflexivity; exfalso.
    - apply Rmult_integral in H. lra.
    - apply H. rewrite G. ring. }
  rewrite E. destruct (feqb m (Fin 0)); [reflexivity|]. rewrite map_map. apply map_ext. intros c. apply sc_row.
Qed.
End Scale.

Section Distance.
Variable norm2 : list (list fl) -> result fl.
Variable random : Type.
Variable seeded : Z -> random.
Variable choice : random -> list fl -> nat -> list fl * random.
Let fmt := format_one norm2.
Let dist := distance_metric norm2 random seeded choice.
Let sample := sample_rows random choice.

Lemma fmt_scale a c p nm : 0 < a -> fmt (ci_npix (brighter a c)) (ci_chans (brighter a c)) (ci_noise (brighter a c)) p nm = fmt (ci_npix c) (ci_chans c) (ci_noise c) p nm.
Proof. intros H. unfold fmt, format_one, brighter. cbn [ci_npix ci_chans ci_noise]. now rewrite sc_data. Qed.
Lemma dist_scale c1 c2 a1 a2 nm st : 0 < a1 -> 0 < a2 -> dist (brighter a1 c1) (brighter a2 c2) nm st = dist c1 c2 nm st.
Proof.
  intros H1 H2. unfold dist, distance_metric, format_data. fold fmt. now rewrite !fmt_scale.
Qed.

(** ** Order of the pixels *)
Lemma nanmax_perm l l' : Forall blankable l -> Permutation l l' -> nanmax l = nanmax l'.
Proof.
  intros B P. assert (B' : Forall blankable l').
  { apply Forall_forall. intros x Hx. rewrite Forall_forall in B. apply B. now apply (Permutation_in x (Permutation_sym P)). }
  assert (PF := fins_perm _ _ P). destruct (fins l) as [|u r] eqn:E.
  - apply Permutation_nil in PF. unfold nanmax. rewrite !nonnan_fins by assumption. now rewrite E, PF.
  - assert (N : fins l <> []) by (rewrite E; discriminate).
    assert (N' : fins l' <> []) by (intros E'; rewrite E' in PF; symmetry in PF; now apply Permutation_nil_cons in PF).
    destruct (nanmax_spec l B N) as [m [-> [I1 M1]]]. destruct (nanmax_spec l' B' N') as [m' [-> [I2 M2]]]. f_equal. rewrite E in I1, M1.
    apply Rle_antisym.
    + apply M2. now apply (Permutation_in m PF).
    + apply M1. now apply (Permutation_in m' (Permutation_sym PF)).
Qed.
Lemma concat_perm : forall (l l' : list (list fl)), Forall2 (@Permutation fl) l l' -> Permutation (concat l) (concat l').
Proof. intros l l' H. induction H as [|x y l l' P H IH]; [constructor|]. cbn. now apply Permutation_app. Qed.
Lemma proper_concat cube : Forall (Forall blankable) cube -> Forall blankable (concat cube).
Proof.
  intros Hb. apply Forall_forall. intros v Hv. apply in_concat in Hv. destruct Hv as [c [Hc Hv]].
  rewrite Forall_forall in Hb. specialize (Hb c Hc). rewrite Forall_forall in Hb. auto.
Qed.
Lemma data_rearranged cube cube' L lim nm : Forall (Forall blankable) cube -> Forall2 (@Permutation fl) cube cube' ->
  intensity_data cube L lim nm = intensity_data cube' L lim nm.
Proof.
  intros B P. unfold intensity_data. cbv zeta.
  assert (E : nanmax (concat cube) = nanmax (concat cube')) by (apply nanmax_perm; [now apply proper_concat|now apply concat_perm]).
  rewrite E. destruct (feqb (if nm then nanmax (concat cube') else Fin 1) (Fin 0)); [reflexivity|].
  set (m := if nm then nanmax (concat cube') else Fin 1). clearbody m. clear E B.
  induction P as [|x y l l' Px Pl IH]; [reflexivity|]. cbn. rewrite IH. f_equal. now apply intensity_row_shuffle.
Qed.
Lemma dist_rearranged c1 c1' c2 c2' nm st : proper_cube c1 -> proper_cube c2 -> rearranged c1 c1' -> rearranged c2 c2' ->
  dist c1' c2' nm st = dist c1 c2 nm st.
Proof.
  intros B1 B2 (N1 & P1 & L1) (N2 & P2 & L2). unfold dist, distance_metric, format_data, format_one.
  rewrite N1, L1, N2, L2. rewrite (data_rearranged _ _ _ _ true B1 P1) || rewrite <- (data_rearranged _ _ _ _ true B1 P1).
  rewrite <- ?(data_rearranged _ _ _ _ true B1 P1), <- ?(data_rearranged _ _ _ _ true B2 P2). reflexivity.
Qed.

(** ** Symmetry, zero, positivity *)
Lemma statistic_sym m1 m2 : statistic m1 m2 = statistic m2 m1.
Proof. unfold statistic. rewrite andb_comm. destruct (all_finite m2 && all_finite m1); [apply cramer_sym|reflexivity]. Qed.
Lemma bind_ok' {A B} (r : result A) (k : A -> result B) b : bind r k = Ok b -> exists x, r = Ok x /\ k x = Ok b.
Proof. destruct r; cbn; intros H; [now exists a|discriminate]. Qed.
Lemma dist_sym c1 c2 nm st r : dist c1 c2 nm st = Ok r -> dist c2 c1 nm st = Ok r.
Proof.
  intros H. unfold dist, distance_metric in *. apply bind_ok' in H as [mm [F H]]. unfold format_data in F.
  apply bind_ok' in F as [m1 [E1 F]]. apply bind_ok' in F as [m2 [E2 F]].
  unfold format_data. rewrite E1, E2. cbn [bind]. rewrite (Nat.eqb_sym (dm_cols m2) (dm_cols m1)).
  destruct (Nat.eqb_spec (dm_cols m1) (dm_cols m2)) as [Q|Q].
  - assert (mm = (m1, m2, st)) as -> by congruence. cbn [bind fst snd] in *. now rewrite statistic_sym.
  - destruct (Nat.ltb_spec (dm_cols m1) (dm_cols m2)) as [L|L], (Nat.ltb_spec (dm_cols m2) (dm_cols m1)) as [L'|L']; try lia.
    + destruct (sample_rows random choice (seeded 13024%Z) (dm_rows m2) (dm_cols m1)) as [rows st'].
      assert (mm = (m1, mk_dm rows (dm_cols m1), st')) as -> by congruence. cbn [bind fst snd] in *. now rewrite statistic_sym.
    + destruct (sample_rows random choice (seeded 13024%Z) (dm_rows m1) (dm_cols m2)) as [rows st'].
      assert (mm = (mk_dm rows (dm_cols m2), m2, st')) as -> by congruence. cbn [bind fst snd] in *. now rewrite statistic_sym.
Qed.
Lemma dist_same c nm st r : dist c c nm st = Ok r -> r = (0, st).
Proof.
  intros H. unfold dist, distance_metric in *. apply bind_ok' in H as [mm [F H]]. unfold format_data in F.
  apply bind_ok' in F as [m1 [E1 F]]. apply bind_ok' in F as [m2 [E2 F]]. assert (m2 = m1) as -> by congruence.
  rewrite Nat.eqb_refl in F. assert (mm = (m1, m1, st)) as -> by congruence. cbn [fst snd] in H.
  apply bind_ok' in H as [d [D H]]. unfold statistic in D. destruct (all_finite m1 && all_finite m1); [|discriminate].
  destruct (Nat.eq_dec (length (dm_rows m1)) 0) as [Z|Z].
  - rewrite Z in D. unfold cramer_statistic in D. cbn in D. discriminate.
  - rewrite cramer_self in D by lia. congruence.
Qed.
Lemma dist_nonneg c1 c2 nm st r : dist c1 c2 nm st = Ok r -> 0 <= fst r.
Proof.
  intros H. unfold dist, distance_metric in *. apply bind_ok' in H as [mm [F H]]. apply bind_ok' in H as [d [D H]].
  assert (r = (d, snd mm)) as -> by congruence. cbn. unfold statistic in D.
  destruct (all_finite (fst (fst mm)) && all_finite (snd (fst mm))); [|discriminate]. exact (cramer_nonneg _ _ _ _ _ _ _ D).
Qed.

(** ** Order of the channels *)
Lemma perm_rows {A} (l l' : list A) : Permutation l l' -> length l' = length l /\ exists p, rearranges (length l) p /\ forall d i, (i < length l)%nat -> nth i l' d = nth (p i) l d.
Proof.
  intros P. destruct l as [|x0 l0] eqn:El.
  - apply Permutation_nil in P. subst l'. split; [reflexivity|]. exists (fun i => i). split; [split; cbn; intros; auto; lia|]. intros d i Hi. cbn in Hi. lia.
  - rewrite <- El in *. destruct (proj1 (Permutation_nth l l' x0) P) as [L [p [Bf [Bi E]]]]. split; [exact L|]. exists p. split; [split; [exact Bf|exact Bi]|].
    intros d i Hi. rewrite (nth_indep l' d x0) by lia. rewrite (nth_indep l d x0) by (apply Bf; exact Hi). now apply E.
Qed.
Lemma entries_rows m m' p i k : (i < length (dm_rows m))%nat -> (forall d i, (i < length (dm_rows m))%nat -> nth i (dm_rows m') d = nth (p i) (dm_rows m) d) ->
  entry m' i k = entry m (p i) k.
Proof. intros Hi H. unfold entry. now rewrite H. Qed.
Lemma forallb_perm {A} (f : A -> bool) l l' : Permutation l l' -> forallb f l = forallb f l'.
Proof. intros P. induction P; cbn; try congruence. now rewrite !andb_assoc, (andb_comm (f y)). Qed.
Lemma cramer_ext m1 d1 X X' m2 d2 Y Y' : (forall i k, (i < m1)%nat -> X i k = X' i k) -> (forall i k, (i < m2)%nat -> Y i k = Y' i k) ->
  cramer_statistic m1 d1 X m2 d2 Y = cramer_statistic m1 d1 X' m2 d2 Y'.
Proof.
  intros HX HY. unfold cramer_statistic. destruct ((m1 =? 0)%nat || (m2 =? 0)%nat || negb (d1 =? d2)%nat); [reflexivity|].
  assert (G : forall m n (U U' V V' : matrix), (forall i k, (i < m)%nat -> U i k = U' i k) -> (forall i k, (i < n)%nat -> V i k = V' i k) ->
    (n <= m)%nat -> cramer_loops d1 m n U V = cramer_loops d1 m n U' V').
  { intros m n U U' V V' HU HV L. unfold cramer_loops. cbv zeta.
    assert (RD : forall x x' y y' : nat -> R, (forall k, x k = x' k) -> (forall k, y k = y' k) -> root_dist d1 x y = root_dist d1 x' y').
    { intros x x' y y' E1 E2. unfold root_dist. do 2 f_equal. apply rsum_ext. intros k _. now rewrite E1, E2. }
    rewrite (rsum_ext m (fun i => rsum n (fun j => root_dist d1 (U i) (V j))) (fun i => rsum n (fun j => root_dist d1 (U' i) (V' j))))
      by (intros i Hi; apply rsum_ext; intros j Hj; apply RD; intros; [now apply HU|now apply HV]).
    rewrite (rsum_ext m (fun i => rsum m (fun j => root_dist d1 (U i) (U j))) (fun i => rsum m (fun j => root_dist d1 (U' i) (U' j))))
      by (intros i Hi; apply rsum_ext; intros j Hj; apply RD; intros; now apply HU).
    rewrite (rsum_ext m (fun i => if Nat.ltb i n then rsum n (fun j => root_dist d1 (V i) (V j)) else 0) (fun i => if Nat.ltb i n then rsum n (fun j => root_dist d1 (V' i) (V' j)) else 0)); [reflexivity|].
    intros i Hi. destruct (Nat.ltb_spec i n); [|reflexivity]. apply rsum_ext. intros j Hj. apply RD; intros; now apply HV. }
  destruct (Nat.leb_spec m2 m1); f_equal; apply G; auto; lia.
Qed.
Lemma statistic_rows m1 m1' m2 m2' : Permutation (dm_rows m1) (dm_rows m1') -> Permutation (dm_rows m2) (dm_rows m2') -> dm_cols m1' = dm_cols m1 -> dm_cols m2' = dm_cols m2 ->
  statistic m1' m2' = statistic m1 m2.
Proof.
  intros P1 P2 C1 C2. unfold statistic, all_finite. rewrite (forallb_perm _ _ _ P1), (forallb_perm _ _ _ P2).
  destruct (forallb (forallb is_fin) (dm_rows m1') && forallb (forallb is_fin) (dm_rows m2')); [|reflexivity].
  destruct (perm_rows _ _ P1) as [L1 [p [Rp Ep]]]. destruct (perm_rows _ _ P2) as [L2 [q [Rq Eq]]]. rewrite L1, L2, C1, C2.
  rewrite <- (cramer_rows _ _ (entry m1) _ _ (entry m2) p q Rp Rq). apply cramer_ext; intros i k Hi; [now apply entries_rows|now apply entries_rows].
Qed.
Lemma data_reordered cube cube' L lim nm : Forall (Forall blankable) cube -> Permutation cube cube' ->
  Permutation (intensity_data cube L lim nm) (intensity_data cube' L lim nm).
Proof.
  intros B P. unfold intensity_data. cbv zeta.
  assert (C : Permutation (concat cube) (concat cube')).
  { clear B. induction P; cbn; auto.
    - now apply Permutation_app_head.
    - rewrite !app_assoc. apply Permutation_app_tail. apply Permutation_app_comm.
    - eapply Permutation_trans; eassumption. }
  rewrite (nanmax_perm _ _ (proper_concat _ B) C). destruct (feqb (if nm then nanmax (concat cube') else Fin 1) (Fin 0)); [constructor|]. now apply Permutation_map.
Qed.
Lemma fmt_cols n ch lim p nm m : fmt n ch lim p nm = Ok m -> dm_cols m = Z.to_nat (np_round (p * INR n)).
Proof. unfold fmt, format_one. intros H. destruct nm; [apply bind_ok' in H as [x [_ H]]|]; assert (E : m = m) by reflexivity; [injection H as <-|injection H as <-]; reflexivity. Qed.
Lemma fmt_reordered c c' p nm m : (forall M M', Permutation M M' -> norm2 M' = norm2 M) -> proper_cube c -> reordered c c' ->
  fmt (ci_npix c) (ci_chans c) (ci_noise c) p nm = Ok m ->
  exists m', fmt (ci_npix c') (ci_chans c') (ci_noise c') p nm = Ok m' /\ Permutation (dm_rows m) (dm_rows m') /\ dm_cols m' = dm_cols m.
Proof.
  intros Inv B (Hn & Hp & Hl) H. unfold fmt, format_one in *. rewrite Hn, Hl. set (L := Z.to_nat _) in *.
  assert (P := data_reordered _ _ L (ci_noise c) true B Hp).
  destruct nm.
  - rewrite (Inv _ _ P). apply bind_ok' in H as [x [-> H]]. cbn [bind]. eexists. split; [reflexivity|]. injection H as <-. cbn [dm_rows dm_cols]. split; [now apply Permutation_map|reflexivity].
  - injection H as <-. eexists. split; [reflexivity|]. split; [exact P|reflexivity].
Qed.
Lemma dist_reordered c1 c1' c2 c2' nm st r : (forall M M', Permutation M M' -> norm2 M' = norm2 M) ->
  proper_cube c1 -> proper_cube c2 -> reordered c1 c1' -> reordered c2 c2' -> ci_npix c1 = ci_npix c2 ->
  dist c1 c2 nm st = Ok r -> dist c1' c2' nm st = Ok r.
Proof.
  intros Inv B1 B2 R1 R2 N H. unfold dist, distance_metric in *. apply bind_ok' in H as [mm [F H]]. unfold format_data in *.
  apply bind_ok' in F as [m1 [E1 F]]. apply bind_ok' in F as [m2 [E2 F]].
  destruct (fmt_reordered _ _ _ _ _ Inv B1 R1 E1) as [m1' [E1' [P1 Q1]]]. destruct (fmt_reordered _ _ _ _ _ Inv B2 R2 E2) as [m2' [E2' [P2 Q2]]].
  unfold fmt in E1', E2'. rewrite E1', E2'. cbn [bind]. rewrite Q1, Q2.
  assert (C : dm_cols m1 = dm_cols m2) by (rewrite (fmt_cols _ _ _ _ _ _ E1), (fmt_cols _ _ _ _ _ _ E2), N; reflexivity).
  rewrite C, Nat.eqb_refl in F. rewrite C, Nat.eqb_refl. assert (mm = (m1, m2, st)) as -> by congruence. cbn [bind fst snd] in *. rewrite (statistic_rows _ _ _ _ P1 P2 Q1 Q2). exact H.
Qed.

(** ** Sampling *)
Lemma sample_drawn : (forall s row n, (n <= length row)%nat -> drawn row n (fst (choice s row n))) ->
  forall rows st n, (forall row, In row rows -> (n <= length row)%nat) ->
  Forall2 (fun row new => drawn row n new) rows (fst (sample st rows n)).
Proof.
  intros Hc. unfold sample. induction rows as [|r rows IH]; intros st n Hn; [constructor|]. cbn.
  destruct (choice st r n) as [new st1] eqn:E1. destruct (sample_rows random choice st1 rows n) as [others st2] eqn:E2. cbn. constructor.
  - assert (D := Hc st r n (Hn r (or_introl eq_refl))). now rewrite E1 in D.
  - assert (D := IH st1 n (fun row H => Hn row (or_intror H))). now rewrite E2 in D.
Qed.
Lemma row_length L lim m chan : length (intensity_row L lim m chan) = L.
Proof.
  unfold intensity_row. cbv zeta. rewrite map_length. set (s := sort_desc _). destruct (Nat.ltb_spec (length s) L) as [H|H].
  - rewrite app_length, repeat_length. lia.
  - rewrite firstn_length. lia.
Qed.
Lemma fmt_rows n ch lim p nm m row : fmt n ch lim p nm = Ok m -> In row (dm_rows m) -> length row = dm_cols m.
Proof.
  unfold fmt, format_one. intros H Hr. set (L := Z.to_nat _) in *.
  assert (G : forall r0, In r0 (intensity_data ch L lim true) -> length r0 = L).
  { intros r0 H0. unfold intensity_data in H0. cbv zeta in H0. destruct (feqb (nanmax (concat ch)) (Fin 0)); [destruct H0|]. apply in_map_iff in H0 as [c [<- _]]. apply row_length. }
  destruct nm.
  - apply bind_ok' in H as [x [_ H]]. injection H as <-. cbn [dm_rows dm_cols] in *. apply in_map_iff in Hr as [r0 [<- H0]]. rewrite map_length. now apply G.
  - injection H as <-. cbn [dm_rows dm_cols] in *. now apply G.
Qed.
Lemma sampling c1 c2 p seed nm st m1 m2 m1' m2' st' : (forall s row n, (n <= length row)%nat -> drawn row n (fst (choice s row n))) ->
  fmt (ci_npix c1) (ci_chans c1) (ci_noise c1) p nm = Ok m1 -> fmt (ci_npix c2) (ci_chans c2) (ci_noise c2) p nm = Ok m2 ->
  format_data norm2 random seeded choice c1 c2 p seed nm st = Ok (m1', m2', st') ->
  dm_cols m1' = Nat.min (dm_cols m1) (dm_cols m2) /\ dm_cols m2' = Nat.min (dm_cols m1) (dm_cols m2) /\
  Forall2 (fun row new => drawn row (dm_cols m1') new) (dm_rows m1) (dm_rows m1') /\ Forall2 (fun row new => drawn row (dm_cols m2') new) (dm_rows m2) (dm_rows m2') /\
  ((dm_cols m1 <= dm_cols m2)%nat -> m1' = m1) /\ ((dm_cols m2 <= dm_cols m1)%nat -> m2' = m2) /\
  (dm_cols m1 = dm_cols m2 -> st' = st).
Proof.
  intros Hc E1 E2 F. unfold format_data in F. fold fmt in F. rewrite E1, E2 in F. cbn [bind] in F.
  assert (Self : forall m, (forall row, In row (dm_rows m) -> length row = dm_cols m) -> Forall2 (fun row new => drawn row (dm_cols m) new) (dm_rows m) (dm_rows m)).
  { intros m H. induction (dm_rows m) as [|r rows IH]; [constructor|]. constructor; [|apply IH; intros; apply H; now right].
    split; [apply H; now left|]. exists []. now rewrite app_nil_r. }
  assert (S1 := Self m1 (fun row => fmt_rows _ _ _ _ _ _ row E1)). assert (S2 := Self m2 (fun row => fmt_rows _ _ _ _ _ _ row E2)).
  destruct (Nat.eqb_spec (dm_cols m1) (dm_cols m2)) as [Q|Q].
  - assert (m1' = m1) as -> by congruence. assert (m2' = m2) as -> by congruence. assert (st' = st) as -> by congruence.
    split; [lia|]. split; [lia|]. split; [exact S1|]. split; [exact S2|]. now repeat split.
  - destruct (Nat.ltb_spec (dm_cols m1) (dm_cols m2)) as [L|L].
    + assert (D := sample_drawn Hc (dm_rows m2) (seeded seed) (dm_cols m1)). unfold sample in D.
      destruct (sample_rows random choice (seeded seed) (dm_rows m2) (dm_cols m1)) as [rows s'].
      assert (m1' = m1) as -> by congruence. assert (m2' = mk_dm rows (dm_cols m1)) as -> by congruence. cbn [dm_cols dm_rows fst] in *.
      split; [lia|]. split; [lia|]. split; [exact S1|]. split; [apply D; intros row Hr; rewrite (fmt_rows _ _ _ _ _ _ row E2 Hr); lia|].
      split; [reflexivity|]. split; intros; lia.
    + assert (D := sample_drawn Hc (dm_rows m1) (seeded seed) (dm_cols m2)). unfold sample in D.
      destruct (sample_rows random choice (seeded seed) (dm_rows m1) (dm_cols m2)) as [rows s'].
      assert (m2' = m2) as -> by congruence. assert (m1' = mk_dm rows (dm_cols m2)) as -> by congruence. cbn [dm_cols dm_rows fst] in *.
      split; [lia|]. split; [lia|]. split; [apply D; intros row Hr; rewrite (fmt_rows _ _ _ _ _ _ row E1 Hr); lia|]. split; [exact S2|].
      split; [intros; lia|]. split; [reflexivity|]. intros; lia.
Qed.
(** With different sizes, what was in the random state is lost *)
Lemma reseeded c1 c2 nm st1 st2 r1 : Z.to_nat (np_round (2 / 10 * INR (ci_npix c1))) <> Z.to_nat (np_round (2 / 10 * INR (ci_npix c2))) ->
  dist c1 c2 nm st1 = Ok r1 -> dist c1 c2 nm st2 = Ok r1.
Proof.
  intros N H. unfold dist, distance_metric in *. apply bind_ok' in H as [mm [F H]]. unfold format_data in *.
  apply bind_ok' in F as [m1 [E1 F]]. apply bind_ok' in F as [m2 [E2 F]]. rewrite E1, E2. cbn [bind].
  rewrite <- (fmt_cols _ _ _ _ _ _ E1), <- (fmt_cols _ _ _ _ _ _ E2) in N.
  destruct (Nat.eqb_spec (dm_cols m1) (dm_cols m2)) as [Q|Q]; [contradiction|]. rewrite F. exact H.
Qed.

(** ** Success *)
Lemma fins_app l l' : fins (l ++ l') = fins l ++ fins l'.
Proof. unfold fins. apply flat_map_app. Qed.
Lemma round_up x : 1 / 2 < x -> (1 <= Z.to_nat (np_round x))%nat.
Proof.
  intros H. assert (1 <= np_round x)%Z; [|lia]. unfold np_round. cbv zeta. destruct (base_Int_part x) as [A B].
  assert (-1 < Int_part x)%Z by (apply lt_IZR; lra).
  destruct (Rltb_spec (x - IZR (Int_part x)) (1 / 2)) as [F|F].
  - destruct (Z.eq_dec (Int_part x) 0) as [Z|Z]; [rewrite Z in *; cbn in *; lra|lia].
  - destruct (Rltb_spec (1 / 2) (x - IZR (Int_part x))) as [G|G]; [lia|]. destruct (Z.even (Int_part x)) eqn:E; [|lia].
    destruct (Z.eq_dec (Int_part x) 0) as [Z|Z]; [rewrite Z in *; cbn in *; lra|lia].
Qed.
Definition finite (M : list (list fl)) : Prop := Forall (Forall (fun x => is_fin x = true)) M.
Lemma finite_all M n : finite M -> all_finite (mk_dm M n) = true.
Proof.
  intros F. unfold all_finite. cbn [dm_rows]. apply forallb_forall. intros r Hr. apply forallb_forall. intros x Hx.
  unfold finite in F. rewrite Forall_forall in F. specialize (F r Hr). rewrite Forall_forall in F. auto.
Qed.
Lemma data_finite cube L lim m : nanmax (concat cube) = Fin m -> m <> 0 -> finite (intensity_data cube L lim true) /\ length (intensity_data cube L lim true) = length cube.
Proof.
  intros E Hm. unfold intensity_data. cbv zeta. rewrite E. cbn [feqb]. destruct (Reqb_spec m 0) as [Z|_]; [contradiction|].
  split; [|now rewrite map_length]. apply Forall_forall. intros r Hr. apply in_map_iff in Hr as [c [<- _]].
  destruct (intensity_row_spec L lim m c Hm) as [s [_ [_ ->]]]. apply Forall_forall. intros x Hx. apply in_map_iff in Hx as [v [<- _]]. reflexivity.
Qed.
Lemma data_brightest cube L lim m : (1 <= L)%nat -> nanmax (concat cube) = Fin m -> is_max m (fins (concat cube)) -> 0 < m ->
  match lim with Some t => t < m | None => True end ->
  exists row, In row (intensity_data cube L lim true) /\ In (Fin 1) row.
Proof.
  intros HL E [Hin Hmax] Hm Hlim. unfold intensity_data. cbv zeta. rewrite E. cbn [feqb]. destruct (Reqb_spec m 0) as [Z|_]; [lra|].
  assert (Hc : exists c, In c cube /\ In m (fins c)).
  { clear -Hin. induction cube as [|c cube IH]; [destruct Hin|]. cbn in Hin. rewrite fins_app in Hin. apply in_app_or in Hin as [H|H].
    - exists c. split; [now left|exact H].
    - destruct (IH H) as [c' [A B]]. exists c'. split; [now right|exact B]. }
  destruct Hc as [c [Hc Hmc]]. exists (intensity_row L lim (Fin m) c). split; [now apply in_map|].
  destruct (intensity_row_spec L lim m c ltac:(lra)) as [s [P [D ->]]].
  assert (Hs : In m s).
  { apply (Permutation_in m (Permutation_sym P)). destruct lim as [t|]; [|exact Hmc]. apply filter_In. split; [exact Hmc|].
    destruct (Rltb_spec t m); [reflexivity|contradiction]. }
  assert (Hle : forall y, In y s -> y <= m).
  { intros y Hy. apply Hmax. apply (Permutation_in y P) in Hy. assert (Hy' : In y (fins c)) by (destruct lim; [apply filter_In in Hy; apply Hy|exact Hy]).
    clear -Hc Hy'. induction cube as [|c0 cube IH]; [destruct Hc|]. cbn. rewrite fins_app. apply in_or_app. destruct Hc as [->|Hc]; [now left|right; auto]. }
  destruct s as [|x s]; [destruct Hs|]. assert (x = m) as ->.
  { apply Rle_antisym; [apply Hle; now left|]. destruct Hs as [->|Hs]; [lra|]. apply descending_cons in D as [D _]. now apply D. }
  destruct L as [|L]; [lia|]. cbn [firstn app map]. left. f_equal. field. lra.
Qed.
Lemma fmt_defined c m nm : (nm = true -> like_norm norm2) -> bright_cube c m ->
  exists dm, fmt (ci_npix c) (ci_chans c) (ci_noise c) (2 / 10) nm = Ok dm /\ finite (dm_rows dm) /\ length (dm_rows dm) = length (ci_chans c).
Proof.
  intros Hn (H3 & B & Mx & Hm & Hl). unfold fmt, format_one.
  assert (E : nanmax (concat (ci_chans c)) = Fin m).
  { destruct (nanmax_spec (concat (ci_chans c)) (proper_concat _ B)) as [m' [E' M']].
    - destruct Mx as [I _]. intros E0. rewrite E0 in I. destruct I.
    - rewrite E'. f_equal. destruct Mx as [I1 M1], M' as [I2 M2]. apply Rle_antisym; auto. }
  assert (HL : (1 <= Z.to_nat (np_round (2 / 10 * INR (ci_npix c))))%nat).
  { apply round_up. apply le_INR in H3. cbn in H3. lra. }
  set (L := Z.to_nat _) in *. destruct (data_finite (ci_chans c) L (ci_noise c) m E ltac:(lra)) as [F Len].
  destruct nm; [|exists (mk_dm (intensity_data (ci_chans c) L (ci_noise c) true) L); auto].
  destruct (data_brightest (ci_chans c) L (ci_noise c) m HL E Mx Hm Hl) as [row [Hr H1]].
  destruct (proj1 (Hn eq_refl) _ row 1 F Hr H1 ltac:(lra)) as [n [Hz ->]]. cbn [bind]. eexists. split; [reflexivity|]. cbn [dm_rows]. split; [|now rewrite map_length].
  apply Forall_forall. intros r Hrr. apply in_map_iff in Hrr as [r0 [<- Hr0]]. apply Forall_forall. intros x Hx. apply in_map_iff in Hx as [v [<- Hv]].
  unfold finite in F. rewrite Forall_forall in F. specialize (F r0 Hr0). rewrite Forall_forall in F. specialize (F v Hv). destruct v as [v| | |]; try discriminate.
  cbn [fdiv]. destruct (Reqb_spec n 0); [contradiction|reflexivity].
Qed.
Lemma drawn_finite rows news n : finite rows -> Forall2 (fun row new => drawn row n new) rows news -> finite news /\ length news = length rows.
Proof.
  intros F H. induction H as [|r w rows news D H IH]; [split; [constructor|reflexivity]|]. apply Forall_inv in F as F1. apply Forall_inv_tail in F.
  destruct (IH F) as [A B]. split; [|cbn; now rewrite B]. constructor; [|exact A]. destruct D as [_ [rest P]]. apply Forall_forall. intros x Hx.
  rewrite Forall_forall in F1. apply F1. apply (Permutation_in x P). apply in_or_app. now left.
Qed.
Lemma dist_defined c1 c2 a b nm st : (nm = true -> like_norm norm2) -> (forall s row n, (n <= length row)%nat -> drawn row n (fst (choice s row n))) ->
  bright_cube c1 a -> bright_cube c2 b -> exists r, dist c1 c2 nm st = Ok r.
Proof.
  intros Hn Hc B1 B2. destruct (fmt_defined c1 a nm Hn B1) as [m1 [E1 [F1 L1]]]. destruct (fmt_defined c2 b nm Hn B2) as [m2 [E2 [F2 L2]]].
  assert (G : exists mm, format_data norm2 random seeded choice c1 c2 (2 / 10) 13024%Z nm st = Ok mm).
  { unfold format_data. fold fmt. rewrite E1, E2. cbn [bind]. destruct (Nat.eqb (dm_cols m1) (dm_cols m2)); [eauto|].
    destruct (Nat.ltb (dm_cols m1) (dm_cols m2)); destruct (sample_rows _ _ _ _ _); eauto. }
  destruct G as [[[m1' m2'] st'] G].
  destruct (sampling c1 c2 (2 / 10) 13024%Z nm st m1 m2 m1' m2' st' Hc E1 E2 G) as [C1 [C2 [D1 [D2 _]]]].
  destruct (drawn_finite _ _ _ F1 D1) as [F1' L1']. destruct (drawn_finite _ _ _ F2 D2) as [F2' L2'].
  assert (N : forall c m, bright_cube c m -> length (ci_chans c) <> 0%nat).
  { intros c m (_ & _ & [I _] & _) Z. apply length_zero_iff_nil in Z. rewrite Z in I. destruct I. }
  unfold dist, distance_metric. rewrite G. cbn [bind fst snd]. unfold statistic.
  destruct m1' as [R1 n1], m2' as [R2 n2]. cbn [dm_rows dm_cols] in *. rewrite (finite_all _ n1 F1'), (finite_all _ n2 F2'). cbn [andb].
  rewrite C1, C2, cramer_formula; [cbn [bind]; eauto| |].
  - assert (H := N _ _ B1). lia.
  - assert (H := N _ _ B2). lia.
Qed.
Lemma brighter_copy c m a st : (forall s row n, (n <= length row)%nat -> drawn row n (fst (choice s row n))) ->
  bright_cube c m -> 0 < a -> dist c (brighter a c) false st = Ok (0, st).
Proof.
  intros Hc B Ha. destruct (dist_defined c c m m false st ltac:(discriminate) Hc B B) as [r E]. assert (H := dist_same _ _ _ _ E). subst r.
  rewrite <- E. assert (S1 := dist_scale c c 1 a false st ltac:(lra) Ha). rewrite <- S1.
  unfold dist, distance_metric, format_data. fold fmt. now rewrite !fmt_scale by lra.
Qed.
Lemma reproducible c1 c2 nm st1 st2 d st1' : dist c1 c2 nm st1 = Ok (d, st1') -> exists st2', dist c1 c2 nm st2 = Ok (d, st2').
Proof.
  intros H. unfold dist, distance_metric in *. apply bind_ok' in H as [mm [F H]]. unfold format_data in *.
  apply bind_ok' in F as [m1 [E1 F]]. apply bind_ok' in F as [m2 [E2 F]]. rewrite E1, E2. cbn [bind].
  destruct (Nat.eqb (dm_cols m1) (dm_cols m2)).
  - assert (mm = (m1, m2, st1)) as -> by congruence. cbn [bind fst snd] in *. apply bind_ok' in H as [d' [D H]]. rewrite D. cbn [bind].
    exists st2. congruence.
  - rewrite F. exists st1'. exact H.
Qed.
End Distance.

(** ** A concrete case: cubes of one channel with 10 and 20 pixels *)
Definition ex_norm (m : list (list fl)) : result fl := Ok (Fin 2).
Definition ex_choice (s : unit) (row : list fl) (n : nat) : list fl * unit := (firstn n row, s).
Definition ex_small : cube_in := mk_cube 10 [repeat (Fin 4) 5 ++ repeat (Fin 2) 5; repeat (Fin 1) 10] None.
Definition ex_large : cube_in := mk_cube 20 [repeat (Fin 3) 10 ++ repeat NaN 10] (Some 2).
Lemma ex_choice_draws : forall s row n, (n <= length row)%nat -> drawn row n (fst (ex_choice s row n)).
Proof. intros s row n H. cbn. split; [rewrite firstn_length; lia|]. exists (skipn n row). now rewrite firstn_skipn. Qed.
Lemma ex_norm_like : like_norm ex_norm.
Proof. split; [|reflexivity]. intros. exists 2. split; [lra|reflexivity]. Qed.
Lemma ex_small_bright : bright_cube ex_small 4.
Proof.
  split; [cbn; lia|]. split; [unfold proper_cube; cbn; repeat constructor|]. split; [|split; [lra|exact I]].
  split; [cbn; tauto|]. cbn. intros y H. repeat (destruct H as [<-|H]; [lra|]); destruct H.
Qed.
Lemma ex_large_bright : bright_cube ex_large 3.
Proof.
  split; [cbn; lia|]. split; [unfold proper_cube; cbn; repeat constructor|]. split; [|split; [lra|cbn; lra]].
  split; [cbn; tauto|]. cbn. intros y H. repeat (destruct H as [<-|H]; [lra|]); destruct H.
Qed.
Lemma round_int z : np_round (IZR z) = z.
Proof.
  unfold np_round. cbv zeta. assert (E : Int_part (IZR z) = z).
  { unfold Int_part. assert (up (IZR z) = (z + 1)%Z); [|lia]. symmetry. apply tech_up; rewrite plus_IZR; lra. }
  rewrite E. destruct (Rltb_spec (IZR z - IZR z) (1 / 2)); [reflexivity|lra].
Qed.
Lemma ex_round10 : Z.to_nat (np_round (2 / 10 * INR 10)) = 2%nat.
Proof. replace (2 / 10 * INR 10) with (IZR 2) by (cbn; lra). now rewrite round_int. Qed.
Lemma ex_round20 : Z.to_nat (np_round (2 / 10 * INR 20)) = 4%nat.
Proof. replace (2 / 10 * INR 20) with (IZR 4) by (cbn; lra). now rewrite round_int. Qed.
Lemma ex_sampling : exists m1 m2 m1' m2' st', format_one ex_norm 10 (ci_chans ex_small) None (2 / 10) true = Ok m1 /\
  format_one ex_norm 20 (ci_chans ex_large) (Some 2) (2 / 10) true = Ok m2 /\
  format_data ex_norm unit (fun _ => tt) ex_choice ex_small ex_large (2 / 10) 13024%Z true tt = Ok (m1', m2', st') /\ dm_cols m1 = 2%nat /\ dm_cols m2 = 4%nat.
Proof.
  destruct (fmt_defined ex_norm ex_small 4 true (fun _ => ex_norm_like) ex_small_bright) as [m1 [E1 _]].
  destruct (fmt_defined ex_norm ex_large 3 true (fun _ => ex_norm_like) ex_large_bright) as [m2 [E2 _]].
  assert (G : exists mm, format_data ex_norm unit (fun _ => tt) ex_choice ex_small ex_large (2 / 10) 13024%Z true tt = Ok mm).
  { unfold format_data. rewrite E1, E2. cbn [bind]. destruct (Nat.eqb (dm_cols m1) (dm_cols m2)); [eauto|].
    destruct (Nat.ltb (dm_cols m1) (dm_cols m2)); destruct (sample_rows _ _ _ _ _); eauto. }
  destruct G as [[[m1' m2'] st'] G]. exists m1, m2, m1', m2', st'. split; [exact E1|]. split; [exact E2|]. split; [exact G|]. split.
  - rewrite (fmt_cols _ _ _ _ _ _ _ E1). apply ex_round10.
  - rewrite (fmt_cols _ _ _ _ _ _ _ E2). apply ex_round20.
Qed.
