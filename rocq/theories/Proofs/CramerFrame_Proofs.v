(** Proofs for C322: blank surroundings and the Cramer distance. *)
From Coq Require Import Reals List Arith Bool ZArith Lia Lra Permutation.
From Verif Require Import Lib.PyBase Lib.Fl Lib.RSum Spec.Blank Spec.Covariance Spec.Energy Spec.CramerCubes Spec.CramerFrame Model.Psds Model.Formats Model.Cramer Model.CramerDistance
  Proofs.Fl_Proofs Proofs.Cov_Proofs Proofs.Cramer_Proofs Proofs.CramerDistance_Proofs Proofs.CramerDistance2_Proofs.
From Verif Require Proofs.GenusFrame_Proofs Proofs.TurnedMoments_Proofs.
Import ListNotations.
Local Open Scope R_scope.

Lemma fins_blanks n : fins (repeat NaN n) = [].
Proof. induction n; [reflexivity|exact IHn]. Qed.
Lemma nonnan_blanks n : nonnan (repeat NaN n) = [].
Proof. induction n; [reflexivity|exact IHn]. Qed.
Lemma fins_field n l l' : Permutation (l ++ repeat NaN n) l' -> Permutation (fins l) (fins l').
Proof. intros P. apply fins_perm in P. now rewrite fins_app, fins_blanks, app_nil_r in P. Qed.
Lemma nonnan_field n l l' : Permutation (l ++ repeat NaN n) l' -> Permutation (nonnan l') (nonnan l).
Proof.
  intros P. apply Permutation_sym. assert (Q : Permutation (nonnan (l ++ repeat NaN n)) (nonnan l')) by now apply TurnedMoments_Proofs.perm_filter.
  unfold nonnan in *. rewrite filter_app in Q. change (filter _ (repeat NaN n)) with (nonnan (repeat NaN n)) in Q. now rewrite nonnan_blanks, app_nil_r in Q.
Qed.
Lemma field_max n c c' : in_blanks n c c' -> proper_cube c -> nanmax (concat (ci_chans c')) = nanmax (concat (ci_chans c)).
Proof.
  intros (_ & F & _) B. unfold proper_cube in B. assert (B' : Forall (Forall blankable) (ci_chans c')).
  { induction F as [|x y l l' P F IH]; [constructor|]. inversion B as [|? ? B1 B2]; subst. constructor; [|now apply IH].
    apply Forall_forall. intros v Hv. apply (Permutation_in v (Permutation_sym P)) in Hv. apply in_app_or in Hv. destruct Hv as [Hv|Hv].
    - rewrite Forall_forall in B1. now apply B1.
    - apply repeat_spec in Hv. now rewrite Hv. }
  apply GenusFrame_Proofs.min_perm; [now apply proper_concat|now apply proper_concat|]. clear B B'.
  induction F as [|x y l l' P F IH]; [constructor|]. cbn [concat]. unfold nonnan in *. rewrite !filter_app. apply Permutation_app; [exact (nonnan_field n x y P)|exact IH].
Qed.

(** ** The rows *)
Definition bright (lim : option R) (chan : list fl) : list R := sort_desc (above lim (fins chan)).
Lemma row_is L lim m chan : intensity_row L lim m chan = map (fun v => fdiv (Fin v) m) (firstn L (bright lim chan) ++ repeat 0 (L - length (bright lim chan))).
Proof.
  unfold intensity_row. cbv zeta. fold (above lim (fins chan)). fold (bright lim chan). f_equal. destruct (Nat.ltb_spec (length (bright lim chan)) L) as [H|H].
  - now rewrite firstn_all2 by lia.
  - replace (L - length (bright lim chan))%nat with 0%nat by lia. now rewrite app_nil_r.
Qed.
Lemma above_perm lim l l' : Permutation l l' -> Permutation (above lim l) (above lim l').
Proof. intros P. unfold above. destruct lim; [now apply TurnedMoments_Proofs.perm_filter|exact P]. Qed.
Lemma bright_field n lim l l' : Permutation (l ++ repeat NaN n) l' -> bright lim l' = bright lim l.
Proof. intros P. unfold bright. apply descending_perm_eq; try apply sort_desc_sorted. rewrite !sort_desc_perm. apply above_perm, Permutation_sym. exact (fins_field n l l' P). Qed.
Lemma row_field n L lim m l l' : Permutation (l ++ repeat NaN n) l' -> intensity_row L lim m l' = intensity_row L lim m l.
Proof. intros P. now rewrite !row_is, (bright_field n lim l l' P). Qed.
Lemma row_prefix L L' lim m chan : (L <= L')%nat -> intensity_row L lim m chan = firstn L (intensity_row L' lim m chan).
Proof.
  intros H. rewrite !row_is. rewrite firstn_map. f_equal. rewrite firstn_app, firstn_firstn, Nat.min_l by lia. f_equal. rewrite firstn_length.
  set (k := length (bright lim chan)). replace (L' - k)%nat with ((L - Nat.min L' k) + ((L' - k) - (L - Nat.min L' k)))%nat by lia. rewrite repeat_app, firstn_app, repeat_length, Nat.sub_diag. cbn [firstn].
  rewrite app_nil_r, firstn_all2 by (rewrite repeat_length; lia). f_equal. lia.
Qed.
Lemma row_filled L L' lim m chan : (length (bright lim chan) <= L)%nat -> (L <= L')%nat -> intensity_row L' lim m chan = intensity_row L lim m chan ++ repeat (fdiv (Fin 0) m) (L' - L).
Proof.
  intros K H. rewrite !row_is, !firstn_all2 by lia. replace (L' - length (bright lim chan))%nat with ((L - length (bright lim chan)) + (L' - L))%nat by lia.
  rewrite repeat_app, app_assoc, map_app. f_equal. induction (L' - L)%nat as [|k IH]; [reflexivity|]. cbn [repeat map]. now rewrite IH.
Qed.
Lemma kept_mono n n' : (n <= n')%nat -> (kept n <= kept n')%nat.
Proof. intros H. unfold kept. apply le_INR in H. pose proof (round_mono (2 / 10 * INR n) (2 / 10 * INR n') ltac:(lra)). lia. Qed.

Lemma data_field n c c' L : in_blanks n c c' -> proper_cube c -> intensity_data (ci_chans c') L (ci_noise c') true = intensity_data (ci_chans c) L (ci_noise c) true.
Proof.
  intros I B. pose proof (field_max n c c' I B) as M. destruct I as (_ & F & N). unfold intensity_data. cbv zeta. rewrite M, N. set (mx := nanmax (concat (ci_chans c))). clearbody mx. destruct (feqb _ _); [reflexivity|]. clear M B N.
  induction F as [|x y l l' P F IH]; [reflexivity|]. cbn [map]. now rewrite IH, (row_field n L _ _ x y P).
Qed.
Lemma data_prefix cube L L' lim : (L <= L')%nat -> intensity_data cube L lim true = map (firstn L) (intensity_data cube L' lim true).
Proof. intros H. unfold intensity_data. cbv zeta. destruct (feqb _ _); [reflexivity|]. rewrite map_map. apply map_ext. intros chan. now apply row_prefix. Qed.

Section Distance.
Variable norm2 : list (list fl) -> result fl.
Variable random : Type.
Variable seeded : Z -> random.
Variable choice : random -> list fl -> nat -> list fl * random.
Let fmt := format_one norm2.
Let dist := distance_metric norm2 random seeded choice.

(** The brightest pixels come first: the rows in the smaller field start those in the larger one. *)
Theorem rows_start : forall n c c', in_blanks n c c' -> proper_cube c -> exists M M',
  fmt (ci_npix c) (ci_chans c) (ci_noise c) (2 / 10) false = Ok M /\ fmt (ci_npix c') (ci_chans c') (ci_noise c') (2 / 10) false = Ok M' /\
  dm_cols M = kept (ci_npix c) /\ dm_cols M' = kept (ci_npix c + n) /\ dm_rows M = map (firstn (dm_cols M)) (dm_rows M').
Proof.
  intros n c c' I B. do 2 eexists. split; [reflexivity|]. split; [reflexivity|]. cbn [dm_cols dm_rows]. split; [reflexivity|]. assert (E : ci_npix c' = (ci_npix c + n)%nat) by apply I.
  split; [now rewrite E|]. rewrite (data_field n c c' _ I B). apply data_prefix. rewrite E. apply kept_mono. lia.
Qed.
Lemma fmt_kept n c c' nm : in_blanks n c c' -> proper_cube c -> kept (ci_npix c + n) = kept (ci_npix c) ->
  fmt (ci_npix c') (ci_chans c') (ci_noise c') (2 / 10) nm = fmt (ci_npix c) (ci_chans c) (ci_noise c) (2 / 10) nm.
Proof.
  intros I B K. assert (E : ci_npix c' = (ci_npix c + n)%nat) by apply I. unfold fmt, format_one. rewrite E. fold (kept (ci_npix c + n)) (kept (ci_npix c)). rewrite K, (data_field n c c' _ I B). reflexivity.
Qed.
(** Few blanks, that do not change the number of pixels kept, change nothing. *)
Theorem few_blanks : forall n1 n2 c1 c1' c2 c2' nm st, in_blanks n1 c1 c1' -> in_blanks n2 c2 c2' -> proper_cube c1 -> proper_cube c2 ->
  kept (ci_npix c1 + n1) = kept (ci_npix c1) -> kept (ci_npix c2 + n2) = kept (ci_npix c2) -> dist c1' c2' nm st = dist c1 c2 nm st.
Proof.
  intros n1 n2 c1 c1' c2 c2' nm st I1 I2 B1 B2 K1 K2. unfold dist, distance_metric, format_data. fold fmt. now rewrite (fmt_kept n1 c1 c1' nm I1 B1 K1), (fmt_kept n2 c2 c2' nm I2 B2 K2).
Qed.

(** ** Padded rows *)
Definition padded (k : nat) (m : data_matrix) : data_matrix := mk_dm (map (fun row => row ++ repeat (Fin 0) k) (dm_rows m)) (dm_cols m + k).
Lemma entry_padded m k i j : entry (padded k m) i j = entry m i j.
Proof.
  unfold entry, padded. cbn [dm_rows]. destruct (Nat.lt_ge_cases i (length (dm_rows m))) as [H|H].
  - rewrite (nth_indep _ [] ([] ++ repeat (Fin 0) k)) by (now rewrite map_length). rewrite (map_nth (fun row => row ++ repeat (Fin 0) k)).
    destruct (Nat.lt_ge_cases j (length (nth i (dm_rows m) []))) as [L|L]; [now rewrite app_nth1|]. rewrite app_nth2 by lia. rewrite (nth_overflow (nth i (dm_rows m) [])) by lia.
    set (q := (j - _)%nat). destruct (Nat.lt_ge_cases q k) as [Q|Q]; [rewrite (nth_indep _ NaN (Fin 0)) by (now rewrite repeat_length); now rewrite nth_repeat|].
    now rewrite nth_overflow by (rewrite repeat_length; lia).
  - rewrite !(nth_overflow _ []) by (rewrite ?map_length; lia). now destruct j.
Qed.
Lemma finite_padded m k : all_finite (padded k m) = all_finite m.
Proof.
  unfold all_finite, padded. cbn [dm_rows]. induction (dm_rows m) as [|r l IH]; [reflexivity|]. cbn [map forallb]. rewrite IH, forallb_app. f_equal.
  replace (forallb is_fin (repeat (Fin 0) k)) with true; [apply andb_true_r|]. symmetry. apply forallb_forall. intros x H. apply repeat_spec in H. now rewrite H.
Qed.
Lemma root_more d k x y : (forall i, (d <= i)%nat -> x i = 0 /\ y i = 0) -> root_dist (d + k) x y = root_dist d x y.
Proof.
  intros H. unfold root_dist. rewrite rsum_split. rewrite (rsum_zero k); [now rewrite Rplus_0_r|]. intros i _. destruct (H (d + i)%nat) as [-> ->]; [lia|]. ring.
Qed.
Lemma loops_more d k m n (U V : matrix) : (forall i j, (d <= j)%nat -> U i j = 0) -> (forall i j, (d <= j)%nat -> V i j = 0) -> cramer_loops (d + k) m n U V = cramer_loops d m n U V.
Proof.
  intros HU HV. unfold cramer_loops. cbv zeta.
  rewrite (rsum_ext m (fun i => rsum n (fun j => root_dist (d + k) (U i) (V j))) (fun i => rsum n (fun j => root_dist d (U i) (V j)))) by (intros i Hi; apply rsum_ext; intros j Hj; apply root_more; intros; split; auto).
  rewrite (rsum_ext m (fun i => rsum m (fun j => root_dist (d + k) (U i) (U j))) (fun i => rsum m (fun j => root_dist d (U i) (U j)))) by (intros i Hi; apply rsum_ext; intros j Hj; apply root_more; intros; split; auto).
  rewrite (rsum_ext m (fun i => if Nat.ltb i n then rsum n (fun j => root_dist (d + k) (V i) (V j)) else 0) (fun i => if Nat.ltb i n then rsum n (fun j => root_dist d (V i) (V j)) else 0)); [reflexivity|].
  intros i Hi. destruct (Nat.ltb i n); [|reflexivity]. apply rsum_ext. intros j Hj. apply root_more; intros; split; auto.
Qed.
Lemma entry_out m i j : (forall row, In row (dm_rows m) -> length row = dm_cols m) -> (dm_cols m <= j)%nat -> entry m i j = 0.
Proof.
  intros H L. unfold entry. destruct (Nat.lt_ge_cases i (length (dm_rows m))) as [K|K].
  - rewrite (nth_overflow (nth i (dm_rows m) [])); [reflexivity|]. rewrite (H _ (nth_In _ _ K)). exact L.
  - rewrite (nth_overflow (dm_rows m)) by lia. now destruct j.
Qed.
Lemma statistic_padded m1 m2 k : (forall row, In row (dm_rows m1) -> length row = dm_cols m1) -> (forall row, In row (dm_rows m2) -> length row = dm_cols m2) ->
  statistic (padded k m1) (padded k m2) = statistic m1 m2.
Proof.
  intros R1 R2. unfold statistic. rewrite !finite_padded. destruct (all_finite m1 && all_finite m2); [|reflexivity].
  rewrite (cramer_ext _ _ (entry (padded k m1)) (entry m1) _ _ (entry (padded k m2)) (entry m2)) by (intros; apply entry_padded).
  unfold cramer_statistic, padded. cbn [dm_rows dm_cols]. rewrite !map_length. replace (dm_cols m1 + k =? dm_cols m2 + k)%nat with (dm_cols m1 =? dm_cols m2)%nat.
  2: { destruct (Nat.eqb_spec (dm_cols m1) (dm_cols m2)), (Nat.eqb_spec (dm_cols m1 + k) (dm_cols m2 + k)); try reflexivity; lia. }
  destruct ((length (dm_rows m1) =? 0)%nat || (length (dm_rows m2) =? 0)%nat); [reflexivity|]. destruct (Nat.eqb_spec (dm_cols m1) (dm_cols m2)) as [E|E]; [|reflexivity]. cbn [orb negb].
  destruct (length (dm_rows m2) <=? length (dm_rows m1))%nat; f_equal; apply loops_more; intros i j H; apply entry_out; auto; lia.
Qed.

(** ** Sparse cubes *)
Lemma div_zero v m : is_fin (fdiv v m) = true -> is_fin v = true /\ fdiv (Fin 0) m = Fin 0.
Proof.
  destruct v as [a| | |].
  - destruct m as [b| | |]; [|intros _; split; reflexivity|intros _; split; reflexivity|discriminate]. cbn [fdiv]. destruct (Reqb b 0).
    + unfold sinf. destruct (Rltb 0 a); [discriminate|]. destruct (Rltb a 0); discriminate.
    + intros _. split; [reflexivity|]. f_equal. unfold Rdiv. ring.
  - destruct m as [b| | |]; cbn [fdiv]; try discriminate. destruct (Rltb b 0); discriminate.
  - destruct m as [b| | |]; cbn [fdiv]; try discriminate. destruct (Rltb b 0); discriminate.
  - destruct m; discriminate.
Qed.
Lemma rows_of_data c n c' : in_blanks n c c' -> proper_cube c -> sparse c ->
  exists v, intensity_data (ci_chans c') (kept (ci_npix c')) (ci_noise c') true = map (fun row => row ++ repeat (fdiv (Fin 0) v) (kept (ci_npix c + n) - kept (ci_npix c))) (intensity_data (ci_chans c) (kept (ci_npix c)) (ci_noise c) true) /\
    (forall row x, In row (intensity_data (ci_chans c) (kept (ci_npix c)) (ci_noise c) true) -> In x row -> exists u, x = fdiv u v).
Proof.
  intros I B S. assert (E : ci_npix c' = (ci_npix c + n)%nat) by apply I. rewrite (data_field n c c' _ I B), E. unfold intensity_data. cbv zeta. exists (nanmax (concat (ci_chans c))).
  destruct (feqb _ _); [split; [reflexivity|intros row x []]|]. rewrite map_map. split.
  - apply map_ext_in. intros chan H. apply row_filled; [|apply kept_mono; lia]. unfold bright. rewrite (Permutation_length (sort_desc_perm _)). now apply S.
  - intros row x H Hx. apply in_map_iff in H. destruct H as [chan [<- _]]. rewrite row_is in Hx. apply in_map_iff in Hx. destruct Hx as [u [<- _]]. now exists (Fin u).
Qed.
Lemma data_rows cube L lim row : In row (intensity_data cube L lim true) -> length row = L.
Proof. unfold intensity_data. cbv zeta. destruct (feqb _ _); [intros []|]. intros H. apply in_map_iff in H. destruct H as [chan [<- _]]. apply row_length. Qed.
Lemma fmt_filled n c c' nm M : (nm = true -> zeros_free norm2) -> in_blanks n c c' -> proper_cube c -> sparse c -> (1 <= kept (ci_npix c))%nat ->
  fmt (ci_npix c) (ci_chans c) (ci_noise c) (2 / 10) nm = Ok M -> all_finite M = true ->
  fmt (ci_npix c') (ci_chans c') (ci_noise c') (2 / 10) nm = Ok (padded (kept (ci_npix c + n) - kept (ci_npix c)) M).
Proof.
  intros Z I B S K. destruct (rows_of_data c n c' I B S) as [v [D V]]. assert (E : ci_npix c' = (ci_npix c + n)%nat) by apply I.
  pose proof (data_rows (ci_chans c) (kept (ci_npix c)) (ci_noise c)) as R. pose proof (kept_mono (ci_npix c) (ci_npix c + n) ltac:(lia)) as KM.
  unfold fmt, format_one. fold (kept (ci_npix c)) (kept (ci_npix c')). rewrite D. set (rows := intensity_data (ci_chans c) (kept (ci_npix c)) (ci_noise c) true) in *. set (k := (kept (ci_npix c + n) - kept (ci_npix c))%nat) in *.
  assert (C : (kept (ci_npix c') = kept (ci_npix c) + k)%nat) by (rewrite E; unfold k; lia). rewrite C.
  assert (P : (forall row x, In row rows -> In x row -> is_fin x = true) -> map (fun row => row ++ repeat (fdiv (Fin 0) v) k) rows = map (fun row => row ++ repeat (Fin 0) k) rows).
  { intros F. apply map_ext_in. intros row H. specialize (R row H). destruct row as [|x row]; [cbn in R; lia|]. specialize (F _ x H (or_introl eq_refl)).
    destruct (V _ x H (or_introl eq_refl)) as [u ->]. now rewrite (proj2 (div_zero u v F)). }
  destruct nm.
  - intros H F. apply bind_ok' in H as [q [N H]]. injection H as <-. unfold all_finite in F. cbn [dm_rows] in F. rewrite forallb_forall in F.
    assert (G : forall row x, In row rows -> In x row -> is_fin x = true /\ fdiv (Fin 0) q = Fin 0).
    { intros row x H Hx. specialize (F (map (fun v => fdiv v q) row) (in_map _ _ _ H)). rewrite forallb_forall in F. apply (div_zero x q), F. now apply (in_map (fun v => fdiv v q)). }
    rewrite P by (intros row x H Hx; now apply (G row x)). rewrite (Z eq_refl), N. cbn [bind]. unfold padded. cbn [dm_rows dm_cols]. do 2 f_equal. rewrite !map_map. apply map_ext_in. intros row H. rewrite map_app. f_equal.
    specialize (R row H). destruct row as [|x row]; [cbn in R; lia|]. destruct (G _ x H (or_introl eq_refl)) as [_ Q]. clear - Q. induction k as [|k IH]; [reflexivity|]. cbn [repeat map]. now rewrite IH, Q.
  - intros H F. injection H as <-. unfold all_finite in F. cbn [dm_rows] in F. rewrite forallb_forall in F. rewrite P; [reflexivity|]. intros row x H Hx. specialize (F row H). rewrite forallb_forall in F. now apply F.
Qed.
(** Two cubes of the same shape in fields of the same size, when the pixels kept include all above the noise *)
Theorem sparse_cubes : forall n c1 c1' c2 c2' nm st r, (nm = true -> zeros_free norm2) -> in_blanks n c1 c1' -> in_blanks n c2 c2' -> proper_cube c1 -> proper_cube c2 ->
  ci_npix c2 = ci_npix c1 -> (3 <= ci_npix c1)%nat -> sparse c1 -> sparse c2 -> dist c1 c2 nm st = Ok r -> dist c1' c2' nm st = Ok r.
Proof.
  intros n c1 c1' c2 c2' nm st r Z I1 I2 B1 B2 E K S1 S2. unfold dist, distance_metric, format_data. fold fmt. intros H.
  apply bind_ok' in H as [mm [F H]]. apply bind_ok' in F as [M1 [F1 F]]. apply bind_ok' in F as [M2 [F2 F]].
  pose proof (fmt_cols norm2 _ _ _ _ _ _ F1) as C1. pose proof (fmt_cols norm2 _ _ _ _ _ _ F2) as C2. rewrite E in C2.
  assert (C : (dm_cols M1 =? dm_cols M2)%nat = true) by (apply Nat.eqb_eq; congruence). rewrite C in F. injection F as <-. cbn [fst snd] in H. apply bind_ok' in H as [d [D H]].
  assert (A : all_finite M1 = true /\ all_finite M2 = true) by (unfold statistic in D; destruct (all_finite M1), (all_finite M2); try discriminate; now split). destruct A as [A1 A2].
  assert (K1 : (1 <= kept (ci_npix c1))%nat) by (unfold kept; apply round_up; apply le_INR in K; cbn in K; lra).
  rewrite (fmt_filled n c1 c1' nm M1 Z I1 B1 S1 K1 F1 A1), (fmt_filled n c2 c2' nm M2 Z I2 B2 S2 ltac:(now rewrite E) F2 A2). cbn [bind]. rewrite E.
  cbn [padded dm_cols]. replace (dm_cols M1 + _ =? dm_cols M2 + _)%nat with true by (symmetry; apply Nat.eqb_eq; apply Nat.eqb_eq in C; lia). cbn [bind fst snd].
  fold (padded (kept (ci_npix c1 + n) - kept (ci_npix c1)) M1) (padded (kept (ci_npix c1 + n) - kept (ci_npix c1)) M2).
  rewrite statistic_padded, D; [exact H| |]; intros row Hr; [now apply (fmt_rows norm2 _ _ _ _ _ _ row F1)|now apply (fmt_rows norm2 _ _ _ _ _ _ row F2)].
Qed.
End Distance.

(** ** Cubes that differ in their second brightest pixel *)
Definition pair_of (x : R) : cube_in := mk_cube 5 [[Fin 4; Fin x; Fin 0; Fin 0; Fin 0]] None.
Definition pair_in (x : R) : cube_in := mk_cube 10 [[Fin 4; Fin x; Fin 0; Fin 0; Fin 0] ++ repeat NaN 5] None.
Lemma pair_field x : in_blanks 5 (pair_of x) (pair_in x).
Proof. split; [reflexivity|]. split; [|reflexivity]. constructor; [apply Permutation_refl|constructor]. Qed.
Lemma pair_proper x : proper_cube (pair_of x).
Proof. unfold proper_cube, pair_of. cbn. repeat constructor. Qed.
Lemma pair_max x : 0 <= x <= 4 -> nanmax (concat (ci_chans (pair_of x))) = Fin 4.
Proof.
  intros X. destruct (nanmax_spec (concat (ci_chans (pair_of x)))) as [m [-> [I M]]].
  - apply proper_concat, pair_proper.
  - discriminate.
  - f_equal. apply Rle_antisym; [|apply M; left; reflexivity]. cbn in I. repeat (destruct I as [<-|I]; [lra|]). destruct I.
Qed.
Lemma pair_bright x : 0 <= x <= 4 -> bright None [Fin 4; Fin x; Fin 0; Fin 0; Fin 0] = [4; x; 0; 0; 0].
Proof.
  intros X. unfold bright, above. cbn [fins flat_map app sort_desc fold_right insert_desc].
  assert (Z : Rleb 0 0 = true) by (destruct (Rleb_spec 0 0); [reflexivity|lra]). assert (A : Rleb 0 x = true) by (destruct (Rleb_spec 0 x); [reflexivity|lra]). assert (B : Rleb x 4 = true) by (destruct (Rleb_spec x 4); [reflexivity|lra]).
  repeat (rewrite Z; cbn [insert_desc]). rewrite A. cbn [insert_desc]. now rewrite B.
Qed.
Lemma pair_data x L : 0 <= x <= 4 -> intensity_data (ci_chans (pair_of x)) L None true = [map (fun v => Fin (v / 4)) (firstn L [4; x; 0; 0; 0] ++ repeat 0 (L - 5))].
Proof.
  intros X. unfold intensity_data. cbv zeta. rewrite pair_max by exact X. cbn [feqb]. destruct (Reqb_spec 4 0); [lra|]. cbn [pair_of ci_chans map]. rewrite row_is, pair_bright by exact X. f_equal. apply map_ext. intros v. apply fdiv_fin. lra.
Qed.
Lemma pair_dist norm2 random seeded choice st x y : 0 <= x <= 4 -> 0 <= y <= 4 ->
  distance_metric norm2 random seeded choice (pair_of x) (pair_of y) false st = Ok (0, st) /\
  distance_metric norm2 random seeded choice (pair_in x) (pair_in y) false st = Ok (1 / 2 * sqrt (sqrt ((x / 4 - y / 4) * (x / 4 - y / 4))), st).
Proof.
  intros X Y.
  assert (Z : forall a, sqrt (sqrt (0 + (a - a) * (a - a))) = 0) by (intro a; replace (0 + (a - a) * (a - a)) with 0 by ring; now rewrite !sqrt_0).
  assert (W : forall a b, sqrt (sqrt (0 + (a - a) * (a - a) + (b - b) * (b - b))) = 0) by (intros a b; replace (0 + (a - a) * (a - a) + (b - b) * (b - b)) with 0 by ring; now rewrite !sqrt_0).
  split; unfold distance_metric, format_data, format_one.
  - change (ci_npix (pair_of x)) with 5%nat. change (ci_npix (pair_of y)) with 5%nat. rewrite round5. change (ci_noise (pair_of x)) with (@None R). change (ci_noise (pair_of y)) with (@None R).
    rewrite !pair_data by assumption. cbn [bind dm_cols Nat.eqb fst snd firstn repeat Nat.sub app map]. unfold statistic, all_finite. cbn [dm_rows dm_cols forallb is_fin andb length].
    unfold cramer_statistic. cbn [Nat.eqb orb negb Nat.leb bind]. do 3 f_equal. unfold cramer_loops. cbv zeta. unfold rsum, root_dist. cbn [Nat.ltb Nat.leb]. unfold entry. cbn [dm_rows nth rsum INR]. rewrite !Z. field.
  - rewrite (data_field 5 (pair_of x) (pair_in x) _ (pair_field x) (pair_proper x)). rewrite (data_field 5 (pair_of y) (pair_in y) _ (pair_field y) (pair_proper y)).
    change (ci_npix (pair_in x)) with 10%nat. change (ci_npix (pair_in y)) with 10%nat. rewrite ex_round10. change (ci_noise (pair_of x)) with (@None R). change (ci_noise (pair_of y)) with (@None R).
    rewrite !pair_data by assumption. cbn [bind dm_cols Nat.eqb fst snd firstn repeat Nat.sub app map]. unfold statistic, all_finite. cbn [dm_rows dm_cols forallb is_fin andb length].
    unfold cramer_statistic. cbn [Nat.eqb orb negb Nat.leb bind]. do 3 f_equal. unfold cramer_loops. cbv zeta. unfold rsum, root_dist. cbn [Nat.ltb Nat.leb]. unfold entry. cbn [dm_rows nth rsum INR]. rewrite !W.
    replace (0 + (4 / 4 - 4 / 4) * (4 / 4 - 4 / 4) + (x / 4 - y / 4) * (x / 4 - y / 4)) with ((x / 4 - y / 4) * (x / 4 - y / 4)) by ring. field.
Qed.
Theorem blanks_matter : forall norm2 random seeded choice (st : random), ~ (forall n c1 c1' c2 c2' nm, in_blanks n c1 c1' -> in_blanks n c2 c2' -> proper_cube c1 -> proper_cube c2 -> ci_npix c1 = ci_npix c2 -> 
  distance_metric norm2 random seeded choice c1' c2' nm st = distance_metric norm2 random seeded choice c1 c2 nm st).
Proof.
  intros norm2 random seeded choice st H. specialize (H 5%nat (pair_of 4) (pair_in 4) (pair_of 0) (pair_in 0) false (pair_field 4) (pair_field 0) (pair_proper 4) (pair_proper 0) eq_refl).
  destruct (pair_dist norm2 random seeded choice st 4 0 ltac:(lra) ltac:(lra)) as [A B]. rewrite A, B in H. injection H as H.
  replace ((4 / 4 - 0 / 4) * (4 / 4 - 0 / 4)) with 1 in H by lra. rewrite !sqrt_1 in H. lra.
Qed.

(** ** Cases *)
Lemma kept10 : kept 10 = 2%nat.
Proof. exact ex_round10. Qed.
Lemma kept11 : kept (10 + 1) = 2%nat.
Proof.
  unfold kept. pose proof (round_near (2 / 10 * INR (10 + 1))) as [A B]. cbn [INR Nat.add] in A, B. set (k := np_round _) in *. clearbody k.
  assert (1 < k)%Z by (apply lt_IZR; lra). assert (k < 3)%Z by (apply lt_IZR; lra). lia.
Qed.
Definition spot (x : R) : cube_in := mk_cube 10 [Fin 4 :: Fin x :: repeat NaN 8; repeat NaN 10] None.
Definition spot_in (x : R) : cube_in := mk_cube 20 [repeat NaN 10 ++ Fin 4 :: Fin x :: repeat NaN 8; repeat NaN 20] None.
Lemma spot_field x : in_blanks 10 (spot x) (spot_in x).
Proof. split; [reflexivity|]. split; [|reflexivity]. constructor; [apply Permutation_app_comm|]. constructor; [cbn; apply Permutation_refl|constructor]. Qed.
Lemma spot_sparse x : sparse (spot x).
Proof. intros chan H. cbn [spot ci_chans ci_noise ci_npix] in *. rewrite kept10. destruct H as [<-|[<-|[]]]; cbn; lia. Qed.
Lemma spot_bright x : 0 <= x <= 4 -> bright_cube (spot x) 4.
Proof.
  intros X. split; [cbn; lia|]. split; [unfold proper_cube; cbn; repeat constructor|]. split; [|split; [lra|exact I]].
  split; [cbn; tauto|]. cbn. intros y H. repeat (destruct H as [<-|H]; [lra|]); destruct H.
Qed.
