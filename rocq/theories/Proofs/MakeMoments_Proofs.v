From Coq Require Import String Ascii Reals List Bool Arith Lia Lra.
From Verif Require Import Lib.PyBase Lib.RSum Lib.Fl Model.Units Model.MomentErrs Model.MakeMoments Spec.MomentSpec.
Import ListNotations.
Local Open Scope string_scope.
Local Open Scope R_scope.

Lemma string_app_assoc (a b c : string) : ((a ++ b) ++ c = a ++ b ++ c)%string.
Proof. induction a; simpl; [reflexivity | now rewrite IHa]. Qed.
Lemma app_inv (a b c : string) : (a ++ b = a ++ c)%string -> b = c.
Proof. induction a; simpl; intro H; [assumption |]. injection H. assumption. Qed.
Lemma app_length (a b : string) : String.length (a ++ b) = (String.length a + String.length b)%nat.
Proof. induction a; simpl; [reflexivity | now rewrite IHa]. Qed.
Lemma has_app c a b : has c (a ++ b) = has c a || has c b.
Proof. induction a; simpl; [reflexivity |]. now rewrite IHa, orb_assoc. Qed.
Lemma drop_ext_app stem ext : has "."%char ext = false -> drop_ext (stem ++ String "."%char ext) = stem.
Proof.
  intro H. induction stem as [| x r IH]; simpl; [now rewrite H |]. rewrite has_app. simpl. rewrite orb_true_r. now rewrite IH.
Qed.
Lemma substring_app a b : substring 0 (String.length a) (a ++ b) = a.
Proof. induction a; simpl; [now destruct b |]. now rewrite IHa. Qed.
Lemma cut5_app stem : cut5 (stem ++ ".fits") = stem.
Proof. unfold cut5. rewrite app_length. simpl. replace (String.length stem + 5 - 5)%nat with (String.length stem) by lia. apply substring_app. Qed.
Lemma basename_plain s : has "/"%char s = false -> basename s = s.
Proof. induction s as [| x r IH]; simpl; intro H; [reflexivity |]. apply orb_false_iff in H as [A B]. now rewrite B, A. Qed.
Lemma basename_dir d s : has "/"%char s = false -> basename (d ++ String "/"%char s) = s.
Proof.
  intro H. induction d as [| x r IH]; simpl; [now rewrite H |]. rewrite has_app. simpl. rewrite orb_true_r. exact IH.
Qed.
Lemma prefix_slash s t : has "/"%char s = false -> t <> "" -> prefix "/" t = false -> prefix "/" (s ++ t) = false.
Proof.
  intros H N P. destruct s as [| x r]; [exact P |]. simpl in H. apply orb_false_iff in H as [A _]. cbn [append prefix]. destruct (ascii_dec "/" x) as [E | E]; [| reflexivity].
  subst x. discriminate A.
Qed.
Lemma eqb_app d a b : String.eqb a b = false -> String.eqb (d ++ a) (d ++ b) = false.
Proof. intro H. apply String.eqb_neq. apply String.eqb_neq in H. intro E. apply H. now apply app_inv in E. Qed.
Lemma eqb_len a b : String.length a <> String.length b -> String.eqb a b = false.
Proof. intro H. apply String.eqb_neq. congruence. Qed.

(** C135 *)
Lemma set_scale_ok cu v s : set_scale cu v = Ok s -> valid_scale cu s /\ v = option_map Some s.
Proof.
  destruct v as [[q |] |]; simpl; intro H; try discriminate.
  - destruct (is_equivalent (q_unit q) cu) eqn:E; [| discriminate]. cbn [negb] in H. destruct (Rltb_spec (hd 0 (q_vals q)) 0); [discriminate |].
    assert (s = Some q) by congruence. subst. simpl. repeat split; [assumption | lra].
  - assert (s = None) by congruence. subst. simpl. auto.
Qed.
Lemma set_scale_errors cu v :
  (v = Some None -> set_scale cu v = Err TypeError) /\
  (forall q, v = Some (Some q) -> is_equivalent (q_unit q) cu = false -> set_scale cu v = Err UnitConversionError) /\
  (forall q, v = Some (Some q) -> is_equivalent (q_unit q) cu = true -> hd 0 (q_vals q) < 0 -> set_scale cu v = Err ValueError) /\
  (forall q, v = Some (Some q) -> is_equivalent (q_unit q) cu = true -> 0 <= hd 0 (q_vals q) -> set_scale cu v = Ok (Some q)) /\
  (v = None -> set_scale cu v = Ok None).
Proof.
  split; [now intros -> |]. split; [intros q -> E; simpl; now rewrite E |]. split; [intros q -> E L; simpl; rewrite E; cbn [negb]; destruct (Rltb_spec (hd 0 (q_vals q)) 0); [reflexivity | lra] |].
  split; [| now intros ->]. intros q -> E L; simpl; rewrite E; cbn [negb]; destruct (Rltb_spec (hd 0 (q_vals q)) 0); [lra | reflexivity].
Qed.
Lemma scale_history cu s0 s vs : set_scale cu s0 = Ok s -> valid_scale cu (fold_left (assign_scale cu) vs s).
Proof.
  intro H. apply set_scale_ok in H as [H _]. revert s H. induction vs as [| v vs IH]; intros s H; simpl; [assumption |]. apply IH. unfold assign_scale.
  destruct (set_scale cu v) as [s' |] eqn:E; [now apply set_scale_ok in E as [E _] | assumption].
Qed.
Lemma scale_rejected cu old v e : set_scale cu v = Err e -> assign_scale cu old v = old.
Proof. unfold assign_scale. now intros ->. Qed.

(** C136 *)
Lemma units_false {A S} (a b l : A) (st : moments A S) : snd (make_moments A S a b l false st) = Err AttributeError /\ snd (make_moments A S a b l true st) = Ok tt.
Proof. now split. Qed.
(** C140 *)
Lemma default_name dir stem : default_save (Some (file_name dir stem)) = Some (match dir with None => stem | Some d => d ++ "/" ++ stem end).
Proof.
  unfold default_save, option_map. destruct dir as [d |]; simpl file_name.
  - replace (d ++ String "/"%char (stem ++ ".fits")) with ((d ++ "/" ++ stem) ++ ".fits") by (rewrite !string_app_assoc; reflexivity). now rewrite drop_ext_app.
  - now rewrite drop_ext_app.
Qed.
Lemma root_name dir stem : has "/"%char stem = false -> basename (cut5 (file_name dir stem)) = stem.
Proof.
  intro H. destruct dir as [d |]; simpl file_name.
  - replace (d ++ String "/"%char (stem ++ ".fits")) with ((d ++ "/" ++ stem) ++ ".fits") by (rewrite !string_app_assoc; reflexivity). rewrite cut5_app. now apply basename_dir.
  - rewrite cut5_app. now apply basename_plain.
Qed.
Lemma write_get {A} ow fs fs' n v : write A ow fs n v = Ok fs' -> forall k, fs' k = if String.eqb k n then Some v else fs k.
Proof. unfold write. destruct (fs n); [destruct ow; [| discriminate] |]; intros H k; assert (E : fs' = fun n0 => if String.eqb n0 n then Some v else fs n0) by congruence; now rewrite E. Qed.
Lemma to_fits_get {A S} (st : moments A S) nm ow fs fs' nm' m0 m1 ml e0 e1 el :
  all_moments A S st = Ok [m0; m1; ml] -> all_moment_errs A S st = Ok [e0; e1; el] -> to_fits A S st nm ow fs = Ok (fs', nm') ->
  nm' = match nm with Some n => n | None => match m_save A S st with Some n => n | None => "default" end end /\
  fs' (nm' ++ "_moment0.fits") = Some (m0, e0) /\ fs' (nm' ++ "_centroid.fits") = Some (m1, e1) /\ fs' (nm' ++ "_linewidth.fits") = Some (ml, el) /\
  forall k, k <> nm' ++ "_moment0.fits" -> k <> nm' ++ "_centroid.fits" -> k <> nm' ++ "_linewidth.fits" -> fs' k = fs k.
Proof.
  intros M E H. unfold to_fits in H. rewrite M, E in H. cbn [bind] in H. cbv zeta in H. set (name := match nm with Some n => n | None => _ end) in *.
  destruct (write A ow fs (name ++ "_moment0.fits") (m0, e0)) as [f1 |] eqn:W1; [| discriminate]. cbn [bind] in H.
  destruct (write A ow f1 (name ++ "_centroid.fits") (m1, e1)) as [f2 |] eqn:W2; [| discriminate]. cbn [bind] in H.
  destruct (write A ow f2 (name ++ "_linewidth.fits") (ml, el)) as [f3 |] eqn:W3; [| discriminate]. cbn [bind] in H.
  assert (fs' = f3) by congruence. assert (nm' = name) by congruence. subst fs' nm'. split; [reflexivity |].
  pose proof (write_get _ _ _ _ _ W1) as G1. pose proof (write_get _ _ _ _ _ W2) as G2. pose proof (write_get _ _ _ _ _ W3) as G3.
  split; [| split; [| split]].
  - rewrite G3, (eqb_app name "_moment0.fits" "_linewidth.fits") by reflexivity. rewrite G2, (eqb_app name "_moment0.fits" "_centroid.fits") by reflexivity. rewrite G1. now rewrite String.eqb_refl.
  - rewrite G3, (eqb_app name "_centroid.fits" "_linewidth.fits") by reflexivity. rewrite G2. now rewrite String.eqb_refl.
  - rewrite G3. now rewrite String.eqb_refl.
  - intros k A0 A1 A2. rewrite G3, (proj2 (String.eqb_neq _ _) A2), G2, (proj2 (String.eqb_neq _ _) A1), G1, (proj2 (String.eqb_neq _ _) A0). reflexivity.
Qed.
Lemma join_dir d stem suffix : has "/"%char stem = false -> suffix <> "" -> prefix "/" suffix = false -> ends_slash d = false -> join d (stem ++ suffix) = (d ++ "/" ++ stem) ++ suffix.
Proof. intros H N P E. unfold join. rewrite (prefix_slash _ _ H N P), E. now rewrite !string_app_assoc. Qed.
Lemma join_none stem suffix : join "" (stem ++ suffix) = stem ++ suffix.
Proof. unfold join. now destruct (prefix "/" (stem ++ suffix)). Qed.
Lemma round_trip {A S} (st : moments A S) dir stem ow fs fs' nm m0 m1 ml e0 e1 el :
  has "/"%char stem = false -> match dir with Some d => ends_slash d = false | None => True end ->
  all_moments A S st = Ok [m0; m1; ml] -> all_moment_errs A S st = Ok [e0; e1; el] -> m_save A S st = default_save (Some (file_name dir stem)) ->
  to_fits A S st None ow fs = Ok (fs', nm) ->
  from_fits A fs' (Some (file_name dir stem)) None dir None None None None = Ok ((Some m0, Some e0), (Some m1, Some e1), (Some ml, Some el)).
Proof.
  intros H D M E SV T. destruct (to_fits_get st None ow fs fs' nm m0 m1 ml e0 e1 el M E T) as (N & G0 & G1 & G2 & _). rewrite SV, default_name in N.
  unfold from_fits. cbv zeta. rewrite (root_name dir stem H). cbn [bind].
  assert (J : forall suffix, suffix <> "" -> prefix "/" suffix = false -> join (match dir with None => "" | Some p => p end) (stem ++ suffix) = nm ++ suffix).
  { intros suffix P Q. subst nm. destruct dir as [d |]; [now apply join_dir | apply join_none]. }
  rewrite !J by (discriminate || reflexivity). unfold load. now rewrite G0, G1, G2.
Qed.
Lemma ends_added d : ends_slash (d ++ "/") = true.
Proof. induction d as [|x d IH]; [reflexivity|]. cbn [append ends_slash]. destruct (d ++ "/") eqn:E; [destruct d; discriminate|exact IH]. Qed.
Lemma round_trip_slash {A S} (st : moments A S) d stem ow fs fs' nm m0 m1 ml e0 e1 el :
  has "/"%char stem = false -> all_moments A S st = Ok [m0; m1; ml] -> all_moment_errs A S st = Ok [e0; e1; el] ->
  m_save A S st = default_save (Some (file_name (Some d) stem)) -> to_fits A S st None ow fs = Ok (fs', nm) ->
  from_fits A fs' (Some (file_name (Some d) stem)) None (Some (d ++ "/")) None None None None = Ok ((Some m0, Some e0), (Some m1, Some e1), (Some ml, Some el)).
Proof.
  intros H M E SV T. destruct (to_fits_get st None ow fs fs' nm m0 m1 ml e0 e1 el M E T) as (N & G0 & G1 & G2 & _). rewrite SV, default_name in N.
  unfold from_fits. cbv zeta. rewrite (root_name (Some d) stem H). cbn [bind].
  assert (J : forall suffix, suffix <> "" -> prefix "/" suffix = false -> join (d ++ "/") (stem ++ suffix) = nm ++ suffix).
  { intros suffix P Q. subst nm. unfold join. rewrite (prefix_slash _ _ H P Q), ends_added. now rewrite !string_app_assoc. }
  rewrite !J by (discriminate || reflexivity). unfold load. now rewrite G0, G1, G2.
Qed.
Lemma length_dir d (x : string) : String.length (d ++ "/" ++ x) = (String.length d + 1 + String.length x)%nat.
Proof. rewrite !app_length. simpl. lia. Qed.
Lemma lost {A S} (st : moments A S) d stem ow fs' nm m0 m1 ml e0 e1 el :
  has "/"%char stem = false -> all_moments A S st = Ok [m0; m1; ml] -> all_moment_errs A S st = Ok [e0; e1; el] ->
  m_save A S st = default_save (Some (file_name (Some d) stem)) -> to_fits A S st None ow (fun _ => None) = Ok (fs', nm) ->
  from_fits A fs' (Some (file_name (Some d) stem)) None None None None None None = Ok ((None, None), (None, None), (None, None)).
Proof.
  intros H M E SV T. destruct (to_fits_get st None ow _ fs' nm m0 m1 ml e0 e1 el M E T) as (N & _ & _ & _ & G). rewrite SV, default_name in N.
  unfold from_fits. cbv zeta. rewrite (root_name (Some d) stem H). cbn [bind]. rewrite !join_none. unfold load.
  assert (Z : forall a b, String.length b = 13%nat \/ String.length b = 14%nat \/ String.length b = 15%nat -> has "/"%char b = false -> has "/"%char a = false -> stem ++ a <> nm ++ b).
  { intros a b _ _ HA X. apply (f_equal (has "/"%char)) in X. subst nm. rewrite !has_app in X. rewrite H, HA in X. simpl in X. rewrite orb_true_r in X. discriminate. }
  rewrite !G by (apply Z; auto). reflexivity.
Qed.
Lemma lost_ext {A S} (st : moments A S) x stem ow fs' nm m0 m1 ml e0 e1 el :
  has "/"%char (stem ++ String x "") = false -> all_moments A S st = Ok [m0; m1; ml] -> all_moment_errs A S st = Ok [e0; e1; el] ->
  m_save A S st = default_save (Some ((stem ++ String x "") ++ ".fit")) -> to_fits A S st None ow (fun _ => None) = Ok (fs', nm) ->
  from_fits A fs' (Some ((stem ++ String x "") ++ ".fit")) None None None None None None = Ok ((None, None), (None, None), (None, None)).
Proof.
  intros H M E SV T. destruct (to_fits_get st None ow _ fs' nm m0 m1 ml e0 e1 el M E T) as (N & _ & _ & _ & G). rewrite SV in N. unfold default_save, option_map in N. rewrite drop_ext_app in N by reflexivity.
  unfold from_fits. cbv zeta. assert (C : cut5 ((stem ++ String x "") ++ ".fit") = stem).
  { unfold cut5. rewrite !app_length. simpl. replace (String.length stem + 1 + 4 - 5)%nat with (String.length stem) by lia. rewrite string_app_assoc. apply substring_app. }
  rewrite has_app in H. apply orb_false_iff in H as [H _]. rewrite C, (basename_plain _ H). cbn [bind]. rewrite !join_none. unfold load.
  assert (Z : forall a b, stem ++ a <> nm ++ b \/ stem ++ a = nm ++ b) by (intros a b; destruct (string_dec (stem ++ a) (nm ++ b)); auto).
  assert (Y : forall a b, String x b <> a -> stem ++ a <> nm ++ b).
  { intros a b NE X. subst nm. rewrite string_app_assoc in X. apply app_inv in X. simpl in X. congruence. }
  rewrite !G; [reflexivity | ..]; apply Y; intro X; injection X; discriminate.
Qed.

(** C137 *)
Lemma given_scale_unused {A S} z (err0 err1 errl : string -> S -> result A) (st : moments A S) s : m_mom0 A S st <> None -> m_scale A S st = None ->
  make_moment_errors A S z err0 err1 errl st (Some s) = (st, Ok tt).
Proof. intros M N. unfold make_moment_errors. destruct (m_mom0 A S st); [| now destruct M]. now rewrite N. Qed.
Lemma given_scale_overridden {A S} z (err0 err1 errl : string -> S -> result A) (st : moments A S) s s' : m_scale A S st = Some s' ->
  make_moment_errors A S z err0 err1 errl st (Some s) = make_moment_errors A S z err0 err1 errl st None.
Proof. intro N. unfold make_moment_errors. destruct (m_mom0 A S st); [| reflexivity]. now rewrite N. Qed.
Lemma own_scale {A S} z (err0 err1 errl : string -> S -> result A) (st : moments A S) s a0 a1 al : m_mom0 A S st <> None -> m_scale A S st = Some s ->
  err0 (m_how A S st) s = Ok a0 -> err1 (m_how A S st) s = Ok a1 -> errl (m_how A S st) s = Ok al ->
  exists st', make_moment_errors A S z err0 err1 errl st None = (st', Ok tt) /\ all_moment_errs A S st' = Ok [a0; a1; al] /\ all_moments A S st' = all_moments A S st.
Proof.
  intros M N H0 H1 H2. unfold make_moment_errors. destruct (m_mom0 A S st) eqn:E; [| now destruct M]. rewrite N, H0. cbn [m_how]. rewrite H1. cbn [m_how]. rewrite H2.
  eexists. split; [reflexivity |]. split; [reflexivity |]. unfold all_moments. cbn [m_mom0 m_mom1 m_lw]. now rewrite E.
Qed.
Lemma no_scale {A S} (z0 z1 zl : A) (err0 err1 errl : string -> S -> result A) (st : moments A S) : m_mom0 A S st <> None -> m_scale A S st = None ->
  exists st', make_moment_errors A S (z0, z1, zl) err0 err1 errl st None = (st', Ok tt) /\ all_moment_errs A S st' = Ok [z0; z1; zl].
Proof. intros M N. unfold make_moment_errors. destruct (m_mom0 A S st) eqn:E; [| now destruct M]. rewrite N. eexists. split; reflexivity. Qed.
Lemma too_early {A S} z (err0 err1 errl : string -> S -> result A) (st : moments A S) s : m_mom0 A S st = None -> make_moment_errors A S z err0 err1 errl st s = (st, Err ValueError).
Proof. intro N. unfold make_moment_errors. now rewrite N. Qed.
(** C139 *)
Lemma ray_fails strat c axis z err1 errl (st : moments (arr2 fl) noise) s given : m_mom0 _ _ st <> None -> m_scale _ _ st = Some s -> m_how _ _ st = "ray" ->
  make_moment_errors _ _ z (fun how s => moment0_error strat c s axis how) err1 errl st given = (st, Err ValueError).
Proof. intros M N R. unfold make_moment_errors. destruct (m_mom0 _ _ st) eqn:E; [| now destruct M]. rewrite N, R. reflexivity. Qed.

(** C142 *)
Lemma lsum_prod {A B} (f : A * B -> R) l m : lsum (map f (list_prod l m)) = lsum (map (fun a => lsum (map (fun b => f (a, b)) m)) l).
Proof.
  induction l as [| a l IH]; [reflexivity |]. simpl list_prod. rewrite map_app, map_map. simpl map at 3. rewrite lsum_app, lsum_cons, IH. reflexivity.
Qed.
Lemma gauss_total s y z : fold_right Rplus 0 (gauss_list s y z)
  = rsum (2 * s + 1) (fun i => rsum (2 * y + 1) (fun j => rsum (2 * z + 1) (fun k => gauss s y z i j k))).
Proof.
  change (fold_right Rplus 0 (gauss_list s y z)) with (lsum (gauss_list s y z)). unfold gauss_list. rewrite lsum_prod, lsum_prod. rewrite rsum_lsum. apply f_equal. apply map_ext. intro i.
  rewrite rsum_lsum. apply f_equal. apply map_ext. intro j. rewrite rsum_lsum. reflexivity.
Qed.
Lemma gauss_pos s y z i j k : 0 < gauss s y z i j k.
Proof. apply exp_pos. Qed.
Lemma gauss_total_pos s y z : 0 < fold_right Rplus 0 (gauss_list s y z).
Proof.
  rewrite gauss_total. apply rsum_pos; [lia |]. intros i _. apply rsum_pos; [lia |]. intros j _. apply rsum_pos; [lia |]. intros. apply gauss_pos.
Qed.
Lemma kern_pos size y z i j k : 0 < gauss_kern size y z i j k.
Proof. unfold gauss_kern. cbv zeta. apply Rdiv_lt_0_compat; [apply gauss_pos | apply gauss_total_pos]. Qed.
Lemma kern_sum size y z : rsum (2 * size + 1) (fun i => rsum (2 * kern_size size y + 1) (fun j => rsum (2 * kern_size size z + 1) (fun k => gauss_kern size y z i j k))) = 1.
Proof.
  unfold gauss_kern. cbv zeta. pose proof (gauss_total_pos size (kern_size size y) (kern_size size z)) as T. set (t := fold_right Rplus 0 _) in *.
  transitivity (rsum (2 * size + 1) (fun i => rsum (2 * kern_size size y + 1) (fun j => rsum (2 * kern_size size z + 1) (fun k => gauss size (kern_size size y) (kern_size size z) i j k))) / t).
  - rewrite <- rsum_div. apply rsum_ext. intros i _. rewrite <- rsum_div. apply rsum_ext. intros j _. now rewrite <- rsum_div.
  - rewrite <- gauss_total. fold t. unfold Rdiv. apply Rinv_r. lra.
Qed.
Lemma offset_mirror s i : (i <= 2 * s)%nat -> offset s (2 * s - i) = - offset s i.
Proof. intro H. unfold offset. rewrite minus_INR by assumption. rewrite mult_INR. simpl. ring. Qed.
Lemma kern_mirror size y z i j k : (i <= 2 * size)%nat -> (j <= 2 * kern_size size y)%nat -> (k <= 2 * kern_size size z)%nat ->
  gauss_kern size y z (2 * size - i) (2 * kern_size size y - j) (2 * kern_size size z - k) = gauss_kern size y z i j k.
Proof.
  intros I J K. unfold gauss_kern. cbv zeta. apply (f_equal (fun x => x / _)). unfold gauss. rewrite !offset_mirror by assumption. apply (f_equal exp). apply (f_equal Ropp).
  replace ((- offset size i) ^ 2) with (offset size i ^ 2) by ring. replace ((- offset (kern_size size y) j) ^ 2) with (offset (kern_size size y) j ^ 2) by ring.
  replace ((- offset (kern_size size z) k) ^ 2) with (offset (kern_size size z) k ^ 2) by ring. reflexivity.
Qed.
Lemma sq_div_nonneg x n : (0 < n)%nat -> 0 <= x ^ 2 / INR n.
Proof. intro H. apply Rmult_le_pos; [apply pow2_ge_0 |]. left. apply Rinv_0_lt_compat. now apply lt_0_INR. Qed.
Lemma kern_size_pos size g : (0 < size)%nat -> (0 < kern_size size g)%nat.
Proof. intro H. destruct g as [[| n] |]; simpl; lia. Qed.
Lemma kern_peak size y z i j k : (0 < size)%nat -> gauss_kern size y z i j k <= gauss_kern size y z size (kern_size size y) (kern_size size z).
Proof.
  intro S. pose proof (kern_size_pos size y S) as Y. pose proof (kern_size_pos size z S) as Z. unfold gauss_kern. cbv zeta.
  apply Rmult_le_compat_r; [left; apply Rinv_0_lt_compat, gauss_total_pos |]. unfold gauss.
  assert (O : forall n, offset n n = 0) by (intro; unfold offset; ring). rewrite !O.
  pose proof (sq_div_nonneg (offset size i) size S). pose proof (sq_div_nonneg (offset (kern_size size y) j) _ Y). pose proof (sq_div_nonneg (offset (kern_size size z) k) _ Z).
  assert (E : forall n, 0 ^ 2 / INR n = 0) by (intro; unfold Rdiv; simpl; ring). rewrite !E.
  match goal with |- exp ?a <= exp ?b => destruct (Req_dec a b) as [-> | N]; [lra | left; apply exp_increasing; lra] end.
Qed.

From Verif Require Import Proofs.MomentErrs_Proofs Proofs.MomentErrs2_Proofs.
Lemma demo_included : included demo_cube 0 1 1 0 /\ forall i, ~ included demo_cube 0 i 0 1.
Proof. split; [split; [simpl; lia | reflexivity] |]. intros i [_ H]. discriminate H. Qed.
Lemma demo_err0 how : how = "slice" \/ how = "cube" -> exists e, moment0_error "cube" demo_cube (Level (Fin 2)) 0 how = Ok e /\ e 1%nat 0%nat = Fin 2.
Proof.
  intro H. destruct (err0_formula "cube" demo_cube 0 (Level (Fin 2)) how 1 0) as (e & E & V); [now split | now exists 2 | exact I | exact H | exists 1%nat; apply demo_included |].
  exists e. split; [exact E |]. rewrite V. apply (f_equal Fin). cbn. replace (0 + 0 + Rsqr 2 + 0) with (Rsqr 2) by ring. rewrite sqrt_Rsqr by lra. ring.
Qed.
Lemma demo_noise : settled (Level (Fin 2)) /\ proper (Level (Fin 2)) /\ fits_cube demo_cube (Level (Fin 2)) /\ (forall p q, 0 <= c_pix_size demo_cube 0 p q) /\ in_image demo_cube 0 1 0 /\ (forall i j k, no_inf (c_filled demo_cube i j k)).
Proof.
  split; [split; discriminate |]. split; [now exists 2 |]. split; [exact I |]. split; [intros; simpl; lra |]. split; [split; simpl; lia |]. intros i j k. split; discriminate.
Qed.
Lemma demo_err1 : exists e, moment1_error "cube" demo_cube (Level (Fin 2)) 0 "slice" 0 (fun _ _ => Fin 6) (fun _ _ => Fin 1) = Ok e /\ e 1%nat 0%nat = Fin (sqrt (2 / 9)).
Proof.
  destruct demo_noise as (S & P & F & _ & II & _).
  destruct (err1_formula "cube" demo_cube (Level (Fin 2)) "slice" 0 (fun _ _ => Fin 6) (fun _ _ => Fin 1) 1 0 6 1 S P F (or_introl eq_refl) II eq_refl) as (e & E & V); [lra | reflexivity | simpl; lra |].
  exists e. split; [exact E |]. rewrite V. apply (f_equal Fin). apply (f_equal sqrt). cbn. unfold Rsqr. field.
Qed.
Lemma header0 cu sp : sp <> (0, 0)%nat -> nth 0 (header_units cu sp) (9, 9)%nat <> (fst cu + fst sp, snd cu + snd sp)%nat.
Proof. destruct cu as [a b], sp as [c d]. simpl. intros H E. apply H. injection E. intros. f_equal; lia. Qed.
Lemma units_false_state {A S} (a b l : A) (st : moments A S) : let st' := fst (make_moments A S a b l false st) in
  m_mom0 A S st' = Some (a, false) /\ m_mom1 A S st' = Some (b, false) /\ m_lw A S st' = Some (l, true).
Proof. now repeat split. Qed.
Lemma no_overwrite {A S} (st : moments A S) nm fs suffix : let name := match nm with Some n => n | None => match m_save A S st with Some n => n | None => "default" end end in
  In suffix ["_moment0.fits"; "_centroid.fits"; "_linewidth.fits"] -> fs (name ++ suffix) <> None -> is_ok (to_fits A S st nm false fs) = false.
Proof.
  intros name I N. destruct (to_fits A S st nm false fs) as [[fs' n] |] eqn:T; [| reflexivity]. exfalso. unfold to_fits in T. cbv zeta in T. fold name in T.
  destruct (all_moments A S st) as [ms |]; cbn [bind] in T; [| discriminate]. destruct (all_moment_errs A S st) as [es |]; cbn [bind] in T; [| discriminate].
  destruct ms as [| m0 [| m1 [| ml [| ? ?]]]]; try discriminate. destruct es as [| e0 [| e1 [| el [| ? ?]]]]; try discriminate.
  assert (K : forall g h v w, write A false g h v = Ok w -> g h = None) by (intros g h v w; unfold write; destruct (g h); [discriminate | reflexivity]).
  destruct (write A false fs (name ++ "_moment0.fits") (m0, e0)) as [f1 |] eqn:W1; [| discriminate]. cbn [bind] in T.
  destruct (write A false f1 (name ++ "_centroid.fits") (m1, e1)) as [f2 |] eqn:W2; [| discriminate]. cbn [bind] in T.
  destruct (write A false f2 (name ++ "_linewidth.fits") (ml, el)) as [f3 |] eqn:W3; [| discriminate]. clear T.
  pose proof (write_get _ _ _ _ _ W1) as G1. pose proof (write_get _ _ _ _ _ W2) as G2. apply K in W1. apply K in W2. apply K in W3.
  rewrite G1, (eqb_app name "_centroid.fits" "_moment0.fits") in W2 by reflexivity.
  rewrite G2, (eqb_app name "_linewidth.fits" "_centroid.fits") in W3 by reflexivity. rewrite G1, (eqb_app name "_linewidth.fits" "_moment0.fits") in W3 by reflexivity.
  destruct I as [<- | [<- | [<- | []]]]; contradiction.
Qed.
Lemma others_kept {A S} (st : moments A S) nm ow fs fs' n : to_fits A S st nm ow fs = Ok (fs', n) ->
  forall k, k <> n ++ "_moment0.fits" -> k <> n ++ "_centroid.fits" -> k <> n ++ "_linewidth.fits" -> fs' k = fs k.
Proof.
  intro T. destruct (all_moments A S st) as [ms |] eqn:M; [| unfold to_fits in T; rewrite M in T; discriminate].
  destruct (all_moment_errs A S st) as [es |] eqn:E; [| unfold to_fits in T; rewrite M, E in T; discriminate].
  destruct ms as [| m0 [| m1 [| ml [| ? ?]]]]; try (unfold to_fits in T; rewrite M, E in T; discriminate).
  destruct es as [| e0 [| e1 [| el [| ? ?]]]]; try (unfold to_fits in T; rewrite M, E in T; discriminate).
  apply (to_fits_get st nm ow fs fs' n m0 m1 ml e0 e1 el M E T).
Qed.
Lemma errors_needed {A S} (st : moments A S) nm ow fs : m_err0 A S st = None -> m_mom0 A S st <> None -> m_mom1 A S st <> None -> m_lw A S st <> None -> to_fits A S st nm ow fs = Err AttributeError.
Proof.
  intros E M0 M1 M2. unfold to_fits, all_moments, all_moment_errs. destruct (m_mom0 A S st); [| contradiction]. destruct (m_mom1 A S st); [| contradiction]. destruct (m_lw A S st); [| contradiction]. now rewrite E.
Qed.
