(** The spectral correlation function of cubes seen from another side (C306). *)
From Coq Require Import String Reals List ZArith Arith Bool Lia Lra Permutation.
From Verif Require Import Lib.PyBase Lib.Arr Lib.Fl Lib.RSum Lib.Bins Spec.Blank Spec.Correlation Spec.Freq Spec.ScfSpectrum Spec.Turned
  Model.StatsUtils Model.Psds Model.Scf Model.EllipPlaw Model.ScfSpectrum
  Proofs.Psds_Proofs Proofs.Scf_Proofs Proofs.Scf2_Proofs Proofs.Orders_Proofs Proofs.Turned_Proofs.
Import ListNotations.
Local Open Scope R_scope.

(** ** One lag *)
Lemma scf_spec_perm nz l l' : Permutation l l' -> scf_spec nz l = scf_spec nz l'.
Proof.
  intros P. unfold scf_spec.
  assert (Q : Permutation (flat_map (fun dt => spec_ratio nz (fst dt) (snd dt)) l) (flat_map (fun dt => spec_ratio nz (fst dt) (snd dt)) l'))
    by now apply Permutation_flat_map.
  set (a := flat_map _ l) in *. set (b := flat_map _ l') in *. clearbody a b.
  assert (M : rmean a = rmean b) by (unfold rmean; now rewrite (lsum_perm _ _ Q), (Permutation_length Q)).
  destruct a as [|x a].
  - apply Permutation_nil in Q. now subst.
  - destruct b as [|y b]; [apply Permutation_sym, Permutation_nil in Q; discriminate|]. now rewrite M.
Qed.

(** The lags of a boundary: the multiple of the lag, and the pixels that have a partner *)
Definition law (b : string) (m : Z) (D : nat -> Z -> list nat) (ok : nat -> Z -> Prop) : Prop :=
  (forall n s p, In p (D n s) -> (p < n)%nat) /\
  (forall n s, Permutation (map (fun p => (n - 1 - p)%nat) (D n (- s)%Z)) (D n s)) /\
  (forall nz ny nx cube sx sy, cube_ok nz ny nx cube -> ok ny sx -> ok nx sy ->
    scf_value nz ny nx cube b (IZR sx) (IZR sy) = Ok (scf_spec nz (pairs_at ny nx cube (m * sx) (m * sy) (D ny sx) (D nx sy)))).

Lemma mirror_seq n : map (fun p => (n - 1 - p)%nat) (seq 0 n) = rev (seq 0 n).
Proof.
  apply (nth_ext _ _ 0%nat 0%nat); [now rewrite map_length, rev_length|]. intros k Hk. rewrite map_length, seq_length in Hk.
  rewrite rev_nth by now rewrite seq_length. rewrite seq_length, !seq_nth by lia.
  rewrite (nth_indep _ 0%nat (n - 1 - 0)%nat) by now rewrite map_length, seq_length.
  rewrite (map_nth (fun p => (n - 1 - p)%nat)), seq_nth by lia. lia.
Qed.
Lemma mirror_perm n : Permutation (map (fun p => (n - 1 - p)%nat) (seq 0 n)) (seq 0 n).
Proof. rewrite mirror_seq. apply Permutation_sym, Permutation_rev. Qed.

Lemma law_continuous : law "continuous" 1 (fun n _ => seq 0 n) (fun _ _ => True).
Proof.
  split; [intros n s p H; apply in_seq in H; lia|]. split; [intros n _; apply mirror_perm|].
  intros nz ny nx cube sx sy H _ _. rewrite scf_formula by exact H. now rewrite !Z.mul_1_l.
Qed.
Lemma filter_map_comm {A B} (f : A -> B) (p : B -> bool) l : filter p (map f l) = map f (filter (fun a => p (f a)) l).
Proof. induction l as [|a l IH]; [reflexivity|]. cbn. destruct (p (f a)); cbn; now rewrite IH. Qed.
Lemma law_cut : law "cut" 2 partner_inside (fun n s => (Z.abs s <= Z.of_nat n)%Z).
Proof.
  split; [intros n s p H; now apply in_partner_inside in H|]. split.
  - intros n s. unfold partner_inside at 2. rewrite <- (filter_perm _ _ _ (mirror_perm n)), filter_map_comm. apply Permutation_refl'. apply f_equal.
    unfold partner_inside. apply filter_ext_in. intros p H. apply in_seq in H. apply eq_true_iff_eq. rewrite !andb_true_iff, !Z.leb_le, !Z.ltb_lt. lia.
  - intros. now apply scf_cut_law.
Qed.

Lemma mirror_partner n s p : (p < n)%nat -> (n - 1 - partner n s p)%nat = partner n (- s) (n - 1 - p).
Proof.
  intros H. unfold partner. pose proof (Z.mod_pos_bound (Z.of_nat p - s) (Z.of_nat n) ltac:(lia)) as B.
  apply Nat2Z.inj. rewrite Z2Nat.id by (apply Z.mod_pos_bound; lia). rewrite Nat2Z.inj_sub by lia. rewrite Z2Nat.id by lia.
  rewrite (Zmod_unique (Z.of_nat (n - 1 - p) - - s) (Z.of_nat n) (- ((Z.of_nat p - s) / Z.of_nat n)) (Z.of_nat (n - 1) - (Z.of_nat p - s) mod Z.of_nat n)); [reflexivity|lia|].
  pose proof (Z.div_mod (Z.of_nat p - s) (Z.of_nat n) ltac:(lia)). lia.
Qed.

Section Lag.
  Variables (b : string) (m : Z) (D : nat -> Z -> list nat) (ok : nat -> Z -> Prop).
  Hypothesis L : law b m D ok.
  Hypothesis ok_neg : forall n s, ok n s -> ok n (- s)%Z.

  Lemma list_prod_map_l {A B C} (f : A -> C) (l : list A) (r : list B) : map (fun p => (f (fst p), snd p)) (list_prod l r) = list_prod (map f l) r.
  Proof. induction l as [|a l IH]; [reflexivity|]. cbn [list_prod map]. rewrite map_app, IH, !map_map. reflexivity. Qed.

  Lemma value_swapped nz ny nx cube sx sy : cube_ok nz ny nx cube -> ok ny sx -> ok nx sy ->
    scf_value nz nx ny (fun z => axes_swapped (cube z)) b (IZR sy) (IZR sx) = scf_value nz ny nx cube b (IZR sx) (IZR sy).
  Proof.
    intros H Hx Hy. destruct L as [_ [_ V]]. rewrite (V nz ny nx cube), (V nz nx ny) by (try assumption; intros z y x Hz Hy' Hx'; now apply H).
    apply (f_equal Ok), scf_spec_perm. unfold pairs_at. rewrite <- (list_prod_swap (D nx sy) (D ny sx)), map_map. reflexivity.
  Qed.
  Lemma value_left_right nz ny nx cube sx sy : cube_ok nz ny nx cube -> ok ny sx -> ok nx sy ->
    scf_value nz ny nx (fun z => left_right nx (cube z)) b (IZR sx) (IZR sy) = scf_value nz ny nx cube b (IZR sx) (- IZR sy).
  Proof.
    intros H Hx Hy. destruct L as [I [P V]]. rewrite <- opp_IZR. rewrite !V by (auto; intros z y x Hz Hy' Hx'; apply H; lia).
    apply (f_equal Ok), scf_spec_perm. unfold pairs_at.
    rewrite <- (list_prod_perm_r (D ny sx) _ _ (P nx (- sy)%Z)), Z.opp_involutive, <- list_prod_map_r, map_map. apply Permutation_refl', map_ext_in.
    intros [y x] Hp. apply in_prod_iff in Hp. destruct Hp as [_ Px]. apply I in Px. cbn [fst snd]. unfold left_right. rewrite mirror_partner by exact Px.
    replace (- (m * sy))%Z with (m * - sy)%Z by lia. reflexivity.
  Qed.
  Lemma value_up_down nz ny nx cube sx sy : cube_ok nz ny nx cube -> ok ny sx -> ok nx sy ->
    scf_value nz ny nx (fun z => up_down ny (cube z)) b (IZR sx) (IZR sy) = scf_value nz ny nx cube b (- IZR sx) (IZR sy).
  Proof.
    intros H Hx Hy. change (fun z => up_down ny (cube z)) with (fun z => axes_swapped (left_right ny (axes_swapped (cube z)))).
    rewrite (value_swapped nz nx ny (fun z => left_right ny (axes_swapped (cube z)))) by (try assumption; intros z y x Hz Hy' Hx'; apply H; lia).
    rewrite (value_left_right nz nx ny (fun z => axes_swapped (cube z))) by (try assumption; intros z y x Hz Hy' Hx'; apply H; lia).
    rewrite <- opp_IZR. rewrite (value_swapped nz ny nx cube) by auto. reflexivity.
  Qed.
End Lag.

(** ** The surface *)
Lemma surface_of_values nz ny nx cube lags b v : (b = "continuous" \/ b = "cut")%string ->
  (forall sx sy, In sx lags -> In sy lags -> scf_value nz ny nx cube b sx sy = Ok (v sx sy)) ->
  compute_surface nz ny nx cube lags b = Ok (map (fun sy => map (fun sx => v sx sy) lags) lags).
Proof.
  intros B H. unfold compute_surface. replace (String.eqb b "continuous" || String.eqb b "cut")%bool with true by (destruct B as [-> | ->]; reflexivity). cbn [negb].
  apply sequence_map_ok. intros sy Hy. apply sequence_map_ok. intros sx Hx. now apply H.
Qed.
Lemma law_of b lags ny nx : pixel_lags lags -> allowed b lags ny nx -> exists m D ok, law b m D ok /\ (forall n s, ok n s -> ok n (- s)%Z) /\
  (b = "continuous" \/ b = "cut")%string /\ (forall l, In l lags -> exists k, l = IZR k /\ ok ny k /\ ok nx k).
Proof.
  intros [W _] [->|[-> A]].
  - exists 1%Z, (fun n _ => seq 0 n), (fun _ _ => True). split; [exact law_continuous|]. split; [auto|]. split; [now left|]. intros l Hl. destruct (W l Hl) as [k ->]. now exists k.
  - exists 2%Z, partner_inside, (fun n s => (Z.abs s <= Z.of_nat n)%Z). split; [exact law_cut|]. split; [intros n s H; lia|]. split; [now right|].
    intros l Hl. destruct (W l Hl) as [k ->]. specialize (A _ Hl). rewrite <- abs_IZR, INR_IZR_INZ in A. apply le_IZR in A. exists k. split; [reflexivity|]. lia.
Qed.
Theorem turned_surface : forall nz ny nx cube lags b, cube_ok nz ny nx cube -> pixel_lags lags -> allowed b lags ny nx ->
  exists v, compute_surface nz ny nx cube lags b = Ok (map (fun sy => map (fun sx => v sx sy) lags) lags) /\
    compute_surface nz ny nx (fun z => left_right nx (cube z)) lags b = Ok (rev (map (fun sy => map (fun sx => v sx sy) lags) lags)) /\
    compute_surface nz ny nx (fun z => up_down ny (cube z)) lags b = Ok (map (@rev fl) (map (fun sy => map (fun sx => v sx sy) lags) lags)) /\
    compute_surface nz nx ny (fun z => axes_swapped (cube z)) lags b = Ok (map (fun sy => map (fun sx => v sy sx) lags) lags).
Proof.
  intros nz ny nx cube lags b H W A. destruct (law_of b lags ny nx W A) as [m [D [ok [L [N [B K]]]]]]. destruct W as [W S].
  set (v := fun sx sy => match scf_value nz ny nx cube b sx sy with Ok x => x | Err _ => NaN end). exists v.
  assert (V : forall sx sy, In sx lags -> In sy lags -> scf_value nz ny nx cube b sx sy = Ok (v sx sy)).
  { intros sx sy Hx Hy. destruct (K sx Hx) as [x [-> [X1 X2]]]. destruct (K sy Hy) as [y [-> [Y1 Y2]]]. unfold v. destruct L as [_ [_ V]]. now rewrite V. }
  assert (O : forall l, In l lags -> In (- l) lags) by (intros l Hl; apply in_rev; rewrite S; now apply in_map).
  split; [|split; [|split]].
  - now apply surface_of_values.
  - rewrite <- map_rev, S, map_map. apply (surface_of_values nz ny nx _ lags b (fun sx sy => v sx (- sy)) B). intros sx sy Hx Hy.
    rewrite <- V by auto. destruct (K sx Hx) as [x [-> [X1 X2]]]. destruct (K sy Hy) as [y [-> [Y1 Y2]]]. now apply (value_left_right b m D ok L N).
  - rewrite map_map. rewrite (map_ext _ (fun sy => map (fun sx => v (- sx) sy) lags)) by (intros sy; rewrite <- map_rev, S, map_map; reflexivity).
    apply (surface_of_values nz ny nx _ lags b (fun sx sy => v (- sx) sy) B). intros sx sy Hx Hy.
    rewrite <- V by auto. destruct (K sx Hx) as [x [-> [X1 X2]]]. destruct (K sy Hy) as [y [-> [Y1 Y2]]]. now apply (value_up_down b m D ok L N).
  - apply (surface_of_values nz nx ny _ lags b (fun sx sy => v sy sx) B). intros sx sy Hx Hy.
    rewrite <- V by auto. destruct (K sx Hx) as [x [-> [X1 X2]]]. destruct (K sy Hy) as [y [-> [Y1 Y2]]]. now apply (value_swapped b m D ok L).
Qed.

(** ** The profile of a surface *)
Definition surf_points (n : nat) (s : list (list fl)) : list (R * fl) := map (fun p => (dists n n (fst p) (snd p), at2 NaN s (fst p) (snd p))) (pixels n n).
Lemma surf_samples n s : (let sel := filter (fun p => Fl.is_fin (at2 NaN s (fst p) (snd p)) && true) (pixels n n) in
   combine (map (fun p => dists n n (fst p) (snd p)) sel) (map (fun p => at2 NaN s (fst p) (snd p)) sel)) = filter (fun q => Fl.is_fin (snd q) && true) (surf_points n s).
Proof. cbv zeta. rewrite combine_maps. unfold surf_points. rewrite filter_map_comm. reflexivity. Qed.
Lemma square_hd n (s : list (list fl)) : (1 <= n)%nat -> square_array n s -> length s = n /\ length (hd [] s) = n.
Proof. intros Hn [E F]. split; [exact E|]. destruct s as [|r s]; [cbn in E; lia|]. apply F. now left. Qed.
Lemma profile_surf tppf n s s' nbins binsize maxb minb dt : (1 <= n)%nat -> square_array n s -> square_array n s' -> Permutation (surf_points n s) (surf_points n s') ->
  pspec tppf s nbins true binsize false maxb minb false None dt nanmean = pspec tppf s' nbins true binsize false maxb minb false None dt nanmean.
Proof.
  intros Hn A A' P. destruct (square_hd n s Hn A) as [E1 E2]. destruct (square_hd n s' Hn A') as [E3 E4].
  unfold pspec. rewrite E1, E2, E3, E4. cbv zeta. cbn [bind negb andb]. rewrite !orb_false_r. destruct (Nat.eqb (length (pixels n n)) 0); [reflexivity|].
  set (edges := linspace _ _ _).
  assert (Q := filter_perm (fun q => Fl.is_fin (snd q) && true) _ _ P). rewrite <- !surf_samples in Q. cbv zeta in Q.
  rewrite (binned_perm nanmean edges _ _ _ _ nanmean_perm Q), (binned_perm (@length fl) edges _ _ _ _ (@Permutation_length fl) Q), (binned_perm nanstd1 edges _ _ _ _ nanstd_perm Q).
  reflexivity.
Qed.

Lemma dists_mirror_x n j i : Nat.odd n = true -> (i < n)%nat -> dists n n j (n - 1 - i) = dists n n j i.
Proof.
  intros O H. apply Nat.odd_spec in O. destruct O as [h E]. unfold dists, radial_x. f_equal. f_equal.
  assert (n / 2 = h)%nat as -> by (rewrite E, Nat.add_comm, Nat.mul_comm, Nat.div_add by lia; reflexivity).
  rewrite !minus_INR by lia. rewrite E, plus_INR, mult_INR. cbn [INR]. ring.
Qed.
Lemma dists_mirror_y n j i : Nat.odd n = true -> (j < n)%nat -> dists n n (n - 1 - j) i = dists n n j i.
Proof. intros O H. rewrite <- (dists_swapped n n), (dists_mirror_x n i j O H). apply dists_swapped. Qed.

Lemma rev_points n s : Nat.odd n = true -> square_array n s -> Permutation (surf_points n (rev s)) (surf_points n s).
Proof.
  intros O [E F]. unfold surf_points.
  transitivity (map (fun p => (dists n n (fst p) (snd p), at2 NaN s (fst p) (snd p))) (map (fun p => ((n - 1 - fst p)%nat, snd p)) (pixels n n))).
  - rewrite map_map. apply Permutation_refl', map_ext_in. intros [j i] H. apply in_pixels in H. cbn [fst snd].
    rewrite dists_mirror_y by tauto. unfold at2. rewrite rev_nth by (rewrite E; tauto). rewrite E. do 3 f_equal. lia.
  - apply Permutation_map. unfold pixels at 1. rewrite (list_prod_map_l (fun j => (n - 1 - j)%nat)).
    rewrite <- (list_prod_swap (seq 0 n) (map (fun j => (n - 1 - j)%nat) (seq 0 n))). unfold pixels. rewrite <- (list_prod_swap (seq 0 n) (seq 0 n)).
    apply Permutation_map, list_prod_perm_r, mirror_perm.
Qed.
Lemma map_rev_points n s : Nat.odd n = true -> square_array n s -> Permutation (surf_points n (map (@rev fl) s)) (surf_points n s).
Proof.
  intros O [E F]. unfold surf_points.
  transitivity (map (fun p => (dists n n (fst p) (snd p), at2 NaN s (fst p) (snd p))) (map (fun p => (fst p, (n - 1 - snd p)%nat)) (pixels n n))).
  - rewrite map_map. apply Permutation_refl', map_ext_in. intros [j i] H. apply in_pixels in H. cbn [fst snd].
    rewrite dists_mirror_x by tauto. unfold at2. change (@nil fl) with (rev (@nil fl)) at 1. rewrite map_nth.
    assert (Hr : length (nth j s []) = n) by (apply F, nth_In; rewrite E; tauto). rewrite rev_nth by (rewrite Hr; tauto). rewrite Hr. do 2 f_equal. lia.
  - apply Permutation_map. unfold pixels at 1. rewrite (list_prod_map_r (fun i => (n - 1 - i)%nat)). apply list_prod_perm_r, mirror_perm.
Qed.
Lemma swapped_points (v : R -> R -> fl) lags : Permutation (surf_points (length lags) (map (fun sy => map (fun sx => v sy sx) lags) lags))
  (surf_points (length lags) (map (fun sy => map (fun sx => v sx sy) lags) lags)).
Proof.
  unfold surf_points.
  transitivity (map (fun p => (dists (length lags) (length lags) (fst p) (snd p), at2 NaN (map (fun sy => map (fun sx => v sx sy) lags) lags) (fst p) (snd p)))
    (map (fun p => (snd p, fst p)) (pixels (length lags) (length lags)))).
  - rewrite map_map. apply Permutation_refl', map_ext_in. intros [j i] H. apply in_pixels in H. cbn [fst snd]. rewrite dists_swapped. f_equal.
    unfold at2. rewrite (nth2_map (fun sx sy => v sy sx) lags NaN 0), (nth2_map (fun sx sy => v sx sy) lags NaN 0) by tauto. reflexivity.
  - apply Permutation_map, list_prod_swap.
Qed.
Lemma surf_square (v : R -> R -> fl) lags : square_array (length lags) (map (fun sy => map (fun sx => v sx sy) lags) lags).
Proof. split; [apply map_length|]. intros r H. apply in_map_iff in H. destruct H as [y [<- _]]. apply map_length. Qed.
Lemma rev_square {A} n (s : list (list A)) : square_array n s -> square_array n (rev s).
Proof. intros [E F]. split; [now rewrite rev_length|]. intros r H. apply F. now apply in_rev. Qed.
Lemma map_rev_square {A} n (s : list (list A)) : square_array n s -> square_array n (map (@rev A) s).
Proof. intros [E F]. split; [now rewrite map_length|]. intros r H. apply in_map_iff in H. destruct H as [x [<- Hx]]. rewrite rev_length. now apply F. Qed.

(** ** A run *)
Lemma run_surf tppf wls solve perms o o' a s s' : s_roll_lags o' = s_roll_lags o -> s_azim_mask o = None ->
  Nat.odd (length (s_roll_lags o)) = true -> s_fit2D o' = s_fit2D o ->
  do_surface o (a_boundary a) = Ok (set_surface o s) -> do_surface o' (a_boundary a) = Ok (set_surface o' s') ->
  square_array (length (s_roll_lags o)) s -> square_array (length (s_roll_lags o)) s' ->
  Permutation (surf_points (length (s_roll_lags o)) s') (surf_points (length (s_roll_lags o)) s) ->
  k_theta_0 (a_spec a) = None -> a_fit_2D a = false ->
  same_scf_run (do_run tppf wls solve perms o' a) (do_run tppf wls solve perms o a).
Proof.
  intros R M O F2 S S' A A' P T F. unfold do_run. rewrite S, S', F. cbn [bind]. unfold do_spectrum. cbn [set_surface s_surface bind s_roll_lags s_azim_mask s_nz s_ny s_nx s_cube s_fit s_fit2D]. rewrite T.
  assert (Hn : (1 <= length (s_roll_lags o))%nat) by (apply Nat.odd_spec in O; destruct O; lia).
  rewrite (profile_surf tppf _ _ _ _ _ _ _ _ Hn A' A P). destruct (pspec tppf s _ _ _ _ _ _ _ _ _ _) as [out|e]; [|reflexivity]. cbn [bind]. rewrite R.
  destruct (s_roll_lags o) as [|x [|y l]]; [reflexivity|reflexivity|]. cbn [bind]. unfold do_fit. cbn [s_lags s_spectrum s_stddev s_nz s_ny s_nx s_cube s_roll_lags s_surface s_azim_mask s_fit s_fit2D].
  destruct (prof_stddev out) as [sd|]; [|reflexivity].
  destruct (a_xlow a); try reflexivity; destruct (a_xhigh a); try reflexivity; (destruct (Nat.eqb (length _) 0); [reflexivity|]); cbn [bind same_scf_run]; repeat split; reflexivity.
Qed.

Lemma init_lags_odd rl size : init_lags rl size <> [] -> Nat.odd (length (init_lags rl size)) = true.
Proof.
  unfold init_lags. destruct rl as [l|].
  - destruct (Nat.even (length l)) eqn:Ev; [|intros _; now rewrite <- Nat.negb_even, Ev].
    destruct l as [|x l]; [intros N; now elim N|]. intros _. destruct (exists_last (l := x :: l)) as [l' [y E]]; [discriminate|]. rewrite E in *. rewrite removelast_last.
    rewrite app_length in Ev. cbn [length] in Ev. rewrite Nat.add_1_r, Nat.even_succ in Ev. exact Ev.
  - unfold default_lags. cbv zeta. rewrite tab1_length. destruct (Nat.even size) eqn:Ev; [|intros _; now rewrite <- Nat.negb_even, Ev].
    destruct size as [|k]; [intros N; now elim N|]. intros _. replace (S k - 1)%nat with k by lia. now rewrite Nat.even_succ in Ev.
Qed.
Lemma default_pixel_lags size : pixel_lags (default_lags size).
Proof.
  unfold default_lags. cbv zeta. set (n := if Nat.even size then (size - 1)%nat else size).
  assert (O : n = 0%nat \/ exists h, n = (2 * h + 1)%nat).
  { unfold n. destruct (Nat.even size) eqn:Ev.
    - apply Nat.even_spec in Ev. destruct Ev as [h ->]. destruct h; [now left|right; exists h; lia].
    - right. assert (Od : Nat.odd size = true) by now rewrite <- Nat.negb_even, Ev. apply Nat.odd_spec in Od. exact Od. }
  split.
  - intros l Hl. apply (In_nth _ _ 0) in Hl. destruct Hl as [k [Hk <-]]. rewrite tab1_length in Hk. rewrite tab1_nth by exact Hk. exists (Z.of_nat k - Z.of_nat (n / 2))%Z. now rewrite minus_IZR, <- !INR_IZR_INZ.
  - destruct O as [->|[h E]]; [reflexivity|].
    assert (n / 2 = h)%nat as D by (rewrite E, Nat.add_comm, Nat.mul_comm, Nat.div_add by lia; reflexivity).
    apply (nth_ext _ _ 0 (- 0)); [now rewrite rev_length, map_length|]. intros k Hk. rewrite rev_length, tab1_length in Hk.
    rewrite rev_nth by now rewrite tab1_length. rewrite (map_nth Ropp). rewrite tab1_length, !tab1_nth by lia. rewrite D.
    rewrite minus_INR by lia. rewrite E, S_INR, plus_INR, mult_INR. cbn [INR]. ring.
Qed.
Lemma same_scf_trans r1 r2 r3 : same_scf_run r1 r2 -> same_scf_run r2 r3 -> same_scf_run r1 r3.
Proof.
  destruct r1, r2, r3; cbn [same_scf_run]; try tauto; [|congruence]. intros [A [B [C D]]] [A' [B' [C' D']]]. repeat split; congruence.
Qed.

Lemma surface_of_new nz ny nx cube rl size b s : compute_surface nz ny nx cube (init_lags rl size) b = Ok s ->
  do_surface (new_scf nz ny nx cube rl size) b = Ok (set_surface (new_scf nz ny nx cube rl size) s).
Proof. intros H. unfold do_surface. cbn [new_scf s_nz s_ny s_nx s_cube s_roll_lags]. rewrite H. reflexivity. Qed.

Theorem turned_run : forall tppf wls solve perms nz ny nx cube roll_lags size a,
  cube_ok nz ny nx cube -> init_lags roll_lags size <> [] -> pixel_lags (init_lags roll_lags size) -> allowed (a_boundary a) (init_lags roll_lags size) ny nx ->
  k_theta_0 (a_spec a) = None -> a_fit_2D a = false ->
  let run ny nx cube := do_run tppf wls solve perms (new_scf nz ny nx cube roll_lags size) a in
  same_scf_run (run ny nx (fun z => left_right nx (cube z))) (run ny nx cube) /\
  same_scf_run (run ny nx (fun z => up_down ny (cube z))) (run ny nx cube) /\
  same_scf_run (run nx ny (fun z => axes_swapped (cube z))) (run ny nx cube) /\
  same_scf_run (run nx ny (fun z => quarter_turn ny (cube z))) (run ny nx cube).
Proof.
  intros tppf wls solve perms nz ny nx cube rl size a H N W A T F. cbv beta zeta.
  assert (O := init_lags_odd rl size N).
  assert (LR : forall ny nx cube, cube_ok nz ny nx cube -> allowed (a_boundary a) (init_lags rl size) ny nx ->
    same_scf_run (do_run tppf wls solve perms (new_scf nz ny nx (fun z => left_right nx (cube z)) rl size) a) (do_run tppf wls solve perms (new_scf nz ny nx cube rl size) a)).
  { clear - N W T F O. intros ny nx cube H A. destruct (turned_surface nz ny nx cube _ _ H W A) as [v [S [S1 _]]].
    eapply run_surf; [reflexivity|reflexivity|exact O|reflexivity|apply surface_of_new; exact S|apply surface_of_new; exact S1| | | |exact T|exact F]; cbn [new_scf s_roll_lags].
    - apply surf_square.
    - apply rev_square, surf_square.
    - apply rev_points; [exact O|apply surf_square]. }
  assert (SW : same_scf_run (do_run tppf wls solve perms (new_scf nz nx ny (fun z => axes_swapped (cube z)) rl size) a) (do_run tppf wls solve perms (new_scf nz ny nx cube rl size) a)).
  { destruct (turned_surface nz ny nx cube _ _ H W A) as [v [S [_ [_ S3]]]].
    eapply run_surf; [reflexivity|reflexivity|exact O|reflexivity|apply surface_of_new; exact S|apply surface_of_new; exact S3| | | |exact T|exact F]; cbn [new_scf s_roll_lags].
    - apply surf_square.
    - apply (surf_square (fun sx sy => v sy sx)).
    - apply swapped_points. }
  split; [now apply LR|]. split; [|split; [exact SW|]].
  - destruct (turned_surface nz ny nx cube _ _ H W A) as [v [S [_ [S2 _]]]].
    eapply run_surf; [reflexivity|reflexivity|exact O|reflexivity|apply surface_of_new; exact S|apply surface_of_new; exact S2| | | |exact T|exact F]; cbn [new_scf s_roll_lags].
    + apply surf_square.
    + apply map_rev_square, surf_square.
    + apply map_rev_points; [exact O|apply surf_square].
  - eapply same_scf_trans; [|exact SW]. apply (LR nx ny (fun z => axes_swapped (cube z))); [intros z y x Hz Hy Hx; now apply H|].
    unfold allowed in *. now rewrite Nat.min_comm.
Qed.
Theorem turned_surfaces : forall nz ny nx cube lags b, cube_ok nz ny nx cube -> pixel_lags lags -> allowed b lags ny nx ->
  exists s t, compute_surface nz ny nx cube lags b = Ok s /\
    compute_surface nz ny nx (fun z => left_right nx (cube z)) lags b = Ok (rev s) /\
    compute_surface nz ny nx (fun z => up_down ny (cube z)) lags b = Ok (map (@rev fl) s) /\
    compute_surface nz nx ny (fun z => axes_swapped (cube z)) lags b = Ok t /\
    square_array (length lags) s /\ square_array (length lags) t /\
    forall j i, (j < length lags)%nat -> (i < length lags)%nat -> at2 NaN t j i = at2 NaN s i j.
Proof.
  intros nz ny nx cube lags b H W A. destruct (turned_surface nz ny nx cube lags b H W A) as [v [S [S1 [S2 S3]]]].
  exists (map (fun sy => map (fun sx => v sx sy) lags) lags), (map (fun sy => map (fun sx => v sy sx) lags) lags).
  do 4 (split; [assumption|]). split; [apply surf_square|]. split; [apply (surf_square (fun sx sy => v sy sx))|].
  intros j i Hj Hi. unfold at2. rewrite (nth2_map (fun sx sy => v sy sx) lags NaN 0), (nth2_map (fun sx sy => v sx sy) lags NaN 0) by assumption. reflexivity.
Qed.
