(** Properties of the distance of two images. *)
From Coq Require Import Reals List Bool ZArith Arith Lra Lia Permutation.
From Verif Require Import Lib.PyBase Lib.RSum Lib.Fl Lib.Arr Lib.Hist Spec.Bins Spec.Blank Spec.Distrib Model.Units Model.StatsUtils Model.StatMoments Model.MomentsRun Spec.MomentsRun Proofs.Fl_Proofs Proofs.Hist_Proofs Proofs.Moments_Proofs Proofs.Moments2_Proofs Proofs.MomentsRun_Proofs Proofs.MomentsRun2_Proofs Proofs.MomentsRun3_Proofs Proofs.MomentsRun4_Proofs Proofs.MomentsRun5_Proofs Proofs.MomentsRun6_Proofs.
From Verif Require Proofs.Scf_Proofs.
Import ListNotations.
Local Open Scope R_scope.

(** ** Brightness *)
Lemma bright_at a b p per y x d : at_offset per (pic_n0 p) (pic_n1 p) (pic_data (recalibrated a b p)) y x d = bright a b (at_offset per (pic_n0 p) (pic_n1 p) (pic_data p) y x d).
Proof.
  unfold at_offset, wrapped, or_blank. cbn [recalibrated pic_data]. destruct per; [destruct (pic_data p _ _); reflexivity|]. cbv zeta. destruct (_ && _); [|reflexivity]. destruct (pic_data p _ _); reflexivity.
Qed.
Lemma bright_fin a b v : is_fin (bright a b v) = is_fin v.
Proof. destruct v; reflexivity. Qed.
Lemma share_bright a b l : finite_share (map (bright a b) l) = finite_share l.
Proof.
  unfold finite_share. rewrite map_length. f_equal. f_equal. induction l as [|v l IH]; [reflexivity|]. cbn [map filter]. rewrite bright_fin. destruct (is_fin v); cbn; now rewrite IH.
Qed.
Lemma pairs_bright a b p w k per y x : pairs_at (recalibrated a b p) w k per y x = brights a b (pairs_at p w k per y x).
Proof. unfold pairs_at, brights. rewrite map_map. apply map_ext. intros d. cbn [fst snd]. rewrite <- (bright_at a b p per y x d). reflexivity. Qed.
Lemma complete_full p w k per y x : complete p -> (y < pic_n0 p)%nat -> (x < pic_n1 p)%nat -> full (pairs_at p w k per y x).
Proof.
  intros C Hy Hx v Hv E. unfold pairs_at in Hv. apply in_map_iff in Hv. destruct Hv as (d & <- & _). cbn [fst snd] in *. eapply at_offset_out; eauto. intros i j Hi Hj K. specialize (C i j Hi Hj). rewrite K in C. discriminate.
Qed.
Lemma around_bright a b p w k per mf y x : readable p -> weighted p w -> 0 < a -> b = 0 \/ complete p -> (y < pic_n0 p)%nat -> (x < pic_n1 p)%nat ->
  shape (around (recalibrated a b p) (weights_of w) k per mf y x) = shape (around p (weights_of w) k per mf y x).
Proof.
  intros D W A B Hy Hx. rewrite !around_cm. cbv beta zeta.
  assert (E : map (at_offset per (pic_n0 (recalibrated a b p)) (pic_n1 (recalibrated a b p)) (pic_data (recalibrated a b p)) y x) (square k) = map (bright a b) (map (at_offset per (pic_n0 p) (pic_n1 p) (pic_data p) y x) (square k))).
  { rewrite map_map. apply map_ext. intros d. apply (bright_at a b p per y x d). }
  rewrite E, share_bright. change (pic_n0 (recalibrated a b p)) with (pic_n0 p). change (pic_n1 (recalibrated a b p)) with (pic_n1 p). destruct (_ || _); [reflexivity|].
  rewrite pairs_bright. apply cm_brights; [now apply pairs_fair| |exact A]. destruct B as [B|B]; [now left|right; now apply complete_full].
Qed.
Lemma values_bright a b p w k per mf f : readable p -> weighted p w -> 0 < a -> b = 0 \/ complete p -> In f [skewness_of; kurtosis_of] ->
  values_of (recalibrated a b p) (region_maps (recalibrated a b p) w k per mf) f = values_of p (region_maps p w k per mf) f.
Proof.
  intros D W A B F. rewrite !region_values. unfold local_values, values_of. change (pic_n0 (recalibrated a b p)) with (pic_n0 p). change (pic_n1 (recalibrated a b p)) with (pic_n1 p).
  apply map_ext_in. intros [y x] H. apply in_prod_iff in H. rewrite !in_seq in H. cbn [fst snd]. pose proof (around_bright a b p w k per mf y x D W A B ltac:(lia) ltac:(lia)) as S. unfold shape in S.
  destruct F as [<-|[<-|[]]]; unfold skewness_of, kurtosis_of; congruence.
Qed.
Lemma readable_bright a b p : readable p -> readable (recalibrated a b p).
Proof. intros D i j Hi Hj. specialize (D i j Hi Hj). cbn in *. destruct (pic_data p i j); exact D. Qed.
Lemma distance_bright memory tol p1 p2 w1 w2 a nbins a1 b1 a2 b2 : readable p1 -> readable p2 -> weighted p1 w1 -> weighted p2 w2 -> 0 < a1 -> 0 < a2 ->
  b1 = 0 \/ complete p1 -> b2 = 0 \/ complete p2 ->
  moments_distance memory tol (Data (recalibrated a1 b1 p1) w1) (Data (recalibrated a2 b2 p2) w2) a nbins = moments_distance memory tol (Data p1 w1) (Data p2 w2) a nbins.
Proof.
  intros D1 D2 W1 W2 A1 A2 B1 B2. rewrite !data_distance by (try assumption; now apply readable_bright).
  change (two_radii (recalibrated a1 b1 p1) (recalibrated a2 b2 p2) (ma_radius a) tol) with (two_radii p1 p2 (ma_radius a) tol). destruct (two_radii p1 p2 (ma_radius a) tol) as [[q1 q2]|e]; [|cbn [bind]; reflexivity]. cbn [bind fst snd].
  change (region (recalibrated a1 b1 p1) q1 (ma_min_frac a)) with (region p1 q1 (ma_min_frac a)). change (region (recalibrated a2 b2 p2) q2 (ma_min_frac a)) with (region p2 q2 (ma_min_frac a)).
  destruct (region p1 q1 (ma_min_frac a)) as [k1|e]; [|cbn [bind]; reflexivity]. destruct (region p2 q2 (ma_min_frac a)) as [k2|e]; [|cbn [bind]; reflexivity]. cbn [bind]. cbv zeta.
  change (nbins_of (recalibrated a1 b1 p1) (recalibrated a2 b2 p2) (ma_nbins a)) with (nbins_of p1 p2 (ma_nbins a)). destruct (Nat.eqb _ 0); [reflexivity|]. unfold lists_value.
  now rewrite !values_bright by (try assumption; cbn; tauto).
Qed.

(** ** Moved images *)
Lemma moved_values p w k mf s t f : (0 < pic_n0 p)%nat -> (0 < pic_n1 p)%nat ->
  Permutation (values_of p (region_maps p w k true mf) f) (values_of (moved s t p) (region_maps (moved s t p) (moved_weights p s t w) k true mf) f).
Proof.
  intros H0 H1. unfold values_of. change (pic_n0 (moved s t p)) with (pic_n0 p). change (pic_n1 (moved s t p)) with (pic_n1 p).
  assert (E : forall y x, region_maps (moved s t p) (moved_weights p s t w) k true mf y x = region_maps p w k true mf ((y + s) mod pic_n0 p)%nat ((x + t) mod pic_n1 p)%nat).
  { intros y x. unfold region_maps. destruct w as [w|]; cbn [moved_weights option_map weights_of]; [now apply maps_shift|].
    change (fun _ _ : nat => Fin 1) with (shifted (pic_n0 p) (pic_n1 p) s t (fun _ _ : nat => Fin 1)) at 1. now apply maps_shift. }
  rewrite (map_ext (fun yx => f (region_maps (moved s t p) (moved_weights p s t w) k true mf (fst yx) (snd yx))) (fun yx => (fun yx => f (region_maps p w k true mf (fst yx) (snd yx))) ((fun yx => ((fst yx + s) mod pic_n0 p, (snd yx + t) mod pic_n1 p)%nat) yx))) by (intros [y x]; cbn [fst snd]; now rewrite E).
  rewrite <- (map_map (fun yx => ((fst yx + s) mod pic_n0 p, (snd yx + t) mod pic_n1 p)%nat) (fun yx => f (region_maps p w k true mf (fst yx) (snd yx)))).
  apply Permutation_map, Permutation_sym. assert (I : forall n c y y', (0 < n)%nat -> (y < n)%nat -> (y' < n)%nat -> ((y + c) mod n = (y' + c) mod n)%nat -> y = y').
  { intros n c y y' Hn Hy Hy' K. pose proof (Nat.div_mod (y + c) n ltac:(lia)) as D1. pose proof (Nat.div_mod (y' + c) n ltac:(lia)) as D2. rewrite K in D1.
    set (q1 := ((y + c) / n)%nat) in *. set (q2 := ((y' + c) / n)%nat) in *. clearbody q1 q2. assert (q1 = q2) by nia. subst. lia. }
  apply (Scf_Proofs.pixels_perm (pic_n0 p) (pic_n1 p) (fun y => (y + s) mod pic_n0 p)%nat (fun x => (x + t) mod pic_n1 p)%nat).
  - intros y _. apply Nat.mod_upper_bound. lia.
  - intros x _. apply Nat.mod_upper_bound. lia.
  - intros y y' Hy Hy'. now apply I.
  - intros x x' Hx Hx'. now apply I.
Qed.
Lemma readable_moved s t p : (0 < pic_n0 p)%nat -> (0 < pic_n1 p)%nat -> readable p -> readable (moved s t p).
Proof. intros H0 H1 D i j Hi Hj. cbn. unfold shifted. apply D; apply Nat.mod_upper_bound; lia. Qed.
Lemma weighted_moved s t p w : (0 < pic_n0 p)%nat -> (0 < pic_n1 p)%nat -> weighted p w -> weighted (moved s t p) (moved_weights p s t w).
Proof. intros H0 H1 D. destruct w as [w|]; [|exact I]. intros i j Hi Hj. cbn. unfold shifted. apply D; apply Nat.mod_upper_bound; lia. Qed.
Lemma distance_moved memory tol p1 p2 w1 w2 a nbins s1 t1 s2 t2 : (0 < pic_n0 p1)%nat -> (0 < pic_n1 p1)%nat -> (0 < pic_n0 p2)%nat -> (0 < pic_n1 p2)%nat ->
  readable p1 -> readable p2 -> weighted p1 w1 -> weighted p2 w2 -> ma_periodic1 a = true -> ma_periodic2 a = true ->
  moments_distance memory tol (Data (moved s1 t1 p1) (moved_weights p1 s1 t1 w1)) (Data (moved s2 t2 p2) (moved_weights p2 s2 t2 w2)) a nbins = moments_distance memory tol (Data p1 w1) (Data p2 w2) a nbins.
Proof.
  intros A0 A1 C0 C1 D1 D2 W1 W2 P1 P2. rewrite !data_distance by (try assumption; try (now apply readable_moved); now apply weighted_moved). rewrite P1, P2.
  change (two_radii (moved s1 t1 p1) (moved s2 t2 p2) (ma_radius a) tol) with (two_radii p1 p2 (ma_radius a) tol). destruct (two_radii p1 p2 (ma_radius a) tol) as [[q1 q2]|e]; [|cbn [bind]; reflexivity]. cbn [bind fst snd].
  change (region (moved s1 t1 p1) q1 (ma_min_frac a)) with (region p1 q1 (ma_min_frac a)). change (region (moved s2 t2 p2) q2 (ma_min_frac a)) with (region p2 q2 (ma_min_frac a)).
  destruct (region p1 q1 (ma_min_frac a)) as [k1|e]; [|cbn [bind]; reflexivity]. destruct (region p2 q2 (ma_min_frac a)) as [k2|e]; [|cbn [bind]; reflexivity]. cbn [bind]. cbv zeta.
  change (nbins_of (moved s1 t1 p1) (moved s2 t2 p2) (ma_nbins a)) with (nbins_of p1 p2 (ma_nbins a)). destruct (Nat.eqb _ 0); [reflexivity|]. unfold lists_value.
  assert (E : forall f nb, In f [mean_of; variance_of; skewness_of; kurtosis_of] -> pair_value (values_of (moved s1 t1 p1) (region_maps (moved s1 t1 p1) (moved_weights p1 s1 t1 w1) k1 true (ma_min_frac a)) f) (values_of (moved s2 t2 p2) (region_maps (moved s2 t2 p2) (moved_weights p2 s2 t2 w2) k2 true (ma_min_frac a)) f) nb =
    pair_value (values_of p1 (region_maps p1 w1 k1 true (ma_min_frac a)) f) (values_of p2 (region_maps p2 w2 k2 true (ma_min_frac a)) f) nb).
  { intros f nb F. symmetry. apply pair_perm; try (now apply region_fine); now apply moved_values. }
  rewrite !E by (cbn; tauto). reflexivity.
Qed.

(** ** What the distance is *)
Lemma pair_ok_bins l1 l2 nb v : Forall blankable l1 -> Forall blankable l2 -> pair_value l1 l2 nb = Ok v -> (3 <= nb)%nat.
Proof.
  intros B1 B2. rewrite pair_fins by assumption. destruct nb as [|[|[|nb]]]; try lia; destruct (range_of _ _) as [[a b]|]; discriminate.
Qed.
Lemma region_rounded p q mf k : region p q mf = Ok k -> rounded_up p q k /\ acceptable p q = true /\ share mf = true.
Proof.
  unfold region. destruct (set_acceptable p q) as [[E A]|[[e E] _]]; rewrite E; [|discriminate]. cbn [bind]. destruct (share mf); [|discriminate]. pose proof A as A0. unfold acceptable in A. unfold rounded_up. destruct (to_pixel (pic_stat p) q) as [px|]; [|discriminate].
  cbn [bind]. intros K. inversion K; subst. split; [|split; [exact A0|reflexivity]]. exists px. split; [reflexivity|]. apply andb_prop in A. destruct A as [A _]. destruct (Rleb_spec 2 (hd 0 (q_vals px))); [|discriminate]. 
  set (v := hd 0 (q_vals px)) in *. clearbody v. unfold ceil. pose proof (base_Int_part (- v)) as [I1 I2]. assert (Z0 : (0 <= - Int_part (- v))%Z). { apply le_IZR. rewrite opp_IZR. lra. }
  rewrite INR_IZR_INZ, Z2Nat.id by exact Z0. rewrite opp_IZR. lra.
Qed.
Lemma two_radii_matched p1 p2 q tol q1 q2 : sized p1 -> sized p2 -> two_radii p1 p2 q tol = Ok (q1, q2) -> matched p1 p2 q q1 q2.
Proof.
  intros S1 S2. unfold two_radii, matched. destruct (is_equivalent (q_unit q) pix); [|intros E; inversion E; auto]. unfold common_scale. destruct (distorted _); [discriminate|]. destruct (distorted _); [discriminate|]. cbv zeta.
  destruct (Rltb _ _); [discriminate|]. destruct (Rltb _ _); [discriminate|]. cbn [bind]. unfold sized in *.
  pose proof (Rabs_pos_lt _ S1) as P1. pose proof (Rabs_pos_lt _ S2) as P2. set (s1 := Rabs (scale0 (pic_grid p1))) in *. set (s2 := Rabs (scale0 (pic_grid p2))) in *. clearbody s1 s2.
  assert (D : s2 / s1 * s1 = s2) by (field; lra). assert (F : forall (c1 c2 : R) (l : list R), (forall v, c1 * v * s1 = c2 * v * s2) -> Forall2 (fun v1 v2 => v1 * s1 = v2 * s2) (map (fun v => c1 * v) l) (map (fun v => c2 * v) l)) by (intros c1 c2 l H; induction l; constructor; auto).
  assert (M1 : forall l, map (fun v => 1 * v) l = l) by (intros l; rewrite <- (map_id l) at 2; apply map_ext; intros; lra).
  destruct (Reqb_spec (s2 / s1) 1) as [E|E]; [|destruct (Rltb_spec 1 (s2 / s1)) as [L|L]]; intros Q; inversion Q; subst q1 q2; clear Q; cbn [scaled q_unit q_vals]; (split; [reflexivity|]; split; [reflexivity|]).
  - rewrite E in D. split; [|auto]. rewrite <- (M1 (q_vals q)). apply F. intros v. nra.
  - split; [|split; [intros G; exfalso|auto]].
    + rewrite <- (M1 (q_vals q)) at 2. apply F. intros v. rewrite <- D. field. lra.
    + assert (s2 / s1 * s1 <= 1 * s1) by lra. apply Rmult_le_reg_r in H; lra.
  - split; [|split; [auto|intros G; exfalso]].
    + rewrite <- (M1 (q_vals q)) at 1. apply F. intros v. field. lra.
    + apply E. assert (1 * s1 <= s2 / s1 * s1) by lra. apply Rmult_le_reg_r in H; lra.
Qed.
Definition verdict (l1 l2 : list fl) (nb : nat) (d : fl) : Prop :=
  (fins l1 <> [] -> fins l2 <> [] -> exists lo hi v, is_min lo (fins l1 ++ fins l2) /\ is_max hi (fins l1 ++ fins l2) /\ d = Fin v /\ 0 <= v <= sqrt ((hi - lo) / INR (nb - 1))) /\
  (fins l1 <> [] -> fins l2 = [] -> d = Fin 0) /\ (fins l1 = [] -> d = NaN).
Lemma pair_verdict l1 l2 nb d : Forall blankable l1 -> Forall blankable l2 -> pair_value l1 l2 nb = Ok d -> verdict l1 l2 nb d.
Proof.
  intros B1 B2 E. pose proof (pair_ok_bins _ _ _ _ B1 B2 E) as N. split; [|split].
  - intros N1 N2. destruct (pair_bound l1 l2 nb B1 B2 N N1 N2) as (lo & hi & v & M & X & V & R). rewrite E in V. inversion V. exists lo, hi, v. auto.
  - intros N1 N2. rewrite (pair_second_none l1 l2 nb B1 B2 N N1 N2) in E. congruence.
  - intros N1. rewrite (pair_first_none l1 l2 nb B1 B2 N N1) in E. congruence.
Qed.
Lemma lists_ok p1 p2 m1 m2 nb k s : fine p1 m1 -> fine p2 m2 -> lists_value p1 p2 m1 m2 nb = Ok (k, s) ->
  pair_value (values_of p1 m1 kurtosis_of) (values_of p2 m2 kurtosis_of) nb = Ok k /\ pair_value (values_of p1 m1 skewness_of) (values_of p2 m2 skewness_of) nb = Ok s /\ (3 <= nb)%nat.
Proof.
  intros F1 F2. unfold lists_value. destruct (pair_value (values_of p1 m1 kurtosis_of) _ nb) as [k'|] eqn:E1; [|discriminate]. destruct (pair_value (values_of p1 m1 skewness_of) _ nb) as [s'|] eqn:E2; [|discriminate].
  cbn [bind]. intros E. inversion E; subst. split; [reflexivity|]. split; [reflexivity|]. eapply pair_ok_bins; [| |exact E2]; [apply F1|apply F2]; cbn; tauto.
Qed.
Lemma distance_ok memory tol p1 p2 w1 w2 a nbins k s : readable p1 -> readable p2 -> weighted p1 w1 -> weighted p2 w2 ->
  moments_distance memory tol (Data p1 w1) (Data p2 w2) a nbins = Ok (k, s) ->
  exists q1 q2 k1 k2, let nb := match nbins with None => nbins_of p1 p2 (ma_nbins a) | Some n => n end in
    two_radii p1 p2 (ma_radius a) tol = Ok (q1, q2) /\ region p1 q1 (ma_min_frac a) = Ok k1 /\ region p2 q2 (ma_min_frac a) = Ok k2 /\ (3 <= nb)%nat /\ nbins_of p1 p2 (ma_nbins a) <> 0%nat /\
    pair_value (local_values p1 w1 k1 (ma_periodic1 a) (ma_min_frac a) kurtosis_of) (local_values p2 w2 k2 (ma_periodic2 a) (ma_min_frac a) kurtosis_of) nb = Ok k /\
    pair_value (local_values p1 w1 k1 (ma_periodic1 a) (ma_min_frac a) skewness_of) (local_values p2 w2 k2 (ma_periodic2 a) (ma_min_frac a) skewness_of) nb = Ok s.
Proof.
  intros D1 D2 W1 W2. rewrite data_distance by assumption. destruct (two_radii p1 p2 (ma_radius a) tol) as [[q1 q2]|e] eqn:E; [|discriminate]. cbn [bind fst snd].
  destruct (region p1 q1 (ma_min_frac a)) as [k1|e] eqn:R1; [|discriminate]. destruct (region p2 q2 (ma_min_frac a)) as [k2|e] eqn:R2; [|discriminate]. cbn [bind]. cbv zeta. destruct (Nat.eqb_spec (nbins_of p1 p2 (ma_nbins a)) 0) as [Z|Z]; [discriminate|].
  intros L. apply lists_ok in L; [|now apply region_fine|now apply region_fine]. rewrite !region_values in L. destruct L as (L1 & L2 & L3). exists q1, q2, k1, k2. auto 10.
Qed.
Lemma local_blankable p w k per mf f : readable p -> weighted p w -> In f [skewness_of; kurtosis_of] -> Forall blankable (local_values p w k per mf f).
Proof. intros D W F. rewrite <- region_values. apply region_fine; auto. cbn in *. tauto. Qed.
Lemma distance_value memory tol p1 p2 w1 w2 a nbins k s : readable p1 -> readable p2 -> weighted p1 w1 -> weighted p2 w2 -> sized p1 -> sized p2 ->
  moments_distance memory tol (Data p1 w1) (Data p2 w2) a nbins = Ok (k, s) ->
  exists q1 q2 k1 k2, let nb := match nbins with None => nbins_of p1 p2 (ma_nbins a) | Some n => n end in
    matched p1 p2 (ma_radius a) q1 q2 /\ rounded_up p1 q1 k1 /\ rounded_up p2 q2 k2 /\ (3 <= nb)%nat /\
    forall f d, (f, d) = (skewness_of, s) \/ (f, d) = (kurtosis_of, k) ->
      let x1 := fins (local_values p1 w1 k1 (ma_periodic1 a) (ma_min_frac a) f) in let x2 := fins (local_values p2 w2 k2 (ma_periodic2 a) (ma_min_frac a) f) in
      (x1 <> [] -> x2 <> [] -> exists lo hi v, is_min lo (x1 ++ x2) /\ is_max hi (x1 ++ x2) /\ d = Fin v /\ 0 <= v <= sqrt ((hi - lo) / INR (nb - 1))) /\
      (x1 <> [] -> x2 = [] -> d = Fin 0) /\ (x1 = [] -> d = NaN).
Proof.
  intros D1 D2 W1 W2 S1 S2 E. apply distance_ok in E; try assumption. destruct E as (q1 & q2 & k1 & k2 & T & R1 & R2 & N & _ & EK & ES). exists q1, q2, k1, k2. cbv zeta in *.
  split; [eapply two_radii_matched; eassumption|]. split; [eapply region_rounded; eassumption|]. split; [eapply region_rounded; eassumption|]. split; [exact N|].
  intros f d [H|H]; inversion H; subst f d; clear H.
  - apply pair_verdict; [now apply local_blankable; cbn; auto|now apply local_blankable; cbn; auto|exact ES].
  - apply pair_verdict; [now apply local_blankable; cbn; auto|now apply local_blankable; cbn; auto|exact EK].
Qed.

(** ** An image against itself; the other order *)
Lemma two_radii_self p q tol q1 q2 : sized p -> two_radii p p q tol = Ok (q1, q2) -> q1 = q /\ q2 = q.
Proof.
  intros S E. pose proof (two_radii_matched p p q tol q1 q2 S S E) as M. unfold matched in M. destruct (is_equivalent (q_unit q) pix); [|exact M]. destruct M as (_ & _ & _ & A & B). split; [apply A|apply B]; lra.
Qed.
Lemma distance_self memory tol p w a nbins k s : readable p -> weighted p w -> sized p -> ma_periodic1 a = ma_periodic2 a ->
  moments_distance memory tol (Data p w) (Data p w) a nbins = Ok (k, s) ->
  exists kk, rounded_up p (ma_radius a) kk /\
    (k = Fin 0 /\ fins (local_values p w kk (ma_periodic1 a) (ma_min_frac a) kurtosis_of) <> [] \/ k = NaN /\ fins (local_values p w kk (ma_periodic1 a) (ma_min_frac a) kurtosis_of) = []) /\
    (s = Fin 0 /\ fins (local_values p w kk (ma_periodic1 a) (ma_min_frac a) skewness_of) <> [] \/ s = NaN /\ fins (local_values p w kk (ma_periodic1 a) (ma_min_frac a) skewness_of) = []).
Proof.
  intros D W S P E. apply distance_ok in E; try assumption. destruct E as (q1 & q2 & k1 & k2 & T & R1 & R2 & N & _ & EK & ES). destruct (two_radii_self _ _ _ _ _ S T). subst q1 q2. rewrite R1 in R2. inversion R2; subst k2. clear R2. rewrite <- P in *.
  exists k1. split; [eapply region_rounded; eassumption|].
  assert (G : forall f d nb, In f [skewness_of; kurtosis_of] -> (3 <= nb)%nat -> pair_value (local_values p w k1 (ma_periodic1 a) (ma_min_frac a) f) (local_values p w k1 (ma_periodic1 a) (ma_min_frac a) f) nb = Ok d ->
    d = Fin 0 /\ fins (local_values p w k1 (ma_periodic1 a) (ma_min_frac a) f) <> [] \/ d = NaN /\ fins (local_values p w k1 (ma_periodic1 a) (ma_min_frac a) f) = []).
  { intros f d nb F N' V. pose proof (local_blankable p w k1 (ma_periodic1 a) (ma_min_frac a) f D W F) as B. destruct (fins (local_values p w k1 (ma_periodic1 a) (ma_min_frac a) f)) as [|z zs] eqn:Z.
    - right. split; [|reflexivity]. rewrite pair_first_none in V by assumption. congruence.
    - left. split; [|discriminate]. rewrite pair_self in V by (try assumption; rewrite Z; discriminate). congruence. }
  split; [apply (G kurtosis_of _ _ ltac:(cbn; auto) N EK)|apply (G skewness_of _ _ ltac:(cbn; auto) N ES)].
Qed.
Lemma two_radii_other p1 p2 q tol q1 q2 : sized p1 -> sized p2 -> two_radii p1 p2 q tol = Ok (q1, q2) -> two_radii p2 p1 q tol = Ok (q2, q1).
Proof.
  intros S1 S2. unfold two_radii. destruct (is_equivalent (q_unit q) pix); [|intros E; inversion E; reflexivity]. unfold common_scale.
  destruct (distorted (pic_grid p1)); [discriminate|]. destruct (distorted (pic_grid p2)); [discriminate|]. cbv zeta.
  destruct (Rltb tol (Rabs (Rabs (scale0 (pic_grid p1)) - _))); [discriminate|]. destruct (Rltb tol (Rabs (Rabs (scale0 (pic_grid p2)) - _))); [discriminate|]. cbn [bind].
  pose proof (Rabs_pos_lt _ S1) as P1. pose proof (Rabs_pos_lt _ S2) as P2. set (s1 := Rabs (scale0 (pic_grid p1))) in *. set (s2 := Rabs (scale0 (pic_grid p2))) in *. clearbody s1 s2.
  assert (D : s2 / s1 * (s1 / s2) = 1) by (field; lra). assert (V : / (s1 / s2) = s2 / s1) by (field; lra). assert (V' : / (s2 / s1) = s1 / s2) by (field; lra). rewrite V, V'.
  assert (A1 : 0 < s2 / s1) by now apply Rdiv_lt_0_compat. assert (A2 : 0 < s1 / s2) by now apply Rdiv_lt_0_compat. set (u := s2 / s1) in *. set (v := s1 / s2) in *. clearbody u v. clear V V'.
  destruct (Reqb_spec u 1), (Reqb_spec v 1); try (exfalso; nra); [intros E; inversion E; reflexivity|]. destruct (Rltb_spec 1 u), (Rltb_spec 1 v); try (exfalso; nra); intros E; inversion E; reflexivity.
Qed.
Lemma nbins_other p1 p2 nb : nbins_of p2 p1 nb = nbins_of p1 p2 nb.
Proof. unfold nbins_of. destruct nb; [reflexivity|]. now rewrite Nat.min_comm. Qed.
Lemma distance_other memory tol p1 p2 w1 w2 a nbins k s : readable p1 -> readable p2 -> weighted p1 w1 -> weighted p2 w2 -> sized p1 -> sized p2 ->
  moments_distance memory tol (Data p1 w1) (Data p2 w2) a nbins = Ok (k, s) ->
  (exists x y, k = Fin x /\ s = Fin y) -> (exists x y, moments_distance memory tol (Data p2 w2) (Data p1 w1) (other_order a) nbins = Ok (Fin x, Fin y)) ->
  moments_distance memory tol (Data p2 w2) (Data p1 w1) (other_order a) nbins = Ok (k, s).
Proof.
  intros D1 D2 W1 W2 S1 S2 E FK FO. destruct FO as (ox & oy & FO). pose proof E as E0. apply distance_ok in E; try assumption. destruct E as (q1 & q2 & k1 & k2 & T & R1 & R2 & N & NZ & EK & ES). cbv zeta in *.
  pose proof (distance_ok memory tol p2 p1 w2 w1 (other_order a) nbins _ _ D2 D1 W2 W1 FO) as (q1' & q2' & k1' & k2' & T' & R1' & R2' & N' & NZ' & EK' & ES'). cbv zeta in *. cbn [other_order ma_radius ma_min_frac ma_nbins ma_periodic1 ma_periodic2] in *.
  rewrite (two_radii_other _ _ _ _ _ _ S1 S2 T) in T'. inversion T'; subst q1' q2'. rewrite R1' in R2. inversion R2; subst k1'. rewrite R2' in R1. inversion R1; subst k2'. clear T' R1 R2. rewrite FO. rewrite (nbins_other p1 p2) in *.
  destruct FK as (kx & sy & -> & ->).
  assert (G : forall f d e nb, In f [skewness_of; kurtosis_of] -> (3 <= nb)%nat -> pair_value (local_values p1 w1 k1 (ma_periodic1 a) (ma_min_frac a) f) (local_values p2 w2 k2 (ma_periodic2 a) (ma_min_frac a) f) nb = Ok (Fin d) ->
    pair_value (local_values p2 w2 k2 (ma_periodic2 a) (ma_min_frac a) f) (local_values p1 w1 k1 (ma_periodic1 a) (ma_min_frac a) f) nb = Ok (Fin e) -> e = d).
  { intros f d e nb F N0 V V'. pose proof (local_blankable p1 w1 k1 (ma_periodic1 a) (ma_min_frac a) f D1 W1 F) as B1. pose proof (local_blankable p2 w2 k2 (ma_periodic2 a) (ma_min_frac a) f D2 W2 F) as B2.
    set (l1 := local_values p1 w1 k1 _ _ f) in *. set (l2 := local_values p2 w2 k2 _ _ f) in *. clearbody l1 l2.
    assert (X1 : fins l1 <> []) by (intros X; rewrite pair_first_none in V by assumption; discriminate). assert (X2 : fins l2 <> []) by (intros X; rewrite pair_first_none in V' by assumption; discriminate).
    rewrite pair_sym in V by assumption. congruence. }
  rewrite (G kurtosis_of kx ox _ ltac:(cbn; auto) N EK EK'), (G skewness_of sy oy _ ltac:(cbn; auto) N ES ES'). reflexivity.
Qed.
