From Coq Require Import String Reals List ZArith Arith Bool Lia Lra.
From Verif Require Import Lib.PyBase Lib.Arr Lib.Fl Lib.RSum Lib.Bins Spec.Bins Spec.Annulus Spec.Blank Spec.Freq Spec.ScfSpectrum
  Model.StatsUtils Model.Psds Model.Scf Model.EllipPlaw Model.ScfSpectrum Proofs.Psds_Proofs Proofs.Psds2_Proofs Proofs.StatsUtils2_Proofs.
Import ListNotations.
Local Open Scope R_scope.

Lemma sequence_length {A} (l : list (result A)) x : sequence l = Ok x -> length x = length l.
Proof.
  revert x. induction l as [|r l IH]; intros x; cbn [sequence]; [now intros [= <-]|].
  destruct r as [a|e]; cbn [bind]; [|discriminate]. destruct (sequence l) as [xs|e]; cbn [bind]; [|discriminate].
  intros [= <-]. cbn. f_equal. now apply IH.
Qed.
Lemma sequence_in {A} (l : list (result A)) x a : sequence l = Ok x -> In a x -> In (Ok a) l.
Proof.
  revert x. induction l as [|r l IH]; intros x; cbn [sequence]; [intros [= <-] []|].
  destruct r as [b|e]; cbn [bind]; [|discriminate]. destruct (sequence l) as [xs|e]; cbn [bind]; [|discriminate].
  intros [= <-] [->|H]; [now left|right; now apply (IH xs)].
Qed.
Lemma surface_square nz ny nx cube lags boundary s : compute_surface nz ny nx cube lags boundary = Ok s -> square_array (length lags) s.
Proof.
  unfold compute_surface. destruct (negb _); [discriminate|]. intros H. split.
  - rewrite (sequence_length _ _ H). apply map_length.
  - intros r Hr. apply (sequence_in _ _ _ H) in Hr. apply in_map_iff in Hr. destruct Hr as [y [Hy _]].
    rewrite (sequence_length _ _ Hy). apply map_length.
Qed.

Lemma square_hd {A} n (s : list (list A)) : square_array n s -> length s = n /\ ((1 <= n)%nat -> length (hd [] s) = n).
Proof.
  intros [H1 H2]. split; [exact H1|]. intros Hn. destruct s as [|r s]; [cbn in H1; lia|]. apply H2. now left.
Qed.

Lemma uniform_length d n : length (uniform_lags d n) = n.
Proof. apply tab1_length. Qed.
Lemma uniform_step d n : (2 <= n)%nat -> exists a b l, uniform_lags d n = a :: b :: l /\ b - a = d.
Proof.
  intros H. destruct (uniform_lags d n) as [|a [|b l]] eqn:E.
  - apply (f_equal (@length R)) in E. rewrite uniform_length in E. cbn in E. lia.
  - apply (f_equal (@length R)) in E. rewrite uniform_length in E. cbn in E. lia.
  - exists a, b, l. split; [reflexivity|].
    assert (A : nth 0 (uniform_lags d n) 0 = a) by now rewrite E. assert (B : nth 1 (uniform_lags d n) 0 = b) by now rewrite E.
    unfold uniform_lags in A, B. rewrite tab1_nth in A by lia. rewrite tab1_nth in B by lia. rewrite <- A, <- B. cbn [INR]. ring.
Qed.
Lemma lag_length_dists d n j i : (j < n)%nat -> (i < n)%nat ->
  lag_length (uniform_lags d n) j i = Rabs d * dists n n j i.
Proof.
  intros Hj Hi. unfold lag_length, uniform_lags, dists, radial_y, radial_x. rewrite !tab1_nth by assumption.
  rewrite <- (sqrt_Rsqr_abs d), <- sqrt_mult_alt by apply Rle_0_sqr. f_equal. unfold Rsqr. ring.
Qed.

Lemma scale_nth c (l : list R) i : nth i (map (fun x => x * c) l) 0 = nth i l 0 * c.
Proof.
  revert i. induction l as [|x l IH]; intros [|i]; cbn; try ring. apply IH.
Qed.
Lemma in_bin_scale c edges b x : 0 < c -> in_bin (map (fun e => e * c) edges) b (c * x) <-> in_bin edges b x.
Proof.
  intros Hc. unfold in_bin. rewrite map_length, !scale_nth. split; intros [H1 [H2 H3]]; (split; [exact H1|]); split.
  - apply (Rmult_le_reg_r c); [exact Hc|lra].
  - destruct H3 as [H3|[H3 H4]]; [left; apply (Rmult_lt_reg_r c); [exact Hc|lra]|right].
    split; [exact H3|]. apply (Rmult_eq_reg_r c); lra.
  - rewrite (Rmult_comm c). now apply Rmult_le_compat_r; [lra|].
  - destruct H3 as [H3|[H3 ->]]; [left|right; split; [exact H3|ring]]. rewrite (Rmult_comm c). now apply Rmult_lt_compat_r.
Qed.
Lemma increasing_scale c edges : 0 < c -> increasing edges -> increasing (map (fun e => e * c) edges).
Proof.
  intros Hc H i j Hij. rewrite map_length in Hij. rewrite !scale_nth. apply Rmult_lt_compat_r; auto.
Qed.


(** ** The profile with the default bins *)
Lemma np_round_nonneg x : 0 <= x -> (0 <= np_round x)%Z.
Proof.
  intros H. unfold np_round. cbv zeta. destruct (base_Int_part x) as [A B]. assert (-1 < Int_part x)%Z by (apply lt_IZR; lra).
  destruct (Rltb _ _); [lia|]. destruct (Rltb _ _); [lia|]. destruct (Z.even _); lia.
Qed.
Lemma pspec_default_edges tppf psd2 nbins sd binsize rf theta_0 delta_theta mf prof hi ny nx :
  (rf = false) -> pspec tppf psd2 nbins sd binsize false None None rf theta_0 delta_theta mf = Ok prof ->
  ny = length psd2 -> nx = length (hd [] psd2) ->
  hi = rmax_list (map (fun p => dists ny nx (fst p) (snd p)) (pixels ny nx)) ->
  prof_edges prof = linspace (1 / 2) hi ((match nbins with Some n => n | None => Z.to_nat (np_round (hi / binsize) + 1) end) + 1).
Proof.
  intros -> Hrun -> -> Hh. unfold pspec in Hrun. cbv zeta in Hrun. rewrite <- Hh in Hrun.
  destruct (match theta_0 with None => Ok None | Some t0 => _ end) as [mask|e]; cbn [bind] in Hrun; [|discriminate].
  destruct (_ || _)%bool; [discriminate|]. cbn [andb] in Hrun. destruct sd; injection Hrun as <-; reflexivity.
Qed.

Lemma corner_far n : (2 <= n)%nat -> 1 <= dists n n 0 0.
Proof.
  intros H. unfold dists, radial_y, radial_x. rewrite <- sqrt_1 at 1. apply sqrt_le_1_alt.
  assert (1 <= INR (n / 2)). { replace 1 with (INR 1) by reflexivity. apply le_INR. apply Nat.div_le_lower_bound; lia. }
  cbn [INR]. nra.
Qed.

Section Spectrum.
  Variables (tppf : nat -> fl) (o o' : scf_obj) (kw : spec_kwargs) (d : R) (n : nat).
  Hypothesis Hrun : do_spectrum tppf o kw = Ok o'.
  Hypothesis Hlags : s_roll_lags o = uniform_lags d n.
  Hypothesis Hd : d <> 0.
  Hypothesis Hn : (2 <= n)%nat.
  Hypothesis Hsq : forall s, s_surface o = Some s -> square_array n s.
  Hypothesis K1 : k_max_bin kw = None.
  Hypothesis K2 : k_min_bin kw = None.
  Hypothesis K3 : match k_nbins kw with Some k => (1 <= k)%nat | None => 0 < k_binsize kw end.

  Lemma spectrum_prof : exists surface prof, s_surface o' = Some surface /\ square_array n surface /\
    pspec tppf surface (k_nbins kw) true (k_binsize kw) false None None false
      (match k_theta_0 kw with Some t => t | None => None end) (k_delta_theta kw) nanmean = Ok prof /\
    s_lags o' = Some (map (fun l => l * Rabs d) (prof_bins prof)) /\ s_spectrum o' = Some (prof_ps1D prof) /\ s_stddev o' = prof_stddev prof.
  Proof.
    revert Hrun. unfold do_spectrum. rewrite K1, K2.
    set (o1r := match s_surface o with None => do_surface o "continuous" | Some _ => Ok o end).
    assert (B : forall o1, o1r = Ok o1 -> s_roll_lags o1 = uniform_lags d n /\ exists s, s_surface o1 = Some s /\ square_array n s).
    { unfold o1r. intros o1. destruct (s_surface o) as [s|] eqn:Es.
      - intros [= <-]. split; [exact Hlags|]. exists s. auto.
      - unfold do_surface. destruct (compute_surface _ _ _ _ _ _) as [s|e] eqn:Ec; cbn [bind]; [|discriminate].
        intros [= <-]. cbn. split; [exact Hlags|]. exists s. split; [reflexivity|].
        apply surface_square in Ec. rewrite Hlags, uniform_length in Ec. exact Ec. }
    destruct o1r as [o1|e]; cbn [bind]; [|discriminate]. destruct (B o1 eq_refl) as [L1 [s [Es Sq]]]. rewrite Es.
    destruct (pspec _ _ _ _ _ _ _ _ _ _ _ _) as [prof|e] eqn:Ep; cbn [bind]; [|discriminate].
    match goal with |- bind ?m _ = _ -> _ => destruct m as [mask|e]; cbn [bind]; [|discriminate] end.
    rewrite L1. destruct (uniform_step d n Hn) as [a [b [l [-> Hab]]]]. intros [= <-]. cbn.
    exists s, prof. rewrite Hab. auto 10.
  Qed.

  Theorem spectrum_values : exists surface edges lags spec sd,
    s_surface o' = Some surface /\ s_lags o' = Some lags /\ s_spectrum o' = Some spec /\ s_stddev o' = Some sd /\
    increasing edges /\ (2 <= length edges)%nat /\
    nth 0 edges 0 = Rabs d / 2 /\
    is_max (last edges 0) (map (fun p => lag_length (s_roll_lags o) (fst p) (snd p)) (pixels n n)) /\
    length lags = (length edges - 1)%nat /\ length spec = (length edges - 1)%nat /\
    forall b, (S b < length edges)%nat ->
      nth b lags 0 = (nth b edges 0 + nth (S b) edges 0) / 2 /\
      exists px, NoDup px /\
        (forall j i, In (j, i) px <->
           (j < n)%nat /\ (i < n)%nat /\ is_fin (at2 NaN surface j i) = true /\
           (forall t dt, k_theta_0 kw = Some (Some t) -> k_delta_theta kw = Some dt -> azim_mask n n t dt j i = true) /\
           in_bin edges b (lag_length (s_roll_lags o) j i)) /\
        ((length px <= 1)%nat -> nth b spec NaN = NaN /\ nth b sd NaN = NaN) /\
        ((2 <= length px)%nat ->
           nth b spec NaN = Fin (rmean (map (pixel_value surface) px)) /\
           forall t, tppf (length px) = Fin t ->
             nth b sd NaN = Fin (sample_std (map (pixel_value surface) px) * Rmax 1 (t / sqrt (INR (length px))))).
  Proof.
    destruct spectrum_prof as [surface [prof [E1 [Sq [Ep [E2 [E3 E4]]]]]]].
    destruct (square_hd n surface Sq) as [Hy Hx]. specialize (Hx ltac:(lia)).
    set (hi := rmax_list (map (fun p => dists n n (fst p) (snd p)) (pixels n n))).
    pose proof (pspec_default_edges _ _ _ _ _ _ _ _ _ _ hi n n eq_refl Ep (eq_sym Hy) (eq_sym Hx) eq_refl) as Ee.
    set (nb := match k_nbins kw with Some k => k | None => _ end) in Ee.
    assert (Hmax : is_max hi (map (fun p => dists n n (fst p) (snd p)) (pixels n n))).
    { apply rmax_list_spec. intros C. apply map_eq_nil in C. assert (X : In (0%nat, 0%nat) (pixels n n)) by (apply in_pixels; lia). rewrite C in X. destruct X. }
    assert (Hhi : 1 <= hi).
    { destruct Hmax as [_ M]. apply Rle_trans with (dists n n 0 0); [now apply corner_far|]. apply M.
      apply in_map_iff. exists (0%nat, 0%nat). split; [reflexivity|]. apply in_pixels. lia. }
    assert (Hnb : (1 <= nb)%nat).
    { unfold nb. destruct (k_nbins kw); [exact K3|]. pose proof (np_round_nonneg (hi / k_binsize kw)) as X.
      assert (0 <= hi / k_binsize kw) by (apply Rmult_le_pos; [lra|apply Rlt_le, Rinv_0_lt_compat; exact K3]). specialize (X H). lia. }
    assert (Hinc : increasing (prof_edges prof)) by (rewrite Ee; apply linspace_increasing; lra).
    assert (Hlen : length (prof_edges prof) = (nb + 1)%nat) by (rewrite Ee; apply linspace_length).
    assert (Hd' : 0 < Rabs d) by now apply Rabs_pos_lt.
    destruct (pspec_shape _ _ _ _ _ _ _ _ _ _ _ _ Ep) as [P1 [P2 [P3 [P4 _]]]].
    set (edges := map (fun e => e * Rabs d) (prof_edges prof)).
    assert (Le : length edges = (nb + 1)%nat) by (unfold edges; now rewrite map_length).
    destruct (s_stddev o') as [sd|] eqn:Esd.
    2:{ destruct (annulus_mean _ _ _ _ _ _ _ _ _ _ _ _ 0 Ep Hinc ltac:(lia)) as [px [_ [_ [_ [_ [_ X]]]]]]. rewrite <- E4 in X. discriminate. }
    exists surface, edges, (map (fun l => l * Rabs d) (prof_bins prof)), (prof_ps1D prof), sd.
    split; [exact E1|]. split; [exact E2|]. split; [exact E3|]. split; [reflexivity|].
    split; [now apply increasing_scale|]. split; [lia|]. split.
    { unfold edges. rewrite scale_nth, Ee, linspace_first by lia. field. }
    split.
    { assert (Lst : last edges 0 = Rabs d * hi).
      { rewrite last_nth, Le. unfold edges. rewrite scale_nth, Ee. rewrite linspace_last by lia. ring. }
      rewrite Lst, Hlags. destruct Hmax as [M1 M2]. split.
      - apply in_map_iff in M1. destruct M1 as [[j i] [M1 M3]]. apply in_map_iff. exists (j, i). split; [|exact M3].
        apply in_pixels in M3. cbn [fst snd] in *. rewrite lag_length_dists by tauto. now rewrite M1.
      - intros x Hx'. apply in_map_iff in Hx'. destruct Hx' as [[j i] [<- M3]]. pose proof M3 as M4. apply in_pixels in M4. cbn [fst snd].
        rewrite lag_length_dists by tauto. apply Rmult_le_compat_l; [lra|]. apply M2. apply in_map_iff. exists (j, i). auto. }
    split; [rewrite map_length, P2, centers_length; unfold edges; now rewrite map_length|].
    split; [rewrite P1; unfold edges; now rewrite map_length|].
    intros b Hb. assert (Hb' : (S b < length (prof_edges prof))%nat) by (unfold edges in Hb; now rewrite map_length in Hb).
    split.
    { rewrite scale_nth, P2, centers_nth by exact Hb'. unfold edges. rewrite !scale_nth. field. }
    destruct (annulus_mean _ _ _ _ _ _ _ _ _ _ _ _ b Ep Hinc Hb') as [px [N [M [Z0 [Z1 [Z2 Z3]]]]]].
    exists px. split; [exact N|]. split; [|rewrite <- E4 in Z3; destruct Z3 as [_ [Z3 Z4]]; split].
    - intros j i. rewrite M. unfold in_annulus. rewrite Hy, Hx. unfold radial_distance.
      assert (MK : (forall m, prof_mask prof = Some m -> m j i = true) <->
        (forall t dt, k_theta_0 kw = Some (Some t) -> k_delta_theta kw = Some dt -> azim_mask n n t dt j i = true)).
      { destruct (k_theta_0 kw) as [[t|]|] eqn:Et.
        - destruct (P4 t eq_refl) as [dt [D1 D2]]. rewrite D1, D2, Hy, Hx. split.
          + intros X t' dt' [= <-] [= <-]. now apply X.
          + intros X m [= <-]. now apply X.
        - rewrite (P3 eq_refl). split; discriminate.
        - rewrite (P3 eq_refl). split; discriminate. }
      rewrite Hlags. split; intros [H1 [H2 [H3 [H4 H5]]]]; (split; [exact H1|]); (split; [exact H2|]); (split; [exact H3|]); (split; [now apply MK|]).
      + rewrite lag_length_dists by assumption. now apply in_bin_scale.
      + rewrite lag_length_dists in H5 by assumption. now apply in_bin_scale in H5.
    - intros L. split; [|now apply Z3]. destruct (Nat.eq_dec (length px) 0); [now apply Z0|]. apply Z1; [lia|reflexivity].
    - intros L. split; [apply Z2; now left|]. intros t Ht. now apply Z4.
  Qed.
End Spectrum.

(** ** Non-uniform lags *)
Lemma sqrt8 : 282 / 100 < sqrt 8 < 283 / 100.
Proof.
  split.
  - rewrite <- (sqrt_square (282 / 100)) by lra. apply sqrt_lt_1_alt. lra.
  - rewrite <- (sqrt_square (283 / 100)) by lra. apply sqrt_lt_1_alt. lra.
Qed.
Lemma sqrt2 : 141 / 100 < sqrt 2 < 142 / 100.
Proof.
  split.
  - rewrite <- (sqrt_square (141 / 100)) by lra. apply sqrt_lt_1_alt. lra.
  - rewrite <- (sqrt_square (142 / 100)) by lra. apply sqrt_lt_1_alt. lra.
Qed.
Lemma dists_sq ny nx i j : dists ny nx i j = sqrt (radial_y ny i * radial_y ny i + radial_x nx j * radial_x nx j).
Proof. reflexivity. Qed.
Lemma is_max_unique m1 m2 l : is_max m1 l -> is_max m2 l -> m1 = m2.
Proof. intros [A1 A2] [B1 B2]. apply Rle_antisym; auto. Qed.
Lemma dmax_corner n : (2 <= n)%nat -> rmax_list (map (fun p => dists n n (fst p) (snd p)) (pixels n n)) = dists n n 0 0.
Proof.
  intros Hn.
  assert (Hmax : is_max (rmax_list (map (fun p => dists n n (fst p) (snd p)) (pixels n n))) (map (fun p => dists n n (fst p) (snd p)) (pixels n n))).
  { apply rmax_list_spec. intros C. apply map_eq_nil in C. assert (X : In (0%nat, 0%nat) (pixels n n)) by (apply in_pixels; lia). rewrite C in X. destruct X. }
  apply (is_max_unique _ _ _ Hmax). split.
  - apply in_map_iff. exists (0%nat, 0%nat). split; [reflexivity|]. apply in_pixels. lia.
  - intros y Hy. apply in_map_iff in Hy. destruct Hy as [[i j] [<- H]]. apply in_pixels in H. cbn [fst snd]. unfold dists. apply sqrt_le_1_alt.
    assert (B : forall k, (k < n)%nat -> radial_y n k * radial_y n k <= radial_y n 0 * radial_y n 0).
    { intros k Hk. unfold radial_y. cbn [INR]. assert (INR k < INR n) by now apply lt_INR.
      assert (0 <= INR k) by apply pos_INR.
      assert (INR n <= 2 * INR (n / 2) + 1).
      { replace (2 * INR (n / 2) + 1) with (INR (2 * (n / 2) + 1)) by (rewrite plus_INR, mult_INR; cbn [INR]; ring). apply le_INR.
        pose proof (Nat.div_mod n 2 ltac:(lia)). pose proof (Nat.mod_upper_bound n 2 ltac:(lia)). lia. }
      assert (INR k + 1 <= INR n) by (rewrite <- S_INR; apply le_INR; lia). nra. }
    change (radial_x n) with (radial_y n). pose proof (B i ltac:(tauto)). pose proof (B j ltac:(tauto)). lra.
Qed.
Lemma corner5 : dists 5 5 0 0 = sqrt 8.
Proof. unfold dists, radial_y, radial_x. f_equal. replace (5 / 2)%nat with 2%nat by reflexivity. cbn [INR]. ring. Qed.
Lemma round_sqrt8 : np_round (sqrt 8 / 1) = 3%Z.
Proof.
  pose proof sqrt8 as H. unfold np_round. cbv zeta. replace (sqrt 8 / 1) with (sqrt 8) by field.
  assert (E : Int_part (sqrt 8) = 2%Z).
  { unfold Int_part. assert (up (sqrt 8) = 3%Z); [|lia]. symmetry. apply tech_up; lra. }
  rewrite E. destruct (Rltb_spec (sqrt 8 - 2) (1 / 2)); [lra|]. destruct (Rltb_spec (1 / 2) (sqrt 8 - 2)); [reflexivity|lra].
Qed.

(** the profile of a 5 x 5 array in the default bins *)
Lemma pspec5 tppf surface theta_0 delta_theta : square_array 5 surface ->
  match theta_0 with Some _ => delta_theta <> None | None => True end ->
  exists prof, pspec tppf surface None true 1 false None None false theta_0 delta_theta nanmean = Ok prof /\
    prof_edges prof = linspace (1 / 2) (sqrt 8) 5 /\
    prof_mask prof = match theta_0, delta_theta with Some t, Some dt => Some (azim_mask 5 5 t dt) | _, _ => None end.
Proof.
  intros Sq Ht. destruct (square_hd 5 surface Sq) as [Hy Hx]. specialize (Hx ltac:(lia)).
  destruct (pspec tppf surface None true 1 false None None false theta_0 delta_theta nanmean) as [prof|e] eqn:E.
  - exists prof. split; [reflexivity|]. split.
    + rewrite (pspec_default_edges _ _ _ _ _ _ _ _ _ _ (sqrt 8) 5 5 eq_refl E (eq_sym Hy) (eq_sym Hx)).
      * now rewrite round_sqrt8.
      * symmetry. rewrite dmax_corner by lia. apply corner5.
    + destruct (pspec_shape _ _ _ _ _ _ _ _ _ _ _ _ E) as [_ [_ [P3 [P4 _]]]]. destruct theta_0 as [t|]; [|now apply P3].
      destruct (P4 t eq_refl) as [dt [-> ->]]. now rewrite Hy, Hx.
  - exfalso. unfold pspec in E. cbv zeta in E. rewrite Hy, Hx in E. destruct theta_0 as [t|]; [destruct delta_theta; [|now destruct Ht]|]; cbn [bind] in E; discriminate.
Qed.
Lemma linspace5 b : linspace (1 / 2) b 5 = let h := (b - 1 / 2) / 4 in [1 / 2; 1 / 2 + h; 1 / 2 + 2 * h; 1 / 2 + 3 * h; 1 / 2 + 4 * h].
Proof.
  cbv zeta. unfold linspace. cbn [tab1 seq map]. repeat (apply f_equal2; [cbn [INR]; field|]). reflexivity.
Qed.

Definition skewed : list R := [-4; -1; 0; 1; 4].
Theorem skewed_lags tppf o surface : s_roll_lags o = skewed -> s_surface o = Some surface -> square_array 5 surface ->
  (forall j i, (j < 5)%nat -> (i < 5)%nat -> is_fin (at2 NaN surface j i) = true) ->
  exists o' lags spec px, do_spectrum tppf o no_kwargs = Ok o' /\ s_lags o' = Some lags /\ s_spectrum o' = Some spec /\
    2 < nth 0 lags 0 /\ (2 <= length px)%nat /\ (forall j i, In (j, i) px -> lag_length skewed j i = 1) /\
    nth 0 spec NaN = Fin (rmean (map (pixel_value surface) px)).
Proof.
  intros HL HS Sq Hf. destruct (pspec5 tppf surface None None Sq I) as [prof [Ep [Ee Em]]].
  destruct (square_hd 5 surface Sq) as [Hy Hx]. specialize (Hx ltac:(lia)).
  pose proof sqrt8 as H8.
  assert (Hinc : increasing (prof_edges prof)) by (rewrite Ee; apply linspace_increasing; lra).
  assert (Hlen : length (prof_edges prof) = 5%nat) by (rewrite Ee; apply linspace_length).
  destruct (annulus_mean _ _ _ _ _ _ _ _ _ _ _ _ 0 Ep Hinc ltac:(lia)) as [px [N [M [Z0 [Z1 [Z2 Z3]]]]]].
  destruct (pspec_shape _ _ _ _ _ _ _ _ _ _ _ _ Ep) as [P1 [P2 [P3 [P4 _]]]].
  eexists. eexists. exists (prof_ps1D prof), px. split.
  { unfold do_spectrum. rewrite HS. cbn [bind]. rewrite HS. cbn [k_nbins k_binsize k_max_bin k_min_bin k_theta_0 k_delta_theta no_kwargs].
    rewrite Ep. cbn [bind]. rewrite HL. cbn [skewed]. reflexivity. }
  cbn [s_lags s_spectrum]. split; [reflexivity|]. split; [reflexivity|].
  assert (BIN : forall j i, In (j, i) px <-> (j < 5)%nat /\ (i < 5)%nat /\ 1 / 2 <= dists 5 5 j i < 1 / 2 + (sqrt 8 - 1 / 2) / 4).
  { intros j i. rewrite M. unfold in_annulus, radial_distance, in_bin. rewrite Hy, Hx, Hlen, Ee, linspace5, Em. cbv zeta. cbn [nth]. split.
    - intros [A [B [C [D [E1 [E2 [E3|[E3 _]]]]]]]]; [auto|lia].
    - intros [A [B [C D]]]. split; [exact A|]. split; [exact B|]. split; [now apply Hf|]. split; [discriminate|]. split; [lia|]. split; [exact C|]. left. exact D. }
  assert (one : forall j i, (j < 5)%nat -> (i < 5)%nat -> dists 5 5 j i = 1 -> In (j, i) px).
  { intros j i A B C. apply BIN. rewrite C. split; [exact A|]. split; [exact B|]. lra. }
  split.
  { rewrite scale_nth, P2, centers_nth by lia. rewrite Ee, linspace5. cbv zeta. cbn [nth].
    replace (Rabs (-1 - -4)) with 3 by (rewrite Rabs_right; lra). lra. }
  assert (D1 : In (2, 1)%nat px).
  { apply one; try lia. unfold dists, radial_y, radial_x. rewrite <- sqrt_1. f_equal. replace (5 / 2)%nat with 2%nat by reflexivity. cbn [INR]. ring. }
  assert (D2 : In (2, 3)%nat px).
  { apply one; try lia. unfold dists, radial_y, radial_x. rewrite <- sqrt_1. f_equal. replace (5 / 2)%nat with 2%nat by reflexivity. cbn [INR]. ring. }
  assert (L2 : (2 <= length px)%nat).
  { destruct px as [|p [|q px]]; [destruct D1| |cbn; lia]. destruct D1 as [->|[]]. destruct D2 as [D2|[]]. discriminate. }
  split; [exact L2|]. split; [|apply Z2; now left].
  intros j i Hji. apply BIN in Hji. destruct Hji as [Hj [Hi [B1 B2]]].
  assert (SQ : 1 / 4 <= radial_y 5 j * radial_y 5 j + radial_x 5 i * radial_x 5 i < 13 / 10).
  { set (q := radial_y 5 j * radial_y 5 j + radial_x 5 i * radial_x 5 i).
    assert (Q0 : 0 <= q) by (unfold q; nra). change (dists 5 5 j i) with (sqrt q) in *.
    pose proof (sqrt_sqrt q Q0). nra. }
  unfold radial_y, radial_x in SQ. replace (5 / 2)%nat with 2%nat in SQ by reflexivity.
  unfold lag_length. transitivity (sqrt 1); [|apply sqrt_1]. f_equal. unfold skewed.
  destruct j as [|[|[|[|[|j]]]]]; [| | | | |lia]; (destruct i as [|[|[|[|[|i]]]]]; [| | | | |lia]); cbn [INR] in SQ; cbn [nth]; first [lra | exfalso; lra].
Qed.

Definition one_sided : list R := [0; 1; 2].
Lemma pspec3 tppf surface : square_array 3 surface ->
  exists prof, pspec tppf surface None true 1 false None None false None None nanmean = Ok prof /\
    prof_edges prof = linspace (1 / 2) (sqrt 2) 3 /\ prof_mask prof = None.
Proof.
  intros Sq. destruct (square_hd 3 surface Sq) as [Hy Hx]. specialize (Hx ltac:(lia)). pose proof sqrt2 as H2.
  assert (C3 : dists 3 3 0 0 = sqrt 2).
  { unfold dists, radial_y, radial_x. f_equal. replace (3 / 2)%nat with 1%nat by reflexivity. cbn [INR]. ring. }
  assert (R3 : np_round (sqrt 2 / 1) = 1%Z).
  { unfold np_round. cbv zeta. replace (sqrt 2 / 1) with (sqrt 2) by field.
    assert (E : Int_part (sqrt 2) = 1%Z) by (unfold Int_part; assert (up (sqrt 2) = 2%Z); [symmetry; apply tech_up; lra|lia]).
    rewrite E. destruct (Rltb_spec (sqrt 2 - 1) (1 / 2)); [reflexivity|lra]. }
  destruct (pspec tppf surface None true 1 false None None false None None nanmean) as [prof|e] eqn:E.
  - exists prof. split; [reflexivity|]. split.
    + rewrite (pspec_default_edges _ _ _ _ _ _ _ _ _ _ (sqrt 2) 3 3 eq_refl E (eq_sym Hy) (eq_sym Hx)).
      * now rewrite R3.
      * symmetry. rewrite dmax_corner by lia. apply C3.
    + destruct (pspec_shape _ _ _ _ _ _ _ _ _ _ _ _ E) as [_ [_ [P3 _]]]. now apply P3.
  - exfalso. unfold pspec in E. cbv zeta in E. rewrite Hy, Hx in E. cbn [bind] in E. discriminate.
Qed.
Theorem one_sided_lags tppf o surface : s_roll_lags o = one_sided -> s_surface o = Some surface -> square_array 3 surface ->
  (forall j i, (j < 3)%nat -> (i < 3)%nat -> is_fin (at2 NaN surface j i) = true) ->
  exists o' lags spec px, do_spectrum tppf o no_kwargs = Ok o' /\ s_lags o' = Some lags /\ s_spectrum o' = Some spec /\
    lag_length one_sided 0 0 = 0 /\ In (0, 0)%nat px /\ 1 < nth 1 lags 0 /\
    nth 1 spec NaN = Fin (rmean (map (pixel_value surface) px)).
Proof.
  intros HL HS Sq Hf. destruct (pspec3 tppf surface Sq) as [prof [Ep [Ee Em]]].
  destruct (square_hd 3 surface Sq) as [Hy Hx]. specialize (Hx ltac:(lia)).
  pose proof sqrt2 as H2.
  assert (Hinc : increasing (prof_edges prof)) by (rewrite Ee; apply linspace_increasing; lra).
  assert (Hlen : length (prof_edges prof) = 3%nat) by (rewrite Ee; apply linspace_length).
  destruct (annulus_mean _ _ _ _ _ _ _ _ _ _ _ _ 1 Ep Hinc ltac:(lia)) as [px [N [M [Z0 [Z1 [Z2 Z3]]]]]].
  destruct (pspec_shape _ _ _ _ _ _ _ _ _ _ _ _ Ep) as [P1 [P2 [P3 [P4 _]]]].
  eexists. eexists. exists (prof_ps1D prof), px. split.
  { unfold do_spectrum. rewrite HS. cbn [bind]. rewrite HS. cbn [k_nbins k_binsize k_max_bin k_min_bin k_theta_0 k_delta_theta no_kwargs].
    rewrite Ep. cbn [bind]. rewrite HL. cbn [one_sided]. reflexivity. }
  cbn [s_lags s_spectrum]. split; [reflexivity|]. split; [reflexivity|]. split.
  { unfold lag_length, one_sided. cbn [nth]. replace (0 ^ 2 + 0 ^ 2) with 0 by ring. apply sqrt_0. }
  assert (L3 : linspace (1 / 2) (sqrt 2) 3 = [1 / 2; 1 / 2 + (sqrt 2 - 1 / 2) / 2; sqrt 2]).
  { unfold linspace. cbn [tab1 seq map]. repeat (apply f_equal2; [cbn [INR]; field|]). reflexivity. }
  assert (BIN : forall j i, (j < 3)%nat -> (i < 3)%nat -> dists 3 3 j i = sqrt 2 -> In (j, i) px).
  { intros j i A B C. apply M. unfold in_annulus, radial_distance, in_bin. rewrite Hy, Hx, Hlen, Ee, L3, Em, C. cbn [nth].
    split; [exact A|]. split; [exact B|]. split; [now apply Hf|]. split; [discriminate|]. split; [lia|]. split; [lra|]. right. auto. }
  assert (D1 : In (0, 0)%nat px).
  { apply BIN; try lia. unfold dists, radial_y, radial_x. f_equal. replace (3 / 2)%nat with 1%nat by reflexivity. cbn [INR]. ring. }
  assert (D2 : In (2, 2)%nat px).
  { apply BIN; try lia. unfold dists, radial_y, radial_x. f_equal. replace (3 / 2)%nat with 1%nat by reflexivity. cbn [INR]. ring. }
  split; [exact D1|]. split.
  { rewrite scale_nth, P2, centers_nth by lia. rewrite Ee, L3. cbn [nth].
    replace (Rabs (1 - 0)) with 1 by (rewrite Rabs_right; lra). lra. }
  apply Z2. left. destruct px as [|p [|q px]]; [destruct D1| |cbn; lia]. destruct D1 as [->|[]]. destruct D2 as [D2|[]]. discriminate.
Qed.
