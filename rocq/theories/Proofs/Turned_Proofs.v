(** Power spectra of images seen from another side (C305). *)
From Coq Require Import String Reals List ZArith Arith Bool Lia Lra Permutation.
From Coquelicot Require Import Complex.
From Verif Require Import Lib.PyBase Lib.Arr Lib.DFT Lib.Fl Lib.RSum Lib.Bins Spec.Blank Spec.Freq Spec.ScfSpectrum Spec.PspecFit Spec.Turned
  Model.StatsUtils Model.Psds Model.EllipPlaw Model.FitState Model.ScfSpectrum Model.PspecFit
  Proofs.RfftToFft_Proofs Proofs.Psds_Proofs Proofs.Psds2_Proofs Proofs.Beam_Proofs Proofs.ScfSpectrum2_Proofs Proofs.PspecFit_Proofs Proofs.PspecFit4_Proofs Proofs.Orders_Proofs.
Import ListNotations.
Local Open Scope R_scope.

(** ** Transforms of mirrored rows *)
Lemma csum_rev n f : csum n (fun i => f (n - 1 - i)%nat) = csum n f.
Proof. apply csum_reindex; intros; lia. Qed.
Lemma tw_mirror n x k : (x < n)%nat -> (k < n)%nat -> tw n (n - 1 - x) k = Cmult (tw n (n - 1) k) (tw n x ((n - k) mod n)).
Proof.
  intros Hx Hk. rewrite tw_neg_r by lia. replace (tw n (n - 1) k) with (Cmult (tw n (n - 1 - x) k) (tw n x k)) by (rewrite <- tw_add_l; f_equal; lia).
  rewrite <- Cmult_assoc, tw_conj_r. now rewrite Cmult_1_r.
Qed.
Lemma dft1_mirror n f k : (k < n)%nat -> dft1 n (fun x => f (n - 1 - x)%nat) k = Cmult (tw n (n - 1) k) (dft1 n f ((n - k) mod n)).
Proof.
  intros Hk. unfold dft1. rewrite <- csum_scal. rewrite <- (csum_rev n (fun i => Cmult (tw n (n - 1) k) _)). apply csum_ext. intros x Hx.
  replace (tw n x k) with (tw n (n - 1 - (n - 1 - x)) k) by (f_equal; lia). rewrite tw_mirror by lia. ring.
Qed.
Lemma power_left_right ny nx image k : (snd k < nx)%nat -> mode_power ny nx (left_right nx image) k = mode_power ny nx image (fst k, (nx - snd k) mod nx)%nat.
Proof.
  intros Hk. unfold mode_power, left_right. cbn [fst snd]. rewrite !dft2_rows.
  transitivity (Cnorm2 (Cmult (tw nx (nx - 1) (snd k)) (dft1 ny (fun y => dft1 nx (fun x => RtoC (image y x)) ((nx - snd k) mod nx)) (fst k)))).
  - f_equal. unfold dft1 at 1. unfold dft1 at 2. rewrite <- csum_scal. apply csum_ext. intros y _. rewrite (dft1_mirror nx (fun x => RtoC (image y x))) by exact Hk. ring.
  - rewrite Cnorm2_mult, tw_norm. ring.
Qed.
Lemma power_swapped ny nx image k : mode_power nx ny (axes_swapped image) k = mode_power ny nx image (snd k, fst k).
Proof. unfold mode_power, axes_swapped. cbn [fst snd]. f_equal. rewrite dft2_rows, dft2_cols. reflexivity. Qed.

(** ** Arrays of one number per mode *)
Definition per_mode (ny nx : nat) (P : nat * nat -> R) : list (list fl) := tab2 ny nx (fun i j => Fin (P (mode_at ny nx (i, j)))).
Definition points (ny nx : nat) (P : nat * nat -> R) : list (R * R) := map (fun k => (mode_freq ny nx k, P k)) (modes ny nx).
Definition alike (ny nx : nat) (P : nat * nat -> R) (ny' nx' : nat) (P' : nat * nat -> R) : Prop :=
  Permutation (points ny nx P) (points ny' nx' P') /\ ((ny = ny' /\ nx = nx') \/ (ny = nx' /\ nx = ny')).

Lemma power_per_mode ny nx image : (1 <= ny)%nat -> (1 <= nx)%nat -> map (map Fin) (power_ps2D ny nx image) = per_mode ny nx (mode_power ny nx image).
Proof. intros Hy Hx. rewrite power_tab by assumption. apply map_fin_tab2. Qed.
Lemma per_mode_shape ny nx P : (1 <= ny)%nat -> length (per_mode ny nx P) = ny /\ length (hd [] (per_mode ny nx P)) = nx.
Proof.
  intros Hy. unfold per_mode, tab2. rewrite tab1_length. split; [reflexivity|]. destruct ny; [lia|]. rewrite tab1_S. cbn [hd]. apply tab1_length.
Qed.

Definition neg (n k : nat) : nat := ((n - k) mod n)%nat.
Lemma neg_lt n k : (k < n)%nat -> (neg n k < n)%nat.
Proof. intros H. apply Nat.mod_upper_bound. lia. Qed.
Lemma neg_neg n k : (k < n)%nat -> neg n (neg n k) = k.
Proof.
  intros H. unfold neg. destruct k as [|k]; [rewrite Nat.sub_0_r, Nat.mod_same, Nat.sub_0_r, Nat.mod_same by lia; reflexivity|].
  rewrite (Nat.mod_small (n - S k)) by lia. replace (n - (n - S k))%nat with (S k) by lia. now apply Nat.mod_small.
Qed.
Lemma axis_freq_neg n k : (k < n)%nat -> axis_freq n (neg n k) ^ 2 = axis_freq n k ^ 2.
Proof.
  intros H. assert (P : 0 < INR n) by (apply lt_0_INR; lia). unfold neg. destruct k as [|k]; [rewrite Nat.sub_0_r, Nat.mod_same by lia; reflexivity|].
  rewrite Nat.mod_small by lia. unfold axis_freq.
  destruct (Nat.ltb_spec (2 * (n - S k)) n), (Nat.ltb_spec (2 * S k) n); try lia; rewrite minus_INR by lia; try (field; lra).
  assert (E : n = (2 * S k)%nat) by lia. assert (E' : INR n = 2 * INR (S k)) by (rewrite E at 1; rewrite mult_INR; cbn [INR]; lra). rewrite E' in *. field. lra.
Qed.
Lemma neg_perm n : Permutation (map (neg n) (seq 0 n)) (seq 0 n).
Proof.
  apply NoDup_Permutation.
  - apply NoDup_map_in; [|apply seq_NoDup]. intros x y Hx Hy E. apply in_seq in Hx, Hy. rewrite <- (neg_neg n x), <- (neg_neg n y) by lia. now rewrite E.
  - apply seq_NoDup.
  - intros k. rewrite in_map_iff, in_seq. split.
    + intros [j [<- Hj]]. apply in_seq in Hj. pose proof (neg_lt n j). lia.
    + intros Hk. exists (neg n k). split; [apply neg_neg; lia|]. apply in_seq. pose proof (neg_lt n k). lia.
Qed.
Lemma in_modes ny nx k : In k (modes ny nx) <-> (fst k < ny)%nat /\ (snd k < nx)%nat.
Proof. destruct k as [a b]. unfold modes. rewrite in_prod_iff, !in_seq. cbn [fst snd]. lia. Qed.
Lemma list_prod_map_r {A B C} (f : B -> C) (l : list A) m : map (fun p => (fst p, f (snd p))) (list_prod l m) = list_prod l (map f m).
Proof. induction l as [|a l IH]; [reflexivity|]. cbn [list_prod]. rewrite map_app, IH, !map_map. reflexivity. Qed.
Lemma list_prod_perm_r {A B} (l : list A) (m m' : list B) : Permutation m m' -> Permutation (list_prod l m) (list_prod l m').
Proof. intros P. induction l as [|a l IH]; [constructor|]. cbn [list_prod]. apply Permutation_app; [now apply Permutation_map|exact IH]. Qed.

Lemma alike_left_right ny nx P : alike ny nx (fun k => P (fst k, neg nx (snd k))) ny nx P.
Proof.
  split; [|left; split; reflexivity]. unfold points.
  replace (map (fun k => (mode_freq ny nx k, P (fst k, neg nx (snd k)))) (modes ny nx))
    with (map (fun k => (mode_freq ny nx k, P k)) (map (fun k => (fst k, neg nx (snd k))) (modes ny nx))).
  - apply Permutation_map. unfold modes. rewrite list_prod_map_r. apply list_prod_perm_r, neg_perm.
  - rewrite map_map. apply map_ext_in. intros k Hk. apply in_modes in Hk. f_equal. unfold mode_freq. cbn [fst snd]. rewrite axis_freq_neg by tauto. reflexivity.
Qed.
Lemma list_prod_cons_r {A B} (l : list A) (b : B) m : Permutation (list_prod l (b :: m)) (map (fun a => (a, b)) l ++ list_prod l m).
Proof.
  induction l as [|a l IH]; [constructor|]. cbn [list_prod map app]. apply perm_skip. transitivity (map (fun y => (a, y)) m ++ map (fun a => (a, b)) l ++ list_prod l m).
  - now apply Permutation_app_head.
  - rewrite !app_assoc. apply Permutation_app_tail, Permutation_app_comm.
Qed.
Lemma list_prod_swap {A B} (l : list A) (m : list B) : Permutation (map (fun p => (snd p, fst p)) (list_prod l m)) (list_prod m l).
Proof.
  induction l as [|a l IH].
  - cbn. induction m as [|b m IHm]; [constructor|exact IHm].
  - cbn [list_prod]. rewrite map_app, map_map. cbn [fst snd]. symmetry. rewrite list_prod_cons_r. apply Permutation_app_head. now symmetry.
Qed.
Lemma alike_swapped ny nx P : alike nx ny (fun k => P (snd k, fst k)) ny nx P.
Proof.
  split; [|right; split; reflexivity]. unfold points.
  replace (map (fun k => (mode_freq nx ny k, P (snd k, fst k))) (modes nx ny))
    with (map (fun k => (mode_freq ny nx k, P k)) (map (fun k => (snd k, fst k)) (modes nx ny))).
  - apply Permutation_map. apply list_prod_swap.
  - rewrite map_map. apply map_ext. intros k. f_equal. unfold mode_freq. cbn [fst snd]. now rewrite Rplus_comm.
Qed.
Lemma alike_trans ny nx P ny' nx' P' ny'' nx'' P'' : alike ny nx P ny' nx' P' -> alike ny' nx' P' ny'' nx'' P'' -> alike ny nx P ny'' nx'' P''.
Proof. intros [A A'] [B B']. split; [now transitivity (points ny' nx' P')|]. lia. Qed.
Lemma alike_ext ny nx P Q : (forall k, (fst k < ny)%nat -> (snd k < nx)%nat -> P k = Q k) -> alike ny nx P ny nx Q.
Proof.
  intros H. split; [|left; split; reflexivity]. unfold points. apply Permutation_refl'. apply map_ext_in. intros k Hk. apply in_modes in Hk. now rewrite H.
Qed.

(** ** The radial profile *)
Lemma rmax_perm l l' : Permutation l l' -> rmax_list l = rmax_list l'.
Proof.
  intros P. destruct l as [|a l]; [apply Permutation_nil in P; now subst|]. assert (N' : l' <> []) by (intros ->; apply Permutation_sym, Permutation_nil in P; discriminate).
  destruct (rmax_list_spec (a :: l)) as [I M]; [discriminate|]. destruct (rmax_list_spec l' N') as [I' M'].
  apply Rle_antisym; [apply M', (Permutation_in _ P), I|apply M, (Permutation_in _ (Permutation_sym P)), I'].
Qed.
Lemma rmin_perm l l' : Permutation l l' -> rmin_list l = rmin_list l'.
Proof.
  intros P. destruct l as [|a l]; [apply Permutation_nil in P; now subst|]. assert (N' : l' <> []) by (intros ->; apply Permutation_sym, Permutation_nil in P; discriminate).
  destruct (rmin_list_spec (a :: l)) as [I M]; [discriminate|]. destruct (rmin_list_spec l' N') as [I' M'].
  apply Rle_antisym; [apply M, (Permutation_in _ (Permutation_sym P)), I'|apply M', (Permutation_in _ P), I].
Qed.
Lemma nanstd_perm l l' : Permutation l l' -> nanstd1 l = nanstd1 l'.
Proof.
  intros P. unfold nanstd1. rewrite (nanmean_perm _ _ P). pose proof (Permutation_length (filter_perm (fun v => negb (is_nan v)) _ _ P)) as L. unfold nonnan. rewrite L.
  rewrite (nansum_perm _ _ (Permutation_map (fun v => fsqr (fsub v (nanmean l'))) P)). reflexivity.
Qed.
Lemma binned_perm {W} (stat : list fl -> W) edges s v s' v' : (forall l l', Permutation l l' -> stat l = stat l') ->
  Permutation (combine s v) (combine s' v') -> binned_statistic stat edges s v = binned_statistic stat edges s' v'.
Proof.
  intros H P. unfold binned_statistic. apply tab1_ext. intros i _. apply H. unfold in_bin_values. apply Permutation_map, filter_perm, P.
Qed.
Lemma dists_swapped ny nx i j : dists nx ny j i = dists ny nx i j.
Proof. unfold dists, radial_y, radial_x. f_equal. ring. Qed.
Lemma dists_perm ny nx ny' nx' : (ny = ny' /\ nx = nx') \/ (ny = nx' /\ nx = ny') ->
  Permutation (map (fun p => dists ny nx (fst p) (snd p)) (pixels ny nx)) (map (fun p => dists ny' nx' (fst p) (snd p)) (pixels ny' nx')).
Proof.
  intros [[<- <-]|[<- <-]]; [reflexivity|]. rewrite <- (list_prod_swap (seq 0 ny) (seq 0 nx)). fold (pixels ny nx). rewrite map_map. apply Permutation_refl', map_ext. intros p. cbn [fst snd]. now rewrite dists_swapped.
Qed.
Lemma combine_maps {A B C} (f : A -> B) (g : A -> C) l : combine (map f l) (map g l) = map (fun a => (f a, g a)) l.
Proof. induction l as [|a l IH]; [reflexivity|]. cbn. now rewrite IH. Qed.

(** Frequencies and values of the pixels are those of the modes *)
Lemma pixel_points ny nx P : Permutation (map (fun p => (freqs_raw ny nx (fst p) (snd p), at2 NaN (per_mode ny nx P) (fst p) (snd p))) (pixels ny nx))
  (map (fun q => (fst q, Fin (snd q))) (points ny nx P)).
Proof.
  unfold points. rewrite map_map. cbn [fst snd]. rewrite <- (Permutation_map _ (modes_perm ny nx)), map_map. apply Permutation_refl', map_ext_in. intros [i j] H. apply in_pixels in H. cbn [fst snd].
  unfold per_mode. rewrite at2_tab by tauto. now rewrite freqs_raw_mode by tauto.
Qed.

Lemma nonzero_perm ny nx P ny' nx' P' : alike ny nx P ny' nx' P' -> Permutation (nonzero_freqs ny nx) (nonzero_freqs ny' nx').
Proof.
  intros [A _]. unfold nonzero_freqs. apply filter_perm.
  assert (E : forall a b Q, map (fun p => freqs_raw a b (fst p) (snd p)) (pixels a b) = map fst (map (fun p => (freqs_raw a b (fst p) (snd p), at2 NaN (per_mode a b Q) (fst p) (snd p))) (pixels a b)))
    by (intros; rewrite map_map; reflexivity).
  rewrite (E ny nx P), (E ny' nx' P'). apply Permutation_map. rewrite !pixel_points. now apply Permutation_map.
Qed.
Lemma pixel_samples ny nx P : Permutation
  (let sel := filter (fun p => is_fin (at2 NaN (per_mode ny nx P) (fst p) (snd p)) && true) (pixels ny nx) in
   combine (map (fun p => freqs_dist ny nx (fst p) (snd p)) sel) (map (fun p => at2 NaN (per_mode ny nx P) (fst p) (snd p)) sel))
  (map (fun q => (if Reqb (fst q) 0 then rmin_list (nonzero_freqs ny nx) / 2 else fst q, Fin (snd q))) (points ny nx P)).
Proof.
  cbv zeta. rewrite combine_maps.
  replace (filter (fun p => is_fin (at2 NaN (per_mode ny nx P) (fst p) (snd p)) && true) (pixels ny nx)) with (pixels ny nx).
  - transitivity (map (fun q => (if Reqb (fst q) 0 then rmin_list (nonzero_freqs ny nx) / 2 else fst q, snd q))
      (map (fun p => (freqs_raw ny nx (fst p) (snd p), at2 NaN (per_mode ny nx P) (fst p) (snd p))) (pixels ny nx))); [rewrite map_map; reflexivity|].
    rewrite pixel_points, map_map. reflexivity.
  - symmetry. rewrite (filter_ext_in _ (fun _ => true)).
    + induction (pixels ny nx) as [|p l IH]; [reflexivity|]. cbn [filter]. now rewrite IH.
    + intros [i j] H. apply in_pixels in H. cbn [fst snd]. unfold per_mode. now rewrite at2_tab by tauto.
Qed.
Lemma profile_alike tppf ny nx P ny' nx' P' nbins binsize logs maxb minb dt : (1 <= ny)%nat -> (1 <= nx)%nat -> alike ny nx P ny' nx' P' ->
  pspec tppf (per_mode ny nx P) nbins true binsize logs maxb minb true None dt nanmean = pspec tppf (per_mode ny' nx' P') nbins true binsize logs maxb minb true None dt nanmean.
Proof.
  intros Hy Hx A. pose proof A as [PT D]. assert (Hy' : (1 <= ny')%nat) by lia.
  destruct (per_mode_shape ny nx P Hy) as [S1 S2]. destruct (per_mode_shape ny' nx' P' Hy') as [S3 S4].
  unfold pspec. rewrite S1, S2, S3, S4. cbv zeta. cbn [bind negb].
  rewrite (rmax_perm _ _ (dists_perm ny nx ny' nx' D)).
  assert (L : length (pixels ny nx) = length (pixels ny' nx')) by (pose proof (Permutation_length (dists_perm ny nx ny' nx' D)) as Q; now rewrite !map_length in Q).
  rewrite L, (Permutation_length (nonzero_perm ny nx P ny' nx' P' A)).
  replace (Nat.min ny nx) with (Nat.min ny' nx') by lia.
  destruct (Nat.eqb _ 0 || _)%bool; [reflexivity|]. destruct (logs && _)%bool; [reflexivity|].
  set (edges := if logs then _ else _).
  pose proof (pixel_samples ny nx P) as Q. pose proof (pixel_samples ny' nx' P') as Q'. cbv zeta in Q, Q'.
  rewrite (rmin_perm _ _ (nonzero_perm ny nx P ny' nx' P' A)) in Q.
  rewrite (Permutation_map (fun q => (if Reqb (fst q) 0 then rmin_list (nonzero_freqs ny' nx') / 2 else fst q, Fin (snd q))) PT), <- Q' in Q.
  rewrite (binned_perm nanmean edges _ _ _ _ nanmean_perm Q), (binned_perm (@length fl) edges _ _ _ _ (@Permutation_length fl) Q), (binned_perm nanstd1 edges _ _ _ _ nanstd_perm Q).
  reflexivity.
Qed.

(** ** A run without azimuthal limits, on the bins of the profile *)
Lemma run_alike tppf line err seg solve perms o ny nx P ny' nx' P' a : (1 <= ny)%nat -> (1 <= nx)%nat -> alike ny nx P ny' nx' P' ->
  k_theta_0 (r_radial a) = None -> f_unbinned (r_fit a) = false -> r_fit_2D a = false ->
  same_run same_results (do_prun tppf line err seg solve perms o (Ok (per_mode ny nx P)) a) (do_prun tppf line err seg solve perms o (Ok (per_mode ny' nx' P')) a).
Proof.
  intros Hy Hx A T U F. unfold do_prun, do_pspec. cbn [bind]. unfold do_radial. cbn [o_ps2D o_freqs o_ps1D o_stddev o_azim o_low o_high o_state o_amp o_fit2D]. rewrite T.
  rewrite (profile_alike tppf ny nx P ny' nx' P' _ _ _ _ _ _ Hy Hx A).
  match goal with |- same_run _ (bind (bind ?m _) _) _ => destruct m as [out|e]; [|reflexivity] end. cbn [bind].
  set (o1 := mk_p (Some (per_mode ny nx P)) _ _ _ _ _ _ _ _ _). set (o2 := mk_p (Some (per_mode ny' nx' P')) _ _ _ _ _ _ _ _ _).
  assert (SB : same_but_ps2D o1 o2) by (unfold same_but_ps2D, o1, o2; cbn; repeat split; reflexivity).
  assert (ER : fit_rows o1 (r_fit a) = fit_rows o2 (r_fit a)).
  { destruct A as [_ D]. assert (Hy' : (1 <= ny')%nat) by lia. destruct (per_mode_shape ny nx P Hy) as [S1 S2]. destruct (per_mode_shape ny' nx' P' Hy') as [S3 S4].
    unfold fit_rows, o1, o2. cbn [o_ps2D o_freqs o_ps1D o_stddev]. rewrite U. unfold default_low, rows_of, cols_of. rewrite S1, S2, S3, S4. replace (Nat.max ny nx) with (Nat.max ny' nx') by lia. reflexivity. }
  pose proof (fit_agree line err seg o1 o2 (r_fit a) _ _ eq_refl eq_refl ER SB) as FA.
  destruct (do_fit line err seg o1 (r_fit a)) as [q1|e1], (do_fit line err seg o2 (r_fit a)) as [q2|e2]; cbn [same_run] in FA; try contradiction; [|now subst]. cbn [bind].
  rewrite F. destruct FA as [_ [_ [SQ _]]]. cbn [same_run]. unfold same_results. destruct SQ as [F1 [F2 [F3 [F4 [F5 [F6 [F7 [F8 F9]]]]]]]]. repeat split; assumption.
Qed.

Lemma alike_up_down ny nx P : alike ny nx (fun k => P (neg ny (fst k), snd k)) ny nx P.
Proof.
  eapply alike_trans; [|apply (alike_swapped ny nx P)]. eapply alike_trans; [|apply (alike_left_right nx ny (fun k => P (snd k, fst k)))]. cbn [fst snd].
  eapply alike_trans; [|apply (alike_swapped nx ny (fun k => P (neg ny (snd k), fst k)))]. apply alike_ext. reflexivity.
Qed.

(** ** Images *)
Lemma power_up_down ny nx image k : (fst k < ny)%nat -> mode_power ny nx (up_down ny image) k = mode_power ny nx image (neg ny (fst k), snd k).
Proof.
  intros Hk. change (up_down ny image) with (axes_swapped (left_right ny (axes_swapped image))). rewrite (power_swapped nx ny), (power_left_right nx ny) by exact Hk.
  rewrite (power_swapped ny nx). reflexivity.
Qed.
Lemma image_left_right ny nx image : alike ny nx (mode_power ny nx (left_right nx image)) ny nx (mode_power ny nx image).
Proof. eapply alike_trans; [|apply alike_left_right]. apply alike_ext. intros k _ H. now apply power_left_right. Qed.
Lemma image_up_down ny nx image : alike ny nx (mode_power ny nx (up_down ny image)) ny nx (mode_power ny nx image).
Proof. eapply alike_trans; [|apply alike_up_down]. apply alike_ext. intros k H _. now apply power_up_down. Qed.
Lemma image_swapped ny nx image : alike nx ny (mode_power nx ny (axes_swapped image)) ny nx (mode_power ny nx image).
Proof. eapply alike_trans; [|apply alike_swapped]. apply alike_ext. intros k _ _. apply power_swapped. Qed.
Lemma image_quarter ny nx image : alike nx ny (mode_power nx ny (quarter_turn ny image)) ny nx (mode_power ny nx image).
Proof.
  change (quarter_turn ny image) with (left_right ny (axes_swapped image)). eapply alike_trans; [apply image_left_right|apply image_swapped].
Qed.
Theorem turned_image : forall tppf line err seg solve perms o ny nx image a, (1 <= ny)%nat -> (1 <= nx)%nat ->
  k_theta_0 (r_radial a) = None -> f_unbinned (r_fit a) = false -> r_fit_2D a = false ->
  let run ny nx image := do_prun tppf line err seg solve perms o (Ok (map (map Fin) (power_ps2D ny nx image))) a in
  same_run same_results (run ny nx (left_right nx image)) (run ny nx image) /\
  same_run same_results (run ny nx (up_down ny image)) (run ny nx image) /\
  same_run same_results (run nx ny (axes_swapped image)) (run ny nx image) /\
  same_run same_results (run nx ny (quarter_turn ny image)) (run ny nx image).
Proof.
  intros tppf line err seg solve perms o ny nx image a Hy Hx T U F. cbv beta zeta. rewrite !power_per_mode by assumption.
  split; [|split; [|split]]; apply run_alike; auto; [apply image_left_right|apply image_up_down|apply image_swapped|apply image_quarter].
Qed.

(** ** Cubes *)
Definition channel_power (nz ny nx : nat) (cube : nat -> nat -> nat -> R) (k : nat * nat) : R := INR nz * rsum nz (fun z => mode_power ny nx (cube z) k).
Lemma vca_per_mode nz ny nx cube : (1 <= nz)%nat -> (1 <= ny)%nat -> (1 <= nx)%nat -> map (map Fin) (vca_ps2D nz ny nx cube) = per_mode ny nx (channel_power nz ny nx cube).
Proof.
  intros Hz Hy Hx. destruct (vca_tab nz ny nx cube Hz Hy Hx) as [g G]. destruct (G cube) as [E _]. 
  assert (V : forall i j, (i < ny)%nat -> (j < nx)%nat -> g cube i j = channel_power nz ny nx cube (mode_at ny nx (i, j))).
  { intros i j Hi Hj. pose proof (vca_ps2D_at nz ny nx cube i j) as W. rewrite E, at2_tab in W by assumption. rewrite W by assumption. reflexivity. }
  rewrite E, map_fin_tab2. unfold per_mode. apply tab2_ext. intros i j Hi Hj. now rewrite V.
Qed.
Theorem turned_cube : forall tppf line err seg solve perms o nz ny nx cube a, (1 <= nz)%nat -> (1 <= ny)%nat -> (1 <= nx)%nat ->
  k_theta_0 (r_radial a) = None -> f_unbinned (r_fit a) = false -> r_fit_2D a = false ->
  let run ny nx (cube : nat -> nat -> nat -> R) := do_prun tppf line err seg solve perms o (Ok (map (map Fin) (vca_ps2D nz ny nx cube))) a in
  same_run same_results (run ny nx (fun z => left_right nx (cube z))) (run ny nx cube) /\
  same_run same_results (run ny nx (fun z => up_down ny (cube z))) (run ny nx cube) /\
  same_run same_results (run nx ny (fun z => axes_swapped (cube z))) (run ny nx cube) /\
  same_run same_results (run nx ny (fun z => quarter_turn ny (cube z))) (run ny nx cube).
Proof.
  intros tppf line err seg solve perms o nz ny nx cube a Hz Hy Hx T U F. cbv beta zeta. rewrite !vca_per_mode by assumption.
  assert (LR : forall ny nx (cube : nat -> nat -> nat -> R), alike ny nx (channel_power nz ny nx (fun z => left_right nx (cube z))) ny nx (channel_power nz ny nx cube)).
  { intros. eapply alike_trans; [|apply alike_left_right]. apply alike_ext. intros k _ H. unfold channel_power. f_equal. apply rsum_ext. intros z _. now apply power_left_right. }
  assert (SW : forall ny nx (cube : nat -> nat -> nat -> R), alike nx ny (channel_power nz nx ny (fun z => axes_swapped (cube z))) ny nx (channel_power nz ny nx cube)).
  { intros. eapply alike_trans; [|apply alike_swapped]. apply alike_ext. intros k _ _. unfold channel_power. f_equal. apply rsum_ext. intros z _. now apply power_swapped. }
  split; [|split; [|split]]; apply run_alike; auto.
  - eapply alike_trans; [|apply alike_up_down]. apply alike_ext. intros k H _. unfold channel_power. f_equal. apply rsum_ext. intros z _. now apply power_up_down.
  - change (fun z => quarter_turn ny (cube z)) with (fun z => left_right ny (axes_swapped (cube z))). eapply alike_trans; [apply LR|apply SW].
Qed.

(** ** Half a turn *)
Lemma half_turn_power ny nx image k : (fst k < ny)%nat -> (snd k < nx)%nat -> mode_power ny nx (up_down ny (left_right nx image)) k = mode_power ny nx image k.
Proof.
  intros Hy Hx. rewrite power_up_down by exact Hy. rewrite power_left_right by exact Hx. cbn [fst snd]. destruct k as [ky kx]. cbn [fst snd] in *.
  unfold mode_power. cbn [fst snd]. unfold neg. rewrite (dft2_hermitian ny nx image ky kx) by lia. apply Cnorm2_conj.
Qed.
Theorem half_turn : forall ny nx image, (1 <= ny)%nat -> (1 <= nx)%nat -> power_ps2D ny nx (up_down ny (left_right nx image)) = power_ps2D ny nx image.
Proof.
  intros ny nx image Hy Hx. rewrite !power_tab by assumption. apply tab2_ext. intros i j Hi Hj. apply half_turn_power; unfold mode_at; cbn [fst snd]; apply unshift_lt; lia.
Qed.
