(** Properties C228-C232: the fit of a power spectrum. *)
From Coq Require Import String Reals List ZArith Arith Bool Lia Lra Permutation.
From Coquelicot Require Import Complex.
From Verif Require Import Lib.PyBase Lib.Arr Lib.DFT Lib.Fl Lib.RSum Spec.Blank Spec.Velocity Spec.ScfSpectrum Spec.PspecFit
  Model.Psds Model.EllipPlaw Model.FitState Model.ScfSpectrum Model.PspecFit
  Proofs.ScfSpectrum2_Proofs Proofs.PspecFit_Proofs Proofs.PspecFit2_Proofs Proofs.PspecFit3_Proofs Proofs.PspecFit4_Proofs Proofs.PspecFit5_Proofs Proofs.PspecFit6_Proofs Proofs.PspecFit7_Proofs.
Import ListNotations.
Local Open Scope R_scope.

Definition holding (ps : list (list fl)) : pobj := mk_p (Some ps) None None None None None None unfitted None None.
Definition of_image (ny nx : nat) (image : nat -> nat -> R) : pobj := holding (map (map Fin) (power_ps2D ny nx image)).
Definition above_fifth : fit_args := mk_f true None false (Some (1 / 5)) None 10 false false.

(** ** C228.  Every Fourier mode between the limits enters the fit once. *)
Theorem C228_unbinned : forall o ny nx image a low high rows, (1 <= ny)%nat -> (1 <= nx)%nat -> holds_spectrum o ny nx image ->
  f_unbinned a = true -> fit_rows o a = Ok (low, high, rows) ->
  (f_low a = Some low \/ (f_low a = None /\ low = 2 / INR (Nat.max ny nx))) /\
  (f_high a = Some high \/ (f_high a = None /\ is_max high (map (mode_freq ny nx) (modes ny nx)))) /\
  (0 <= low -> Permutation rows (map (fun k => (Fin (log10 (mode_freq ny nx k)), flog10 (Fin (mode_power ny nx image k)), Fin 1))
                                   (filter (fun k => within low high (mode_freq ny nx k)) (modes ny nx)))).
Proof. exact unbinned_points. Qed.
Print Assumptions C228_unbinned.
Example C228_instance : holds_spectrum (of_image 1 4 row4) 1 4 row4 /\ exists rows, fit_rows (of_image 1 4 row4) above_fifth = Ok (1 / 5, 1 / 2, rows) /\
  In (Fin (log10 (1 / 4)), flog10 (Fin 16), Fin 1) rows.
Proof.
  split; [reflexivity|]. pose proof (unbinned_rows (of_image 1 4 row4) 1 4 row4 above_fifth (1 / 5) (1 / 2) ltac:(lia) ltac:(lia) eq_refl eq_refl eq_refl (or_introl eq_refl) (or_intror (conj eq_refl row4_max)) ltac:(lra)) as E.
  eexists. split; [exact E|]. destruct (unbinned_points (of_image 1 4 row4) 1 4 row4 above_fifth _ _ _ ltac:(lia) ltac:(lia) eq_refl eq_refl E) as [_ [_ P]]. specialize (P ltac:(lra)).
  apply (Permutation_in _ (Permutation_sym P)). apply in_map_iff. exists (0, 1)%nat. destruct row4_power as [P1 _]. destruct row4_freq as [_ [F1 _]]. rewrite P1, F1. split; [reflexivity|].
  apply filter_In. split; [apply modes_1_4; auto|]. apply within_iff. rewrite F1. lra.
Qed.

(** The 2D fit takes the same modes (up to the highest bin of the radial spectrum unless
    high_cut is given), at their signed frequencies, and starts from the 1D fit of the object
    if there is one. *)
Theorem C228_fit_2D : forall solve perms o ny nx image g freqs, (1 <= ny)%nat -> (1 <= nx)%nat -> holds_spectrum o ny nx image -> o_freqs o = Some freqs -> freqs <> [] -> g_azim g = false ->
  forall low high,
  (g_low g = Some low \/ (g_low g = None /\ low = 2 / INR (Nat.max ny nx))) -> (g_high g = Some high \/ (g_high g = None /\ is_max high freqs)) ->
  (exists k, In k (modes ny nx) /\ low < mode_freq ny nx k <= high) ->
  exists pts p0, Permutation pts (filter (fun k => within low high (mode_freq ny nx k)) (modes ny nx)) /\
    (g_p0 g = Some p0 \/ (g_p0 g = None /\
       ((exists s l amp, t_slope (o_state o) = Some (s :: l) /\ o_amp o = Some amp /\ p0 = mkParams (fl_real amp) (Fin 0) (PI / 2) (fl_real s)) \/
        ((t_slope (o_state o) = None \/ t_slope (o_state o) = Some [] \/ o_amp o = None) /\ p_gamma p0 = -2)))) /\
    do_fit2D solve perms o g =
      (r <- fit_elliptical_powerlaw (solve (map (fun k => axis_freq nx (snd k)) pts) (map (fun k => axis_freq ny (fst k)) pts)) perms
             (map (fun k => flog10 (Fin (mode_power ny nx image k))) pts) (map (fun k => axis_freq nx (snd k)) pts) (map (fun k => axis_freq ny (fst k)) pts) p0
             (g_levmarq g) (g_bootstrap g) (6827 / 10000) (g_radial g) (g_fix g) ;;
       f <- store_2D r ;;
       Ok (mk_p (o_ps2D o) (o_freqs o) (o_ps1D o) (o_stddev o) (o_azim o) (Some low) (Some high) (o_state o) (o_amp o) (Some f))).
Proof. exact points_2D. Qed.
Print Assumptions C228_fit_2D.
Example C228_fit_2D_instance : is_max (1 / 2) [1 / 4; 1 / 2] /\ exists k, In k (modes 1 4) /\ 1 / 5 < mode_freq 1 4 k <= 1 / 2.
Proof.
  split; [split; [right; now left|intros y [<-|[<-|[]]]; lra]|]. exists (0, 1)%nat. destruct row4_freq as [_ [F1 _]]. rewrite F1. split; [apply modes_1_4; auto|lra].
Qed.

(** ** C229.  A power-law spectrum gives its own index. *)
Theorem C229_unbinned : forall line err seg o ny nx image a low high A s, (1 <= ny)%nat -> (1 <= nx)%nat -> holds_spectrum o ny nx image ->
  f_unbinned a = true -> f_weighted a = false -> f_brk a = None ->
  (f_low a = Some low \/ (f_low a = None /\ low = 2 / INR (Nat.max ny nx))) ->
  (f_high a = Some high \/ (f_high a = None /\ is_max high (map (mode_freq ny nx) (modes ny nx)))) -> 0 <= low ->
  least_squares line -> answers line -> 0 < A ->
  (forall k, In k (modes ny nx) -> low < mode_freq ny nx k <= high -> mode_power ny nx image k = A * Rpower (mode_freq ny nx k) s) ->
  (exists k1 k2, In k1 (modes ny nx) /\ In k2 (modes ny nx) /\ low < mode_freq ny nx k1 <= high /\ low < mode_freq ny nx k2 <= high /\ mode_freq ny nx k1 <> mode_freq ny nx k2) ->
  exists o', do_fit line err seg o a = Ok o' /\ t_brk (o_state o') = Some None /\ t_slope (o_state o') = Some [Fin s] /\ o_amp o' = Some (Fin (log10 A)).
Proof. exact unbinned_recovers. Qed.
Print Assumptions C229_unbinned.
Example C229_instance : (exists line, least_squares line /\ answers line) /\
  (forall k, In k (modes 1 4) -> 1 / 5 < mode_freq 1 4 k <= 1 / 2 -> mode_power 1 4 row4 k = 1 * Rpower (mode_freq 1 4 k) (-2)) /\
  (exists k1 k2, In k1 (modes 1 4) /\ In k2 (modes 1 4) /\ 1 / 5 < mode_freq 1 4 k1 <= 1 / 2 /\ 1 / 5 < mode_freq 1 4 k2 <= 1 / 2 /\ mode_freq 1 4 k1 <> mode_freq 1 4 k2).
Proof.
  split; [exists solver_1D; exact solver_exists|]. split; [exact row4_law|]. destruct row4_freq as [_ [F1 [F2 _]]]. exists (0, 1)%nat, (0, 2)%nat. rewrite F1, F2. repeat split; try lra; apply modes_1_4; auto.
Qed.

(** The same for the bins of the radial spectrum, weighted or not; bins without a value (or
    uncertainty, in a weighted fit) are left out. *)
Theorem C229_binned : forall line err seg o a ps freqs ps1D sd low high A s,
  o_ps2D o = Some ps -> o_freqs o = Some freqs -> o_ps1D o = Some ps1D -> o_stddev o = Some sd ->
  f_unbinned a = false -> f_brk a = None ->
  (f_low a = Some low \/ (f_low a = None /\ low = 2 / INR (Nat.max (length ps) (length (hd [] ps))) /\ (0 < Nat.max (length ps) (length (hd [] ps)))%nat)) ->
  (f_high a = Some high \/ (f_high a = None /\ is_max high freqs)) -> 0 <= low ->
  least_squares line -> answers line -> 0 < A ->
  (forall b, In b (bins_of freqs ps1D sd) -> low < fst (fst b) <= high ->
     left_out (f_weighted a) b \/ (counted (f_weighted a) b /\ power_is (A * Rpower (fst (fst b)) s) b)) ->
  (exists b1 b2, In b1 (bins_of freqs ps1D sd) /\ In b2 (bins_of freqs ps1D sd) /\ fst (fst b1) <> fst (fst b2) /\
     (forall b, b = b1 \/ b = b2 -> low < fst (fst b) <= high /\ counted (f_weighted a) b)) ->
  exists o', do_fit line err seg o a = Ok o' /\ t_brk (o_state o') = Some None /\ t_slope (o_state o') = Some [Fin s] /\ o_amp o' = Some (Fin (log10 A)).
Proof. exact binned_recovers. Qed.
Print Assumptions C229_binned.
Example C229_binned_instance : let bins := bins_of [1 / 4; 3 / 8; 1 / 2] [Fin (3 * Rpower (1 / 4) (-2)); NaN; Fin (3 * Rpower (1 / 2) (-2))] [Fin 1; NaN; Fin 2] in
  (forall b, In b bins -> left_out true b \/ (counted true b /\ power_is (3 * Rpower (fst (fst b)) (-2)) b)) /\
  exists b1 b2, In b1 bins /\ In b2 bins /\ fst (fst b1) <> fst (fst b2) /\ (forall b, b = b1 \/ b = b2 -> 1 / 5 < fst (fst b) <= 1 / 2 /\ counted true b).
Proof.
  cbv zeta. unfold bins_of. cbn [combine]. split.
  - intros b [<-|[<-|[<-|[]]]]; cbn [left_out counted power_is fst snd]; [right|left; now left|right]; (split; [split; [eauto|intros _; eexists; split; [reflexivity|lra]]|reflexivity]).
  - exists (1 / 4, Fin (3 * Rpower (1 / 4) (-2)), Fin 1), (1 / 2, Fin (3 * Rpower (1 / 2) (-2)), Fin 2). split; [now left|]. split; [right; right; now left|]. split; [cbn; lra|].
    intros b [->| ->]; cbn [fst snd counted]; (split; [lra|split; [eauto|intros _; eexists; split; [reflexivity|lra]]]).
Qed.

(** ** C230.  The slope does not depend on the brightness scale of the image. *)
Theorem C230_unbinned : forall line err seg o1 o2 ny nx image c a low high, (1 <= ny)%nat -> (1 <= nx)%nat -> c <> 0 ->
  holds_spectrum o1 ny nx image -> holds_spectrum o2 ny nx (scaled c image) ->
  f_unbinned a = true -> f_weighted a = false -> f_brk a = None ->
  (f_low a = Some low \/ (f_low a = None /\ low = 2 / INR (Nat.max ny nx))) ->
  (f_high a = Some high \/ (f_high a = None /\ is_max high (map (mode_freq ny nx) (modes ny nx)))) -> 0 <= low ->
  least_squares line -> answers line ->
  (forall k, In k (modes ny nx) -> low < mode_freq ny nx k <= high -> 0 < mode_power ny nx image k) ->
  (exists k1 k2, In k1 (modes ny nx) /\ In k2 (modes ny nx) /\ low < mode_freq ny nx k1 <= high /\ low < mode_freq ny nx k2 <= high /\ mode_freq ny nx k1 <> mode_freq ny nx k2) ->
  exists o1' o2' s amp, do_fit line err seg o1 a = Ok o1' /\ do_fit line err seg o2 a = Ok o2' /\
    t_slope (o_state o1') = Some [Fin s] /\ t_slope (o_state o2') = Some [Fin s] /\
    o_amp o1' = Some (Fin amp) /\ o_amp o2' = Some (Fin (amp + log10 (c ^ 2))).
Proof. exact unbinned_scale. Qed.
Print Assumptions C230_unbinned.
Example C230_instance : forall k, In k (modes 1 4) -> 1 / 5 < mode_freq 1 4 k <= 1 / 2 -> 0 < mode_power 1 4 row4 k.
Proof. intros k Hk W. rewrite (row4_law k Hk W). apply Rmult_lt_0_compat; [lra|apply exp_pos]. Qed.

(** A whole run on bins: the spectrum and its uncertainty are multiplied by c^2. *)
Theorem C230_binned : forall tppf line err seg solve perms o o1 ny nx image c a freqs ps1D sd low high, (1 <= ny)%nat -> (1 <= nx)%nat -> c <> 0 ->
  f_unbinned (r_fit a) = false -> f_brk (r_fit a) = None -> r_fit_2D a = false -> least_squares line -> answers line ->
  do_prun tppf line err seg solve perms o (Ok (map (map Fin) (power_ps2D ny nx image))) a = Ok o1 ->
  o_freqs o1 = Some freqs -> o_ps1D o1 = Some ps1D -> o_stddev o1 = Some sd -> o_low o1 = Some low -> o_high o1 = Some high -> 0 <= low ->
  (forall b, In b (bins_of freqs ps1D sd) -> low < fst (fst b) <= high ->
     left_out (f_weighted (r_fit a)) b \/ (counted (f_weighted (r_fit a)) b /\ exists p, power_is p b /\ 0 < p)) ->
  (exists b1 b2, In b1 (bins_of freqs ps1D sd) /\ In b2 (bins_of freqs ps1D sd) /\ fst (fst b1) <> fst (fst b2) /\
     (forall b, b = b1 \/ b = b2 -> low < fst (fst b) <= high /\ counted (f_weighted (r_fit a)) b)) ->
  exists o2 s amp, do_prun tppf line err seg solve perms o (Ok (map (map Fin) (power_ps2D ny nx (scaled c image)))) a = Ok o2 /\
    t_slope (o_state o1) = Some [Fin s] /\ t_slope (o_state o2) = Some [Fin s] /\
    o_amp o1 = Some (Fin amp) /\ o_amp o2 = Some (Fin (amp + log10 (c ^ 2))) /\
    o_freqs o2 = Some freqs /\ o_ps1D o2 = Some (map (fmul (Fin (c ^ 2))) ps1D) /\ o_stddev o2 = Some (map (fmul (Fin (c ^ 2))) sd).
Proof. exact binned_scale. Qed.
Print Assumptions C230_binned.
Example C230_binned_instance : forall tppf line err seg solve perms, least_squares line -> answers line -> 
  exists o1 freqs ps1D sd low high, do_prun tppf line err seg solve perms new_p (Ok (map (map Fin) (power_ps2D 1 5 point_source))) run5 = Ok o1 /\
  o_freqs o1 = Some freqs /\ o_ps1D o1 = Some ps1D /\ o_stddev o1 = Some sd /\ o_low o1 = Some low /\ o_high o1 = Some high /\ 0 <= low /\
  (forall b, In b (bins_of freqs ps1D sd) -> low < fst (fst b) <= high -> left_out false b \/ (counted false b /\ exists p, power_is p b /\ 0 < p)) /\
  (exists b1 b2, In b1 (bins_of freqs ps1D sd) /\ In b2 (bins_of freqs ps1D sd) /\ fst (fst b1) <> fst (fst b2) /\
     (forall b, b = b1 \/ b = b2 -> low < fst (fst b) <= high /\ counted false b)).
Proof. exact point_run. Qed.

(** ** C231.  A constant background, and where the image sits in its frame, do not matter. *)
Theorem C231_background : forall tppf line err seg solve perms o ny nx image c a lo hi, (1 <= ny)%nat -> (1 <= nx)%nat -> (2 <= Nat.max ny nx)%nat ->
  (k_min_bin (r_radial a) = Some lo \/ (k_min_bin (r_radial a) = None /\ lo = 1 / INR (Nat.min ny nx))) ->
  (k_max_bin (r_radial a) = Some hi \/ (k_max_bin (r_radial a) = None /\ hi = 1 / 2)) ->
  1 / (2 * INR (Nat.max ny nx)) < lo < hi ->
  (forall l, f_low (r_fit a) = Some l -> 0 <= l) ->
  same_run same_results (do_prun tppf line err seg solve perms o (Ok (map (map Fin) (power_ps2D ny nx image))) a)
                        (do_prun tppf line err seg solve perms o (Ok (map (map Fin) (power_ps2D ny nx (offset c image)))) a).
Proof. exact offset_run. Qed.
Print Assumptions C231_background.
(** The default bins of any image of at least 3 pixels on each side meet the condition. *)
Example C231_instance : forall ny nx, (3 <= ny)%nat -> (3 <= nx)%nat -> 1 / (2 * INR (Nat.max ny nx)) < 1 / INR (Nat.min ny nx) < 1 / 2.
Proof.
  intros ny nx Hy Hx. assert (A : INR (Nat.min ny nx) <= INR (Nat.max ny nx)) by (apply le_INR; lia). assert (B : INR 3 <= INR (Nat.min ny nx)) by (apply le_INR; lia). cbn [INR] in B.
  split; unfold Rdiv; rewrite !Rmult_1_l; apply Rinv_lt_contravar; nra.
Qed.

Theorem C231_displaced : forall tppf line err seg solve perms o ny nx sy sx image a, (1 <= ny)%nat -> (1 <= nx)%nat ->
  do_prun tppf line err seg solve perms o (Ok (map (map Fin) (power_ps2D ny nx (moved ny nx sy sx image)))) a =
  do_prun tppf line err seg solve perms o (Ok (map (map Fin) (power_ps2D ny nx image))) a.
Proof. intros. now rewrite power_moved by assumption. Qed.
Print Assumptions C231_displaced.
Example C231_displaced_instance : moved 1 4 0 1 row4 0%nat 0%nat <> row4 0%nat 0%nat.
Proof. cbn. lra. Qed.

(** ** C232.  What a run returns does not depend on what the object was used for before. *)
Theorem C232_run_again_partial : forall tppf line err seg solve perms o1 o2 ps a,
  r_fit_2D a = false \/ g_azim (r_2D a) = false \/ k_theta_0 (r_radial a) <> None ->
  same_run (same_after a) (do_prun tppf line err seg solve perms o1 ps a) (do_prun tppf line err seg solve perms o2 ps a).
Proof. exact run_history. Qed.
Print Assumptions C232_run_again_partial.
Example C232_instance : o_ps2D new_p <> o_ps2D (of_image 1 4 row4) /\ r_fit_2D run5 = false.
Proof. split; [discriminate|reflexivity]. Qed.

(** With use_azimmask, a spectrum without azimuthal limits still uses those of an earlier one
    in the 2D fit. *)
Theorem C232_stale_mask_refuted : forall tppf o ps, o_ps2D o = Some ps -> length ps = 5%nat -> length (hd [] ps) = 5%nat -> o_azim o = None ->
  exists o1 o2 o3 lo hi sel2 sel3, do_radial tppf o false (kw_limits 0 (PI / 8)) = Ok o1 /\ do_radial tppf o1 false kw_none = Ok o2 /\ do_radial tppf o false kw_none = Ok o3 /\
    pixels_2Dpspec o2 ps (Some (1 / 10)) (Some (1 / 2)) true = Ok (lo, hi, sel2) /\ pixels_2Dpspec o3 ps (Some (1 / 10)) (Some (1 / 2)) true = Ok (lo, hi, sel3) /\
    In (3, 3)%nat sel3 /\ ~ In (3, 3)%nat sel2.
Proof. exact stale_mask_pspec. Qed.
Print Assumptions C232_stale_mask_refuted.
Example C232_stale_instance : o_ps2D (of_image 5 5 point_source) <> None /\ length (map (map Fin) (power_ps2D 5 5 point_source)) = 5%nat /\
  length (hd [] (map (map Fin) (power_ps2D 5 5 point_source))) = 5%nat /\ o_azim (of_image 5 5 point_source) = None.
Proof. destruct (power_shape 5 5 point_source ltac:(lia) ltac:(lia)) as [A B]. split; [discriminate|]. split; [exact A|]. split; [exact B|reflexivity]. Qed.

(** theta_0=None, the documented default, raises ValueError when it is written out. *)
Theorem C232_theta_none_refuted : forall tppf o ps logs nb bs mx mn dt, o_ps2D o = Some ps ->
  is_ok (do_radial tppf o logs (mk_kw nb bs mx mn (Some None) dt)) = false /\ do_radial tppf o logs (mk_kw nb bs mx mn (Some None) dt) = Err ValueError.
Proof. exact theta_none_pspec. Qed.
Print Assumptions C232_theta_none_refuted.
