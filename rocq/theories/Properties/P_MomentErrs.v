(** Errors of the moment maps and the Moments class: C41, C42 and C135-C142. *)
From Coq Require Import String Ascii Reals List Bool Arith.
From Verif Require Import Lib.PyBase Lib.RSum Lib.Fl Model.Units Model.MomentErrs Model.MakeMoments Spec.MomentSpec
  Proofs.MomentErrs_Proofs Proofs.MomentErrs2_Proofs Proofs.MakeMoments_Proofs.
Import ListNotations.
Local Open Scope string_scope.
Local Open Scope R_scope.

(** ** C41 *)
(** Zeroth moment: the strategies agree at every pixel with an included channel, along any axis *)
Theorem C41_moment0_partial : forall strategy c scale axis, fits_cube c scale -> exists s e,
  moment0_error strategy c scale axis "slice" = Ok s /\ moment0_error strategy c scale axis "cube" = Ok e /\
  forall p q, (exists i, included c axis i p q) -> s p q = e p q.
Proof. exact agree0. Qed.
Print Assumptions C41_moment0_partial.
(** but never at a pixel without one *)
Theorem C41_moment0_refuted : forall strategy c r axis p q, (forall i, ~ included c axis i p q) -> exists s e,
  moment0_error strategy c (Level (Fin r)) axis "slice" = Ok s /\ moment0_error strategy c (Level (Fin r)) axis "cube" = Ok e /\
  s p q = NaN /\ e p q = Fin 0.
Proof. exact refute0. Qed.
Print Assumptions C41_moment0_refuted.
Example C41_moment0_instance : included demo_cube 0 1 1 0 /\ forall i, ~ included demo_cube 0 i 0 1.
Proof. exact demo_included. Qed.
(** First and second moment along the spectral axis, whatever the moments are *)
Theorem C41_moment1_partial : forall strategy c scale v0 m0 m1, fits_cube c scale -> proper scale -> (0 < depth (c_shape c) 0)%nat -> exists s e,
  moment1_error strategy c scale 0 "slice" v0 m0 m1 = Ok s /\ moment1_error strategy c scale 0 "cube" v0 m0 m1 = Ok e /\
  forall p q, in_image c 0 p q -> s p q = e p q.
Proof. exact agree1. Qed.
Print Assumptions C41_moment1_partial.
Theorem C41_moment2_partial : forall strategy c scale v0 m0 m1 m2 e1, fits_cube c scale -> proper scale -> (0 < depth (c_shape c) 0)%nat -> exists s e,
  moment2_error strategy c scale 0 "slice" v0 m0 m1 m2 e1 = Ok s /\ moment2_error strategy c scale 0 "cube" v0 m0 m1 m2 e1 = Ok e /\
  forall p q, in_image c 0 p q -> s p q = e p q.
Proof. exact agree2. Qed.
Print Assumptions C41_moment2_partial.
(** Along a spatial axis the cube-wise first moment error fails where the slice-wise one
    works, and with it both strategies of the second *)
Theorem C41_spatial_axis_refuted : forall strategy c scale v0 m0 m1 m2 n0 n1 n2,
  c_shape c = (n0, n1, n2) -> n0 <> n1 -> n0 <> 1%nat -> n1 <> 1%nat -> fits_cube c scale ->
  (exists s, moment1_error strategy c scale 1 "slice" v0 m0 m1 = Ok s) /\ moment1_error strategy c scale 1 "cube" v0 m0 m1 = Err ValueError /\
  moment2_error strategy c scale 1 "slice" v0 m0 m1 m2 None = Err ValueError /\ moment2_error strategy c scale 1 "cube" v0 m0 m1 m2 None = Err ValueError.
Proof. exact spatial. Qed.
Print Assumptions C41_spatial_axis_refuted.
Example C41_spatial_axis_instance : c_shape demo_cube = (3, 2, 2)%nat.
Proof. reflexivity. Qed.
(** A noise cube of another shape is refused by both *)
Theorem C41_noise_shape : forall strategy c shape a axis how v0 m0 m1 m2, shape <> c_shape c -> how = "slice" \/ how = "cube" ->
  moment0_error strategy c (NoiseCube shape a) axis how = Err IndexError /\ moment1_error strategy c (NoiseCube shape a) axis how v0 m0 m1 = Err IndexError /\
  forall e1, moment2_error strategy c (NoiseCube shape a) axis how v0 m0 m1 m2 e1 = Err IndexError.
Proof. exact mismatch. Qed.
Print Assumptions C41_noise_shape.
(** Whatever strategy spectral-cube proposes, "auto" gives the errors of one of the two
    strategies that exist: of "cube" when proposed, of "slice" otherwise *)
Theorem C41_auto : forall strategy c scale axis v0 m0 m1 m2, In strategy ["ray"; "slice"; "cube"] ->
  let how := if String.eqb strategy "cube" then "cube" else "slice" in
  moment0_error strategy c scale axis "auto" = moment0_error strategy c scale axis how /\
  moment1_error strategy c scale axis "auto" v0 m0 m1 = moment1_error strategy c scale axis how v0 m0 m1 /\
  forall e1, moment2_error strategy c scale axis "auto" v0 m0 m1 m2 (Some e1) = moment2_error strategy c scale axis how v0 m0 m1 m2 (Some e1).
Proof. exact auto_chosen. Qed.
Print Assumptions C41_auto.
(** The line width passes the proposed "ray" on instead, and raises *)
Theorem C41_linewidth_ray_refuted : forall c scale v0 m0 m1 m2 e1,
  linewidth_sigma_err "ray" c scale "auto" v0 m0 m1 m2 (Some e1) = Err ValueError /\
  moment2_error "ray" c scale 0 "auto" v0 m0 m1 m2 (Some e1) = moment2_error "ray" c scale 0 "slice" v0 m0 m1 m2 (Some e1).
Proof. exact ray_linewidth. Qed.
Print Assumptions C41_linewidth_ray_refuted.

(** ** C42 *)
(** Scaling the noise by k scales the errors by |k|: all moments, axes and strategies *)
Theorem C42_moment0_scales : forall k strategy c scale axis how, settled scale ->
  times k (moment0_error strategy c scale axis how) (moment0_error strategy c (scaled k scale) axis how).
Proof. exact m0_scaled. Qed.
Print Assumptions C42_moment0_scales.
Theorem C42_moment1_scales : forall k strategy c scale axis how v0 m0 m1, settled scale ->
  times k (moment1_error strategy c scale axis how v0 m0 m1) (moment1_error strategy c (scaled k scale) axis how v0 m0 m1).
Proof. exact m1_scaled. Qed.
Print Assumptions C42_moment1_scales.
(** An error of the first moment that is passed in must be scaled as well *)
Theorem C42_moment2_scales : forall k strategy c scale axis how v0 m0 m1 m2 e1 e1', settled scale ->
  match e1, e1' with None, None => True | Some e, Some e' => forall p q, e' p q = fmul (Fin (Rabs k)) (e p q) | _, _ => False end ->
  times k (moment2_error strategy c scale axis how v0 m0 m1 m2 e1) (moment2_error strategy c (scaled k scale) axis how v0 m0 m1 m2 e1').
Proof. exact m2_scaled. Qed.
Print Assumptions C42_moment2_scales.
Theorem C42_linewidth_scales : forall k strategy c scale how v0 m0 m1 m2, settled scale ->
  times k (linewidth_sigma_err strategy c scale how v0 m0 m1 m2 None) (linewidth_sigma_err strategy c (scaled k scale) how v0 m0 m1 m2 None) /\
  times k (linewidth_fwhm_err strategy c scale how v0 m0 m1 m2 None) (linewidth_fwhm_err strategy c (scaled k scale) how v0 m0 m1 m2 None).
Proof. exact lw_scaled. Qed.
Print Assumptions C42_linewidth_scales.
(** No error is negative *)
Theorem C42_moment0_not_negative : forall strategy c scale axis how, (forall p q, 0 <= c_pix_size c axis p q) -> never_negative (moment0_error strategy c scale axis how).
Proof. exact m0_nonneg. Qed.
Print Assumptions C42_moment0_not_negative.
Theorem C42_moment1_not_negative : forall strategy c scale axis how v0 m0 m1, never_negative (moment1_error strategy c scale axis how v0 m0 m1).
Proof. exact m1_nonneg. Qed.
Print Assumptions C42_moment1_not_negative.
Theorem C42_moment2_not_negative : forall strategy c scale axis how v0 m0 m1 m2 e1, never_negative (moment2_error strategy c scale axis how v0 m0 m1 m2 e1).
Proof. exact m2_nonneg. Qed.
Print Assumptions C42_moment2_not_negative.
Theorem C42_linewidth_not_negative : forall strategy c scale how v0 m0 m1 m2 e1,
  never_negative (linewidth_sigma_err strategy c scale how v0 m0 m1 m2 e1) /\ never_negative (linewidth_fwhm_err strategy c scale how v0 m0 m1 m2 e1).
Proof. exact lw_nonneg. Qed.
Print Assumptions C42_linewidth_not_negative.
(** Including more channels does not reduce the error of the zeroth moment *)
Theorem C42_more_channels : forall strategy c m m' axis scale how p q e r, settled scale -> proper scale ->
  (forall i j k, m i j k = true -> m' i j k = true) -> 0 <= c_pix_size c axis p q ->
  moment0_error strategy (remasked c m) scale axis how = Ok e -> e p q = Fin r ->
  exists e' r', moment0_error strategy (remasked c m') scale axis how = Ok e' /\ e' p q = Fin r' /\ r <= r'.
Proof. exact err0_mono. Qed.
Print Assumptions C42_more_channels.
(** The values: quadrature sums over the channels *)
Theorem C42_moment0_value : forall strategy c axis scale how p q, settled scale -> proper scale -> fits_cube c scale -> how = "slice" \/ how = "cube" ->
  (exists i, included c axis i p q) -> exists e, moment0_error strategy c scale axis how = Ok e /\
  e p q = Fin (c_pix_size c axis p q * sqrt (rsum (depth (c_shape c) axis) (fun i => if voxel axis (c_mask c) i p q then Rsqr (sigma scale axis i p q) else 0))).
Proof. exact err0_formula. Qed.
Print Assumptions C42_moment0_value.
Theorem C42_moment1_value : forall strategy c scale how v0 m0 m1 p q a b, settled scale -> proper scale -> fits_cube c scale -> how = "slice" \/ how = "cube" -> in_image c 0 p q ->
  m0 p q = Fin a -> a <> 0 -> m1 p q = Fin b -> c_pix_size c 0 p q <> 0 ->
  exists e, moment1_error strategy c scale 0 how v0 m0 m1 = Ok e /\
  e p q = Fin (sqrt (rsum (depth (c_shape c) 0) (fun i => Rsqr ((c_pix_cen c 0 i p q - (b - v0)) / (a / c_pix_size c 0 p q) * sigma scale 0 i p q)))).
Proof. exact err1_formula. Qed.
Print Assumptions C42_moment1_value.
Theorem C42_moment2_value : forall strategy c scale how v0 m0 m1 m2 e1 p q a b d f, settled scale -> proper scale -> fits_cube c scale -> how = "slice" \/ how = "cube" -> in_image c 0 p q ->
  m0 p q = Fin a -> a <> 0 -> m1 p q = Fin b -> m2 p q = Fin d -> e1 p q = Fin f -> c_pix_size c 0 p q <> 0 -> (forall i j k, no_inf (c_filled c i j k)) ->
  exists e, moment2_error strategy c scale 0 how v0 m0 m1 m2 (Some e1) = Ok e /\
  e p q = Fin (sqrt (rsum (depth (c_shape c) 0) (fun i => Rsqr ((Rsqr (c_pix_cen c 0 i p q - (b - v0)) - d) / (a / c_pix_size c 0 p q) * sigma scale 0 i p q))
                     + 4 * Rsqr (f * rsum (depth (c_shape c) 0) (fun i => datum c 0 i p q * (c_pix_cen c 0 i p q - (b - v0))) / (a / c_pix_size c 0 p q)))).
Proof. exact err2_formula. Qed.
Print Assumptions C42_moment2_value.
Example C42_instance : settled (Level (Fin 2)) /\ proper (Level (Fin 2)) /\ fits_cube demo_cube (Level (Fin 2)) /\
  (forall p q, 0 <= c_pix_size demo_cube 0 p q) /\ in_image demo_cube 0 1 0 /\ (forall i j k, no_inf (c_filled demo_cube i j k)).
Proof. exact demo_noise. Qed.
Example C42_moment0_instance : forall how, how = "slice" \/ how = "cube" -> exists e, moment0_error "cube" demo_cube (Level (Fin 2)) 0 how = Ok e /\ e 1%nat 0%nat = Fin 2.
Proof. exact demo_err0. Qed.
Example C42_moment1_instance : exists e, moment1_error "cube" demo_cube (Level (Fin 2)) 0 "slice" 0 (fun _ _ => Fin 6) (fun _ _ => Fin 1) = Ok e /\ e 1%nat 0%nat = Fin (sqrt (2 / 9)).
Proof. exact demo_err1. Qed.

(** ** C135 *)
Theorem C135_scale_history : forall cube_unit first s later, set_scale cube_unit first = Ok s -> valid_scale cube_unit (fold_left (assign_scale cube_unit) later s).
Proof. exact scale_history. Qed.
Print Assumptions C135_scale_history.
Theorem C135_scale_rules : forall cube_unit v,
  (v = Some None -> set_scale cube_unit v = Err TypeError) /\
  (forall q, v = Some (Some q) -> is_equivalent (q_unit q) cube_unit = false -> set_scale cube_unit v = Err UnitConversionError) /\
  (forall q, v = Some (Some q) -> is_equivalent (q_unit q) cube_unit = true -> hd 0 (q_vals q) < 0 -> set_scale cube_unit v = Err ValueError) /\
  (forall q, v = Some (Some q) -> is_equivalent (q_unit q) cube_unit = true -> 0 <= hd 0 (q_vals q) -> set_scale cube_unit v = Ok (Some q)) /\
  (v = None -> set_scale cube_unit v = Ok None).
Proof. exact set_scale_errors. Qed.
Print Assumptions C135_scale_rules.
Theorem C135_rejected_keeps : forall cube_unit old v e, set_scale cube_unit v = Err e -> assign_scale cube_unit old v = old.
Proof. exact scale_rejected. Qed.
Print Assumptions C135_rejected_keeps.
Example C135_instance : set_scale pix (Some None) = Err TypeError /\ set_scale pix None = Ok None.
Proof. exact (conj eq_refl eq_refl). Qed.

(** ** C136 *)
Theorem C136_units_false_refuted : forall (A S : Type) (mom0 mom1 lw : A) (st : moments A S),
  snd (make_moments A S mom0 mom1 lw false st) = Err AttributeError /\ snd (make_moments A S mom0 mom1 lw true st) = Ok tt.
Proof. exact @units_false. Qed.
Print Assumptions C136_units_false_refuted.
(** and the linewidth keeps its units *)
Theorem C136_units_false_state_refuted : forall (A S : Type) (mom0 mom1 lw : A) (st : moments A S), let st' := fst (make_moments A S mom0 mom1 lw false st) in
  m_mom0 A S st' = Some (mom0, false) /\ m_mom1 A S st' = Some (mom1, false) /\ m_lw A S st' = Some (lw, true).
Proof. exact @units_false_state. Qed.
Print Assumptions C136_units_false_state_refuted.

(** ** C137 *)
(** A noise level given to make_moment_errors alone: no errors appear *)
Theorem C137_given_scale_refuted : forall (A S : Type) zeros (err0 err1 errl : string -> S -> result A) (st : moments A S) s,
  m_mom0 A S st <> None -> m_scale A S st = None -> make_moment_errors A S zeros err0 err1 errl st (Some s) = (st, Ok tt).
Proof. exact @given_scale_unused. Qed.
Print Assumptions C137_given_scale_refuted.
(** beside that of the object: it is ignored *)
Theorem C137_given_scale_ignored : forall (A S : Type) zeros (err0 err1 errl : string -> S -> result A) (st : moments A S) s s', m_scale A S st = Some s' ->
  make_moment_errors A S zeros err0 err1 errl st (Some s) = make_moment_errors A S zeros err0 err1 errl st None.
Proof. exact @given_scale_overridden. Qed.
Print Assumptions C137_given_scale_ignored.
Theorem C137_own_scale_partial : forall (A S : Type) zeros (err0 err1 errl : string -> S -> result A) (st : moments A S) s a0 a1 al,
  m_mom0 A S st <> None -> m_scale A S st = Some s ->
  err0 (m_how A S st) s = Ok a0 -> err1 (m_how A S st) s = Ok a1 -> errl (m_how A S st) s = Ok al ->
  exists st', make_moment_errors A S zeros err0 err1 errl st None = (st', Ok tt) /\ all_moment_errs A S st' = Ok [a0; a1; al] /\ all_moments A S st' = all_moments A S st.
Proof. exact @own_scale. Qed.
Print Assumptions C137_own_scale_partial.
Theorem C137_no_scale_partial : forall (A S : Type) (z0 z1 zl : A) (err0 err1 errl : string -> S -> result A) (st : moments A S),
  m_mom0 A S st <> None -> m_scale A S st = None ->
  exists st', make_moment_errors A S (z0, z1, zl) err0 err1 errl st None = (st', Ok tt) /\ all_moment_errs A S st' = Ok [z0; z1; zl].
Proof. exact @no_scale. Qed.
Print Assumptions C137_no_scale_partial.
Theorem C137_moments_first_partial : forall (A S : Type) zeros (err0 err1 errl : string -> S -> result A) (st : moments A S) s,
  m_mom0 A S st = None -> make_moment_errors A S zeros err0 err1 errl st s = (st, Err ValueError).
Proof. exact @too_early. Qed.
Print Assumptions C137_moments_first_partial.
Example C137_instance : let st := mk_moments nat nat None "slice" None (Some (1, true)%nat) (Some (2, true)%nat) (Some (3, true)%nat) None None None in
  m_mom0 nat nat st <> None /\ all_moment_errs nat nat (fst (make_moment_errors nat nat (0, 0, 0) (fun _ s => Ok s) (fun _ s => Ok s) (fun _ s => Ok s) st (Some 5)))%nat = Err AttributeError.
Proof. split; [discriminate | reflexivity]. Qed.

(** ** C138 *)
(** Units as exponents of (cube unit, spectral unit) *)
Theorem C138_header_units_refuted : forall cube_unit spectral, spectral <> (0, 0)%nat ->
  nth 0 (header_units cube_unit spectral) (9, 9)%nat <> (fst cube_unit + fst spectral, snd cube_unit + snd spectral)%nat.
Proof. exact header0. Qed.
Print Assumptions C138_header_units_refuted.
Theorem C138_header_units_partial : forall cube_unit spectral,
  nth 1 (header_units cube_unit spectral) (9, 9)%nat = spectral /\ nth 2 (header_units cube_unit spectral) (9, 9)%nat = spectral.
Proof. exact (fun _ _ => conj eq_refl eq_refl). Qed.
Print Assumptions C138_header_units_partial.

(** ** C139 *)
Theorem C139_ray_refuted : valid_method "ray" = true /\ forall strategy c axis zeros err1 errl (st : moments (arr2 fl) noise) s given,
  m_mom0 _ _ st <> None -> m_scale _ _ st = Some s -> m_how _ _ st = "ray" ->
  make_moment_errors _ _ zeros (fun how s => moment0_error strategy c s axis how) err1 errl st given = (st, Err ValueError).
Proof. exact (conj eq_refl ray_fails). Qed.
Print Assumptions C139_ray_refuted.

(** ** C140 *)
(** A directory must be named again when loading *)
Theorem C140_round_trip_partial : forall (A S : Type) (st : moments A S) dir stem overwrite fs fs' name m0 m1 ml e0 e1 el,
  has "/"%char stem = false -> match dir with Some d => ends_slash d = false | None => True end ->
  all_moments A S st = Ok [m0; m1; ml] -> all_moment_errs A S st = Ok [e0; e1; el] -> m_save A S st = default_save (Some (file_name dir stem)) ->
  to_fits A S st None overwrite fs = Ok (fs', name) ->
  from_fits A fs' (Some (file_name dir stem)) None dir None None None None = Ok ((Some m0, Some e0), (Some m1, Some e1), (Some ml, Some el)).
Proof. exact @round_trip. Qed.
Print Assumptions C140_round_trip_partial.
(** with or without a slash at its end *)
Theorem C140_slash_partial : forall (A S : Type) (st : moments A S) d stem overwrite fs fs' name m0 m1 ml e0 e1 el,
  has "/"%char stem = false -> all_moments A S st = Ok [m0; m1; ml] -> all_moment_errs A S st = Ok [e0; e1; el] ->
  m_save A S st = default_save (Some (file_name (Some d) stem)) -> to_fits A S st None overwrite fs = Ok (fs', name) ->
  from_fits A fs' (Some (file_name (Some d) stem)) None (Some (d ++ "/")) None None None None = Ok ((Some m0, Some e0), (Some m1, Some e1), (Some ml, Some el)).
Proof. exact @round_trip_slash. Qed.
Print Assumptions C140_slash_partial.
Theorem C140_directory_refuted : forall (A S : Type) (st : moments A S) d stem overwrite fs' name m0 m1 ml e0 e1 el,
  has "/"%char stem = false -> all_moments A S st = Ok [m0; m1; ml] -> all_moment_errs A S st = Ok [e0; e1; el] ->
  m_save A S st = default_save (Some (file_name (Some d) stem)) -> to_fits A S st None overwrite (fun _ => None) = Ok (fs', name) ->
  from_fits A fs' (Some (file_name (Some d) stem)) None None None None None None = Ok ((None, None), (None, None), (None, None)).
Proof. exact @lost. Qed.
Print Assumptions C140_directory_refuted.
Theorem C140_extension_refuted : forall (A S : Type) (st : moments A S) x stem overwrite fs' name m0 m1 ml e0 e1 el,
  has "/"%char (stem ++ String x "") = false -> all_moments A S st = Ok [m0; m1; ml] -> all_moment_errs A S st = Ok [e0; e1; el] ->
  m_save A S st = default_save (Some ((stem ++ String x "") ++ ".fit")) -> to_fits A S st None overwrite (fun _ => None) = Ok (fs', name) ->
  from_fits A fs' (Some ((stem ++ String x "") ++ ".fit")) None None None None None None = Ok ((None, None), (None, None), (None, None)).
Proof. exact @lost_ext. Qed.
Print Assumptions C140_extension_refuted.
Theorem C140_mask_refuted : forall (A : Type) fs cube pre path m a b c, from_fits A fs cube pre path (Some m) a b c = Err AttributeError.
Proof. exact (fun _ _ _ _ _ _ _ _ _ => eq_refl). Qed.
Print Assumptions C140_mask_refuted.
Example C140_instance : let st := mk_moments nat nat None "slice" (default_save (Some "cube.fits")) (Some (1, true)%nat) (Some (2, true)%nat) (Some (3, true)%nat) (Some (4, true)%nat) (Some (5, true)%nat) (Some (6, true)%nat) in
  m_save nat nat st = default_save (Some (file_name None "cube")) /\ is_ok (to_fits nat nat st None false (fun _ => None)) = true /\ default_save (Some "cube.fits") = Some "cube".
Proof. exact (conj eq_refl (conj eq_refl eq_refl)). Qed.

(** ** C141 *)
Theorem C141_no_overwrite : forall (A S : Type) (st : moments A S) given fs suffix,
  let name := match given with Some n => n | None => match m_save A S st with Some n => n | None => "default" end end in
  In suffix ["_moment0.fits"; "_centroid.fits"; "_linewidth.fits"] -> fs (name ++ suffix) <> None -> is_ok (to_fits A S st given false fs) = false.
Proof. exact @no_overwrite. Qed.
Print Assumptions C141_no_overwrite.
Theorem C141_other_files_kept : forall (A S : Type) (st : moments A S) given overwrite fs fs' name, to_fits A S st given overwrite fs = Ok (fs', name) ->
  forall k, k <> name ++ "_moment0.fits" -> k <> name ++ "_centroid.fits" -> k <> name ++ "_linewidth.fits" -> fs' k = fs k.
Proof. exact @others_kept. Qed.
Print Assumptions C141_other_files_kept.
Theorem C141_errors_needed : forall (A S : Type) (st : moments A S) given overwrite fs,
  m_err0 A S st = None -> m_mom0 A S st <> None -> m_mom1 A S st <> None -> m_lw A S st <> None -> to_fits A S st given overwrite fs = Err AttributeError.
Proof. exact @errors_needed. Qed.
Print Assumptions C141_errors_needed.

(** ** C142 *)
Theorem C142_kernel_positive : forall size y z i j k, 0 < gauss_kern size y z i j k.
Proof. exact kern_pos. Qed.
Print Assumptions C142_kernel_positive.
Theorem C142_kernel_sum : forall size y z,
  rsum (2 * size + 1) (fun i => rsum (2 * kern_size size y + 1) (fun j => rsum (2 * kern_size size z + 1) (fun k => gauss_kern size y z i j k))) = 1.
Proof. exact kern_sum. Qed.
Print Assumptions C142_kernel_sum.
Theorem C142_kernel_symmetric : forall size y z i j k, (i <= 2 * size)%nat -> (j <= 2 * kern_size size y)%nat -> (k <= 2 * kern_size size z)%nat ->
  gauss_kern size y z (2 * size - i) (2 * kern_size size y - j) (2 * kern_size size z - k) = gauss_kern size y z i j k.
Proof. exact kern_mirror. Qed.
Print Assumptions C142_kernel_symmetric.
Theorem C142_kernel_peak : forall size y z i j k, (0 < size)%nat -> gauss_kern size y z i j k <= gauss_kern size y z size (kern_size size y) (kern_size size z).
Proof. exact kern_peak. Qed.
Print Assumptions C142_kernel_peak.
Example C142_instance : kern_size 3 None = 3%nat /\ kern_size 3 (Some 5%nat) = 5%nat.
Proof. exact (conj eq_refl eq_refl). Qed.
