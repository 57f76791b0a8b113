(** Properties C31, C43-C46, C72, C73 and C90: the base class, its setters, input and headers. *)
From Coq Require Import String Reals List ZArith Bool.
From Verif Require Import Lib.PyBase Lib.Fl Model.Units Model.DeltaVar Model.BaseStat Model.InputData Spec.Units Spec.Input
  Proofs.Units_Proofs Proofs.BaseStat_Proofs Proofs.InputData_Proofs.
Import ListNotations.
Local Open Scope R_scope.

(** C43.  Pixels to angles of any unit: v pixels are v * (pixel size) degrees. *)
Theorem C43_angle : forall s a vals u, s_header s = Some a -> 0 < a -> angle_unit 1 u ->
  spatial_unit_conversion s (mk_q vals pix) u = Ok (mk_q (map (fun v => v * a / u_factor u) vals) u) /\
  to_pixel s (mk_q vals u) = Ok (mk_q (map (fun v => v * u_factor u / a) vals) pix).
Proof. exact (fun s a vals u H P U => conj (to_angular_pix s a vals u H P U) (to_pixel_angle s a vals u H P U)). Qed.
Print Assumptions C43_angle.

(** C43.  Pixels to lengths: v pixels are v * (pixel size in radians) * distance. *)
Theorem C43_physical : forall s a d du vals u, located s a d du -> length_unit 1 u ->
  spatial_unit_conversion s (mk_q vals pix) u = Ok (mk_q (map (fun v => v * (a * (PI / 180) * d * u_factor du) / u_factor u) vals) u) /\
  to_pixel s (mk_q vals u) = Ok (mk_q (map (fun v => v * u_factor u / (a * (PI / 180) * d * u_factor du)) vals) pix).
Proof. exact (fun s a d du vals u L U => conj (to_physical_pix s a d du vals u L U) (to_pixel_length s a d du vals u L U)). Qed.
Print Assumptions C43_physical.

(** C43.  Both ways round, the conversions undo each other. *)
Theorem C43_roundtrip_angle : forall s a vals u, s_header s = Some a -> 0 < a -> angle_unit 1 u ->
  bind (spatial_unit_conversion s (mk_q vals pix) u) (to_pixel s) = Ok (mk_q vals pix) /\
  bind (to_pixel s (mk_q vals u)) (fun p => spatial_unit_conversion s p u) = Ok (mk_q vals u).
Proof. exact roundtrip_angle. Qed.
Print Assumptions C43_roundtrip_angle.
Theorem C43_roundtrip_physical : forall s a d du vals u, located s a d du -> length_unit 1 u ->
  bind (spatial_unit_conversion s (mk_q vals pix) u) (to_pixel s) = Ok (mk_q vals pix) /\
  bind (to_pixel s (mk_q vals u)) (fun p => spatial_unit_conversion s p u) = Ok (mk_q vals u).
Proof. exact roundtrip_length. Qed.
Print Assumptions C43_roundtrip_physical.

(** C43.  Frequencies convert by the reciprocal factor, areas by its square. *)
Theorem C43_frequency_angle : forall s a vals u, s_header s = Some a -> 0 < a -> angle_unit (-1) u -> Forall (fun v => v <> 0) vals ->
  to_pixel_freq s (mk_q vals u) = Ok (mk_q (map (fun v => v * u_factor u * a) vals) (pixel_unit (-1))).
Proof. exact freq_angle. Qed.
Print Assumptions C43_frequency_angle.
Theorem C43_frequency_physical : forall s a d du vals u, located s a d du -> length_unit (-1) u -> Forall (fun v => v <> 0) vals ->
  to_pixel_freq s (mk_q vals u) = Ok (mk_q (map (fun v => v * u_factor u * (a * (PI / 180) * d * u_factor du)) vals) (pixel_unit (-1))).
Proof. exact freq_length. Qed.
Print Assumptions C43_frequency_physical.
Theorem C43_frequency_roundtrip : forall s a vals u, s_header s = Some a -> 0 < a -> angle_unit (-1) u -> Forall (fun v => v <> 0) vals ->
  bind (spatial_freq_unit_conversion s (mk_q vals (pixel_unit (-1))) u) (to_pixel_freq s) = Ok (mk_q vals (pixel_unit (-1))).
Proof. exact freq_roundtrip_angle. Qed.
Print Assumptions C43_frequency_roundtrip.
Theorem C43_area_angle : forall s a vals u, s_header s = Some a -> 0 < a -> angle_unit 2 u -> Forall (fun v => 0 <= v) vals ->
  to_pixel_area s (mk_q vals u) = Ok (mk_q (map (fun v => v * u_factor u / (a * a)) vals) (pixel_unit 2)).
Proof. exact area_angle. Qed.
Print Assumptions C43_area_angle.
Theorem C43_area_physical : forall s a d du vals u, located s a d du -> length_unit 2 u -> Forall (fun v => 0 <= v) vals ->
  to_pixel_area s (mk_q vals u) = Ok (mk_q (map (fun v => v * u_factor u / (a * (PI / 180) * d * u_factor du) ^ 2) vals) (pixel_unit 2)).
Proof. exact area_length. Qed.
Print Assumptions C43_area_physical.

(** C43.  Errors. *)
Theorem C43_incompatible : forall s q u, unrelated (q_unit q) -> unrelated u ->
  to_pixel s q = Err UnitConversionError /\ forall p, spatial_unit_conversion s p u = Err UnitConversionError.
Proof. exact unrelated_errors. Qed.
Print Assumptions C43_incompatible.
Theorem C43_no_distance : forall s vals u, s_distance s = None -> length_unit 1 u ->
  to_pixel s (mk_q vals u) = Err AttributeError /\ forall p, spatial_unit_conversion s p u = Err AttributeError.
Proof. exact no_distance. Qed.
Print Assumptions C43_no_distance.
Theorem C43_no_header : forall s vals u, s_header s = None -> angle_unit 1 u \/ length_unit 1 u ->
  to_pixel s (mk_q vals u) = Err AttributeError /\ forall p, spatial_unit_conversion s p u = Err AttributeError.
Proof. exact (fun s vals u H U => match U with or_introl A => no_header s vals u H A | or_intror B => no_header_physical s vals u H B end). Qed.
Print Assumptions C43_no_header.

(** C43.  Channels to velocities and back. *)
Theorem C43_spectral_roundtrip : forall w su vals, 0 < w -> is_equivalent su pix = false -> 0 < u_factor su ->
  forall u, is_equivalent u su = true -> 0 < u_factor u ->
  bind (to_spectral (Some (w, su)) (mk_q vals pix) u) (fun q => to_spectral (Some (w, su)) q pix) = Ok (mk_q vals pix).
Proof. exact spectral_roundtrip. Qed.
Print Assumptions C43_spectral_roundtrip.

Example C43_nonvacuous : located ex_stat (1 / 100) 140 pc /\ angle_unit 1 ex_arcmin /\ length_unit 1 ex_mpc.
Proof. exact ex_located. Qed.
Example C43_nonvacuous_powers : angle_unit (-1) (inv_unit ex_arcmin) /\ length_unit (-1) (inv_unit ex_mpc) /\ angle_unit 2 (mk_unit 0 2 0 0 (1 / 3600)) /\ length_unit 2 (mk_unit 0 0 2 0 (1 / 1000000)).
Proof. exact ex_freq_units. Qed.
Example C43_nonvacuous_value : to_pixel ex_stat (mk_q [3] ex_arcmin) = Ok (mk_q [5] pix).
Proof. exact ex_arcmin_value. Qed.
Example C43_nonvacuous_unrelated : unrelated (mk_unit 0 0 0 1 1).
Proof. exact ex_unrelated. Qed.

(** C44.  An assignment that raises leaves the whole object as it was. *)
Theorem C44_rejected : forall o a e, snd (assign o a) = Some e -> fst (assign o a) = o.
Proof. exact assign_rejected. Qed.
Print Assumptions C44_rejected.

(** C44.  Exactly the wrong values are rejected, with the stated exception, and an
    accepted value replaces that attribute only. *)
Theorem C44_distance : forall o v,
  (exists q, acceptable_distance v q /\ set_distance o v = (mk_obj (o_need_header o) (o_no_data o) (o_header o) (Some q) (o_data o), None)) \/
  ((forall q, ~ acceptable_distance v q) /\ exists e, (e = TypeError \/ e = UnitConversionError) /\ set_distance o v = (o, Some e)).
Proof. exact set_distance_spec. Qed.
Print Assumptions C44_distance.
Theorem C44_header : forall o v,
  (exists h, acceptable_header o v h /\ set_header o v = (mk_obj (o_need_header o) (o_no_data o) (Some h) (o_distance o) (o_data o), None)) \/
  ((forall h, ~ acceptable_header o v h) /\ set_header o v = (o, Some TypeError)).
Proof. exact set_header_spec. Qed.
Print Assumptions C44_header.
Theorem C44_data : forall o v,
  (exists h, acceptable_data o v h /\ set_data o v = (mk_obj (o_need_header o) (o_no_data o) (o_header o) (o_distance o) (Some h), None)) \/
  ((forall h, ~ acceptable_data o v h) /\ set_data o v = (o, Some TypeError)).
Proof. exact set_data_spec. Qed.
Print Assumptions C44_data.

(** C44.  After any history of assignments, each attribute is the last acceptable value
    assigned to it, or what it was. *)
Theorem C44_history : forall o l,
  last_accepted acceptable_distance (o_distance o) (distance_values l) (o_distance (assign_all o l)) /\
  last_accepted (acceptable_header o) (o_header o) (header_values l) (o_header (assign_all o l)) /\
  last_accepted (acceptable_data o) (o_data o) (data_values l) (o_data (assign_all o l)).
Proof. exact (fun o l => conj (distance_history l o) (conj (header_history l o) (data_history l o))). Qed.
Print Assumptions C44_history.

Example C44_nonvacuous :
  assign_all ex_obj [ADistance POther; ADistance (PQuantity (mk_q [140] pc) true); ADistance (PQuantity (mk_q [3] deg) true); AData (PArray (mk_arr [1; 2]%nat [Fin 1; Fin 2])); AData PNone; AHeader POther] =
  mk_obj true false (Some (Some 1)) (Some (mk_q [140] pc)) (Some (Some (mk_arr [2]%nat [Fin 1; Fin 2]))).
Proof. exact ex_history. Qed.

(** C31.  Lags (delta variance, Tsallis) and scales (wavelets): accepted exactly when
    acceptable, and a rejected assignment keeps the old value.  A lag is compared by its
    whole number of pixels. *)
Theorem C31_lags_partial : forall s side old v,
  (exists q, acceptable_lags s side v q /\ set_lags s side old v = (Some q, None)) \/
  ((forall q, ~ acceptable_lags s side v q) /\ fst (set_lags s side old v) = old /\ exists e, snd (set_lags s side old v) = Some e).
Proof. exact set_lags_spec. Qed.
Print Assumptions C31_lags_partial.

(** C31.  So a lag above half the smaller side can be accepted. *)
Theorem C31_lags_refuted : forall s, exists side q, set_lags s side None (LagQuantity q) = (Some q, None) /\
  exists l, q_vals q = [l] /\ q_unit q = pix /\ INR side / 2 < l.
Proof. exact lags_above_half. Qed.
Print Assumptions C31_lags_refuted.

(** C31.  Radii and smoothing radii. *)
Theorem C31_radius : forall s side old v,
  (exists q, acceptable_radius s side v q /\ set_radius s side old v = (Some q, None)) \/
  ((forall q, ~ acceptable_radius s side v q) /\ fst (set_radius s side old v) = old /\ exists e, snd (set_radius s side old v) = Some e).
Proof. exact set_radius_spec. Qed.
Print Assumptions C31_radius.
Theorem C31_smoothing : forall side old v,
  (exists q, acceptable_smoothing side v q /\ set_smoothing true side old v = (Some q, None)) \/
  ((forall q, ~ acceptable_smoothing side v q) /\ fst (set_smoothing true side old v) = old /\ snd (set_smoothing true side old v) = Some ValueError).
Proof. exact set_smoothing_spec. Qed.
Print Assumptions C31_smoothing.

(** C31.  After any history of assignments the last acceptable value stands. *)
Theorem C31_history : forall s side,
  (forall l old, last_accepted (acceptable_lags s side) old l (set_all (set_lags s side) old l)) /\
  (forall l old, last_accepted (acceptable_radius s side) old l (set_all (set_radius s side) old l)) /\
  (forall l old, last_accepted (acceptable_smoothing side) old l (set_all (set_smoothing true side) old l)).
Proof. exact (fun s side => conj (lags_history s side) (conj (radius_history s side) (smoothing_history side))). Qed.
Print Assumptions C31_history.

Example C31_nonvacuous : acceptable_lags ex_stat 64 (LagQuantity (mk_q [3; 32] pix)) (mk_q [3; 32] pix) /\
  ~ acceptable_lags ex_stat 64 (LagQuantity (mk_q [33] pix)) (mk_q [33] pix) /\ acceptable_radius ex_stat 64 (LagQuantity (mk_q [2] pix)) (mk_q [2] pix) /\
  acceptable_smoothing 64 [1; 32] [1; 32].
Proof. exact ex_lags. Qed.

(** C90.  Angular scales (wavelets) and lags (Tsallis) give what the same lags in pixels
    give. *)
Theorem C90_scales_partial : forall s a vals u, s_header s = Some a -> 0 < a -> angle_unit 1 u ->
  wavelet_used_scales s (mk_q vals u) = wavelet_used_scales s (mk_q (map (fun v => v * u_factor u / a) vals) pix) /\
  tsallis_used_lags s (mk_q vals u) = tsallis_used_lags s (mk_q (map (fun v => v * u_factor u / a) vals) pix).
Proof. exact used_scales_same. Qed.
Print Assumptions C90_scales_partial.
(** C90.  The constructor of DeltaVariance converts its lags. *)
Theorem C90_constructor_partial : forall s side n q p, to_pixel s q = Ok p -> q_unit p = pix ->
  deltavar_init_lags s side n (Some (inr q)) = deltavar_init_lags s side n (Some (inl (q_vals p))).
Proof. exact init_lags_converted. Qed.
Print Assumptions C90_constructor_partial.
(** C90.  Assigned to a DeltaVariance object, the same lags in degrees and in pixels are
    both accepted, and give different kernels. *)
Theorem C90_deltavar_refuted : exists s side q p, to_pixel s q = Ok p /\ q_unit p = pix /\
  set_lags s side None (LagQuantity q) = (Some q, None) /\ set_lags s side None (LagQuantity p) = (Some p, None) /\
  deltavar_used_lags s q <> deltavar_used_lags s p.
Proof. exact deltavar_raw_lags. Qed.
Print Assumptions C90_deltavar_refuted.
Example C90_nonvacuous : to_pixel ex_stat (mk_q [3] ex_arcmin) = Ok (mk_q [5] pix).
Proof. exact ex_arcmin_value. Qed.

(** C45.  Saving leaves every object as it was. *)
Theorem C45_unchanged : forall l h f a, (a < length h)%nat -> deref (fst (save_all h f l)) a = deref h a.
Proof. exact save_all_leaves. Qed.
Print Assumptions C45_unchanged.
(** C45.  The name ends in .pkl, added only if missing. *)
Theorem C45_name : forall name, (exists t, pkl_name name = (t ++ ".pkl")%string) /\ pkl_name (pkl_name name) = pkl_name name /\
  (pkl_name name = name \/ (pkl_name name = (name ++ ".pkl")%string /\ ~ exists t, name = (t ++ ".pkl")%string)).
Proof. exact pkl_name_spec. Qed.
Print Assumptions C45_name.
(** C45.  In any history of saves, a file loads as the state of the object saved last under
    that name: all attributes, without the data unless keep_data. *)
Theorem C45_restored_partial : forall l1 l2 h f self name keep, (self < length h)%nat ->
  (forall s n k, In (s, n, k) l2 -> pkl_name n <> pkl_name name) ->
  exists h' a, load_results (fst (save_all h f (l1 ++ (self, name, keep) :: l2))) (snd (save_all h f (l1 ++ (self, name, keep) :: l2))) (pkl_name name) = Ok (h', a) /\
  forall attr, get_attr (deref h' a) attr =
    if negb keep && String.eqb attr "_data" then Some ANone else get_attr (deref h self) attr.
Proof. exact save_all_load. Qed.
Print Assumptions C45_restored_partial.
(** C45.  MVC overrides save_results and keeps the data. *)
Theorem C45_mvc_refuted : exists h f self name, get_attr (deref h self) "_data" <> Some ANone /\ get_attr (deref h self) "_data" <> None /\ exists h' a,
  load_results (fst (save_results_mvc h f self name false)) (snd (save_results_mvc h f self name false)) (pkl_name name) = Ok (h', a) /\
  get_attr (deref h' a) "_data" = get_attr (deref h self) "_data".
Proof. exact mvc_keeps_data. Qed.
Print Assumptions C45_mvc_refuted.
(** C45.  A name without .pkl is not found again. *)
Theorem C45_load_name_partial : forall h f self name keep, endswith_pkl name = false -> read_file f name = None ->
  load_results (fst (save_results h f self name keep)) (snd (save_results h f self name keep)) name = Err OtherError.
Proof. exact load_needs_suffix. Qed.
Print Assumptions C45_load_name_partial.
Example C45_nonvacuous : pkl_name "scf" = "scf.pkl"%string /\ pkl_name "scf.pkl" = "scf.pkl"%string.
Proof. exact (conj eq_refl eq_refl). Qed.

(** C46.  Exactly the supported inputs are accepted; the others raise TypeError. *)
Theorem C46_kinds : forall st data no_header need_copy,
  (supported data no_header /\ is_ok (input_data st data no_header need_copy) = true) \/
  (~ supported data no_header /\ input_data st data no_header need_copy = Err TypeError).
Proof. exact accepts. Qed.
Print Assumptions C46_kinds.
(** C46.  The input's data and header are returned, and no array is changed. *)
Theorem C46_returned : forall st data no_header need_copy st' d hd, input_data st data no_header need_copy = Ok (st', d, hd) -> wf_source st data ->
  (forall r, (r < length st)%nat -> read st' r = read st r) /\
  item_value st' d = source_value st data /\ hd = (if no_header then None else source_header data).
Proof. exact returned. Qed.
Print Assumptions C46_returned.
(** C46.  With need_copy, writing to the returned data changes no array of the caller,
    unless the input was a pair. *)
Theorem C46_copy_partial : forall st data no_header st' r hd v, input_data st data no_header true = Ok (st', IArray r, hd) -> wf_source st data ->
  (forall l, data <> Sequence l) -> forall q, (q < length st)%nat -> read (write st' r v) q = read st q.
Proof. exact copy_protects. Qed.
Print Assumptions C46_copy_partial.
Theorem C46_copy_refuted : exists st data st' r hd v, wf_source st data /\ input_data st data false true = Ok (st', IArray r, hd) /\
  source_value (write st' r v) data <> source_value st data.
Proof. exact copy_not_protects. Qed.
Print Assumptions C46_copy_refuted.
Example C46_nonvacuous : input_data [[Fin 1; NaN]] (ImageHDU 0 7) false true = Ok ([[Fin 1; NaN]; [Fin 1; NaN]], IArray 1, Some (IHeader 7)).
Proof. reflexivity. Qed.

(** C72.  Beam headers. *)
Theorem C72_beam : forall hdr, match find_beam_properties hdr with
  | Ok (maj, mn, pa) => exists h, hdr = Some h /\ h "BMAJ"%string = Some maj /\ (h "BMIN"%string = Some mn \/ (h "BMIN"%string = None /\ mn = maj)) /\ (h "BPA"%string = Some pa \/ (h "BPA"%string = None /\ pa = 0))
  | Err TypeError => hdr = None
  | Err ValueError => exists h, hdr = Some h /\ h "BMAJ"%string = None
  | Err _ => False
  end.
Proof. exact beam_spec. Qed.
Print Assumptions C72_beam.
Theorem C72_width : forall hdr, find_beam_width hdr = match find_beam_properties hdr with Ok (maj, _, _) => Ok maj | Err e => Err e end.
Proof. exact beam_width_spec. Qed.
Print Assumptions C72_width.
Example C72_nonvacuous : find_beam_properties (Some (fun k => if String.eqb k "BMAJ" then Some 3 else None)) = Ok (3, 3, 0).
Proof. reflexivity. Qed.

(** C73.  FITS axis 1 is the last numpy axis; the code uses the first image axis. *)
Theorem C73_axes_refuted : exists n1 n2, fst (image_crpix (n1, n2)) <> INR n2 / 2 /\ forall k, fst (cube_crpix (k, n1, n2)) <> INR n2 / 2.
Proof. exact crpix_refuted. Qed.
Print Assumptions C73_axes_refuted.
Theorem C73_square_partial : forall n k, image_crpix (n, n) = (INR n / 2, INR n / 2) /\ cube_crpix (k, n, n) = (INR n / 2, INR n / 2).
Proof. exact crpix_square. Qed.
Print Assumptions C73_square_partial.
