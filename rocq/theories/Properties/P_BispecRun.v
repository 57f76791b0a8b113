(** Bispectrum objects, their slices and their distances (C269-C271).

    [rng s m n] are the m pairs of angles drawn for the n-th cell after seeding with s. *)
From Coq Require Import Reals String List ZArith Arith Bool Lia Lra.
From Coquelicot Require Import Complex.
From Verif Require Import Lib.PyBase Lib.Fl Lib.RSum Spec.Waves Spec.BispecRun Model.Units Model.Bispec Model.BispecRun
  Proofs.Bispec_Proofs Proofs.Bispec2_Proofs Proofs.BispecRun_Proofs Proofs.BispecRun2_Proofs.
Import ListNotations.
Local Open Scope R_scope.

(** ** C269.  The surfaces of an object are those of its last run, whatever was run before. *)
Theorem C269_surfaces_partial : forall rng im l a, fits (i_ny im) (i_nx im) -> (forall n, (n < (i_ny im / 2) * (i_nx im / 2))%nat -> rng (a_seed a) (a_nsamples a) n <> []) ->
  exists o B K, run rng im (history rng im fresh l) a = (o, None) /\ b_bispectrum o = Some B /\ b_bicoherence o = Some K /\
    forall k1 k2 w1 w2 w3 data, (k1 < i_ny im / 2)%nat -> (k2 < i_nx im / 2)%nat ->
      let angles := rng (a_seed a) (a_nsamples a) (k1 * (i_nx im / 2) + k2)%nat in
      (forall phi, In phi angles -> draws k1 k2 phi (w1 phi) (w2 phi) (w3 phi)) ->
      (forall i j, data i j = analysed (i_ny im) (i_nx im) (a_mean a) (i_pix im) i j) ->
      let samps := map (fun phi => triple (mode (i_ny im) (i_nx im) data) (w1 phi) (w2 phi) (w3 phi)) angles in
      B k1 k2 = csum_list samps /\
      ((forall c, In c samps -> c = RtoC 0) -> K k1 k2 = NaN) /\
      ((exists c, In c samps /\ c <> RtoC 0) -> exists v, K k1 k2 = Fin v /\ 0 <= v <= 1 /\ v * lsum (map Cmod samps) = Cmod (csum_list samps)).
Proof. exact run_surfaces. Qed.
Print Assumptions C269_surfaces_partial.
Theorem C269_history_partial : forall rng im o1 o2 a o, run rng im o1 a = (o, None) -> run rng im o2 a = (o, None).
Proof. exact run_forgets. Qed.
Print Assumptions C269_history_partial.
Example C269_case : exists o, run (fun _ _ _ => [(0, 0)]) (mk_im 4 4 point) fresh (mk_ba 1000 1 false) = (o, None) /\ fits 4 4.
Proof.
  destruct (run_surfaces (fun _ _ _ => [(0, 0)]) (mk_im 4 4 point) [] (mk_ba 1000 1 false)) as (o&B&K&E&_); [apply fits_square|discriminate|].
  exists o. split; [exact E|apply fits_square].
Qed.
(** A run that raised leaves a bicoherence of zeros beside the amplitudes of the run before. *)
Theorem C269_failed_refuted : forall pix a, exists rng, (forall s m n, rng s m n <> []) /\
  (exists o e, run rng (mk_im 32 64 pix) fresh a = (o, Some e)) /\
  forall o1 o e, run rng (mk_im 32 64 pix) o1 a = (o, Some e) -> b_bicoherence o = Some (fun _ _ => Fin 0) /\ b_logamp o = b_logamp o1.
Proof.
  intros pix a. destruct (rectangle_fails pix a) as (rng&o&e&NE&E). exists rng. split; [exact NE|]. split; [now exists o, e|].
  intros o1 o' e'. exact (run_failed rng _ o1 a o' e').
Qed.
Print Assumptions C269_failed_refuted.

(** ** C270.  Distances of data and of objects.  Missing: the distance of blank surfaces. *)
Theorem C270_objects_partial : forall rng im1 im2 kw l1 l2, fits (i_ny im1) (i_nx im1) -> fits (i_ny im2) (i_nx im2) ->
  (forall im, im = im1 \/ im = im2 -> forall n, (n < (i_ny im / 2) * (i_nx im / 2))%nat -> rng (a_seed kw) (a_nsamples kw) n <> []) ->
  exists o1 o2 ds dm, distance rng (Data im1) (Data im2) kw = Ok (o1, o2, ds, dm) /\
    run rng im1 (history rng im1 fresh l1) kw = (o1, None) /\ run rng im2 (history rng im2 fresh l2) kw = (o2, None) /\
    forall kw', distance rng (Object im1 o1) (Object im2 o2) kw' = Ok (o1, o2, ds, dm) /\ distance rng (Data im1) (Object im2 o2) kw = Ok (o1, o2, ds, dm) /\
                distance rng (Object im1 o1) (Data im2) kw = Ok (o1, o2, ds, dm).
Proof. exact distance_objects. Qed.
Print Assumptions C270_objects_partial.
Theorem C270_value_partial : forall rng g1 g2 kw o1 o2 ds dm s1 s2 v1 v2, prepared rng g1 kw = (o1, None) -> prepared rng g2 kw = (o2, None) ->
  b_bicoherence o1 = Some s1 -> b_bicoherence o2 = Some s2 ->
  distance rng g1 g2 kw = Ok (o1, o2, ds, dm) ->
  i_ny (image_of g2) = i_ny (image_of g1) -> i_nx (image_of g2) = i_nx (image_of g1) -> (2 <= i_ny (image_of g1))%nat -> (2 <= i_nx (image_of g1))%nat ->
  let hy := (i_ny (image_of g1) / 2)%nat in let hx := (i_nx (image_of g1) / 2)%nat in
  (forall i j, (i < hy)%nat -> (j < hx)%nat -> s1 i j = Fin (v1 i j)) -> (forall i j, (i < hy)%nat -> (j < hx)%nat -> s2 i j = Fin (v2 i j)) ->
  ds = Fin (grid_norm hy hx (fun i j => v1 i j - v2 i j)) /\
  dm = Fin (Rabs (rsum hy (fun i => rsum hx (fun j => v1 i j)) - rsum hy (fun i => rsum hx (fun j => v2 i j))) / INR (hy * hx)).
Proof. exact distance_value. Qed.
Print Assumptions C270_value_partial.
Example C270_case : exists o1 o2 ds dm, distance (fun _ _ _ => [(0, 0)]) (Data (mk_im 4 4 point)) (Data (mk_im 4 4 point)) (mk_ba 1000 1 false) = Ok (o1, o2, ds, dm).
Proof.
  destruct (distance_objects (fun _ _ _ => [(0, 0)]) (mk_im 4 4 point) (mk_im 4 4 point) (mk_ba 1000 1 false) [] []) as (o1&o2&ds&dm&E&_); [apply fits_square|apply fits_square|discriminate|].
  now exists o1, o2, ds, dm.
Qed.
(** An object whose run raised is compared with its zeros: no error, and the distance is the size
    of the other surface. *)
Theorem C270_failed_refuted : forall rng im1 o1 im2 o2 a o e s v kw, run rng im1 o1 a = (o, Some e) ->
  i_ny im2 = i_ny im1 -> i_nx im2 = i_nx im1 -> (2 <= i_ny im1)%nat -> (2 <= i_nx im1)%nat ->
  b_bicoherence o2 = Some s -> (forall i j, (i < i_ny im1 / 2)%nat -> (j < i_nx im1 / 2)%nat -> s i j = Fin (v i j)) ->
  distance rng (Object im1 o) (Object im2 o2) kw = Ok (o, o2, Fin (grid_norm (i_ny im1 / 2) (i_nx im1 / 2) v),
    Fin (Rabs (rsum (i_ny im1 / 2) (fun i => rsum (i_nx im1 / 2) (fun j => v i j))) / INR (i_ny im1 / 2 * (i_nx im1 / 2)))).
Proof. exact failed_distance. Qed.
Print Assumptions C270_failed_refuted.
Example C270_failed_case : exists rng o e, run rng (mk_im 32 64 point) fresh (mk_ba 1000 1 false) = (o, Some e) /\
  distance rng (Object (mk_im 32 64 point) o) (Object (mk_im 32 64 point) (mk_b None (Some (fun _ _ => Fin (1 / 2))) None None)) (mk_ba 1000 1 false) =
  Ok (o, mk_b None (Some (fun _ _ => Fin (1 / 2))) None None, Fin (grid_norm 16 32 (fun _ _ => 1 / 2)), Fin (Rabs (rsum 16 (fun i => rsum 32 (fun j => 1 / 2))) / INR (16 * 32))).
Proof.
  destruct (rectangle_fails point (mk_ba 1000 1 false)) as (rng&o&e&_&E). exists rng, o, e. split; [exact E|].
  apply (failed_distance rng (mk_im 32 64 point) fresh (mk_im 32 64 point) _ _ o e (fun _ _ => Fin (1 / 2)) (fun _ _ => 1 / 2) _ E); cbn [i_ny i_nx]; auto; lia.
Qed.

(** ** C271.  Slices for several radii or angles are those of each one alone. *)
Theorem C271_radii_partial : forall hy hx o bw value rs radii delta ds, (radii = NList rs \/ radii = NArray rs) -> widths_of (length rs) delta = Some ds -> length ds = length rs ->
  forall l, azimuthal_slices hy hx o radii delta bw value = Ok l -> map fst l = rs /\
  forall i r d, nth_error rs i = Some r -> nth_error ds i = Some d -> exists s, nth_error l i = Some (r, s) /\ azimuthal_slices hy hx o (Number r) (Number d) bw value = Ok [(r, s)].
Proof. exact azimuthal_each. Qed.
Print Assumptions C271_radii_partial.
Example C271_radii_case : exists l, azimuthal_slices 4 5 bowl (NList [1; 3]) (NArray [1; 2]) quarter "bicoherence" = Ok l.
Proof. exact bowl_slices. Qed.
Theorem C271_angles_partial : forall hy hx o bw value l u dl ud rows, angular u -> angular ud -> length l = length dl ->
  radial_slices hy hx o (QArray l u) (QArray dl ud) bw value = Ok rows -> map fst rows = l /\
  forall i t d t' u' d' ud', nth_error l i = Some t -> nth_error dl i = Some d -> angular u' -> angular ud' -> same_angle t u t' u' -> same_angle d ud d' ud' ->
    exists s, nth_error rows i = Some (t, s) /\ radial_slices hy hx o (QScalar t' u') (QScalar d' ud') bw value = Ok [(t', s)].
Proof. exact radial_each. Qed.
Print Assumptions C271_angles_partial.
Theorem C271_one_width : forall hy hx o bw value l u d ud, angular u -> angular ud ->
  radial_slices hy hx o (QArray l u) (QScalar d ud) bw value = radial_slices hy hx o (QArray l u) (QArray (repeat d (length l)) ud) bw value.
Proof. exact radial_shared. Qed.
Print Assumptions C271_one_width.
Example C271_angles_case : (exists l, radial_slices 4 5 bowl (QArray [30; 60] deg) (QScalar 20 deg) (3 / 2) "bicoherence" = Ok l) /\ angular deg /\ angular rad /\ same_angle 180 deg PI rad.
Proof. split; [exact bowl_radial|]. split; [reflexivity|]. split; [reflexivity|]. unfold same_angle. cbn. field. apply PI_neq0. Qed.
(** Wrong lengths and units are refused, ... *)
Theorem C271_refused : forall hy hx o bq bw value surf l u dl ud, surface_of o value = Ok surf ->
  (length l <> length dl -> azimuthal_slices hy hx o (NList l) (NArray dl) bq value = Err ValueError /\ azimuthal_slices hy hx o (NArray l) (NArray dl) bq value = Err ValueError) /\
  (angular u -> angular ud -> length l <> length dl -> radial_slices hy hx o (QArray l u) (QArray dl ud) bw value = Err ValueError) /\
  (~ angular u \/ ~ angular ud -> radial_slices hy hx o (QArray l u) (QArray dl ud) bw value = Err TypeError) /\
  radial_slices hy hx o (QArray l u) Plain bw value = Err TypeError.
Proof.
  intros hy hx o bq bw value surf l u dl ud ES. split; [exact (azimuthal_lengths hy hx o bq value surf l dl ES)|]. exact (radial_refused hy hx o bw value surf l u dl ud ES).
Qed.
Print Assumptions C271_refused.
Example C271_refused_case : surface_of bowl "bicoherence" = Ok (fun i j => Fin (INR (i + j))) /\ ~ angular pix.
Proof. split; [reflexivity|discriminate]. Qed.
(** A slice is one of the surface asked for: equal surfaces have equal slices, by whatever name; a
    surface that was not computed and a name that is none are errors. *)
Theorem C271_surface : forall hy hx o radii delta bq thetas deltas bw,
  (forall o' s, b_logamp o = Some s -> b_bicoherence o' = Some s ->
    azimuthal_slices hy hx o radii delta bq "bispectrum_logamp" = azimuthal_slices hy hx o' radii delta bq "bicoherence" /\
    radial_slices hy hx o thetas deltas bw "bispectrum_logamp" = radial_slices hy hx o' thetas deltas bw "bicoherence") /\
  (b_logamp o = None -> azimuthal_slices hy hx o radii delta bq "bispectrum_logamp" = Err AttributeError /\ radial_slices hy hx o thetas deltas bw "bispectrum_logamp" = Err AttributeError) /\
  (b_bicoherence o = None -> azimuthal_slices hy hx o radii delta bq "bicoherence" = Err AttributeError /\ radial_slices hy hx o thetas deltas bw "bicoherence" = Err AttributeError) /\
  (forall value, value <> "bispectrum"%string -> value <> "bispectrum_logamp"%string -> value <> "bicoherence"%string ->
    azimuthal_slices hy hx o radii delta bq value = Err TypeError /\ radial_slices hy hx o thetas deltas bw value = Err TypeError).
Proof. exact slice_surface. Qed.
Print Assumptions C271_surface.
Example C271_surface_case : b_logamp (mk_b None None (b_bicoherence bowl) None) = b_bicoherence bowl /\ b_logamp bowl = None.
Proof. split; reflexivity. Qed.
(** ... but so is a list with a width for each radius, widths of a single radius are dropped after
    the first, a radius asked for twice has one slice, and angles without a unit are no TypeError. *)
Theorem C271_list_refuted : forall hy hx o b value surf r rs ds, surface_of o value = Ok surf -> is_equivalent (q_unit b) rad = true ->
  length ds = length (r :: rs) -> (2 <= length ds)%nat -> length ds <> hx ->
  is_ok (azimuthal_slices hy hx o (NList (r :: rs)) (NList ds) (inr b) value) = false /\ is_ok (azimuthal_slices hy hx o (NArray (r :: rs)) (NList ds) (inr b) value) = false.
Proof. exact azimuthal_list. Qed.
Print Assumptions C271_list_refuted.
Theorem C271_first_refuted : forall hy hx o bw value r d ds, azimuthal_slices hy hx o (Number r) (NArray (d :: ds)) bw value = azimuthal_slices hy hx o (Number r) (Number d) bw value.
Proof. exact azimuthal_first. Qed.
Print Assumptions C271_first_refuted.
Theorem C271_twice_refuted : forall hy hx o bw value r d1 d2 l, azimuthal_slices hy hx o (NArray [r; r]) (NArray [d1; d2]) bw value = Ok l ->
  exists s1 s2, azimuthal_slices hy hx o (Number r) (Number d1) bw value = Ok [(r, s1)] /\ azimuthal_slices hy hx o (Number r) (Number d2) bw value = Ok [(r, s2)] /\
    lookup l r = Some s2.
Proof. exact azimuthal_twice. Qed.
Print Assumptions C271_twice_refuted.
Theorem C271_plain_refuted : forall hy hx o delta bw value surf, surface_of o value = Ok surf -> radial_slices hy hx o Plain delta bw value = Err AttributeError.
Proof. exact radial_plain. Qed.
Print Assumptions C271_plain_refuted.
