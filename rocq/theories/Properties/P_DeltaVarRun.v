(** C256-C258: a DeltaVariance object through a history of calls, and the lags and limits of
    DeltaVariance_Distance.  Model: Model/DeltaVarRun.v.  Vocabulary: Spec/DeltaVarRun.v. *)
From Coq Require Import String Reals List ZArith Arith Bool Lia Lra.
From Verif Require Import Lib.PyBase Lib.Fl Spec.DeltaVar Spec.Components Spec.DeltaVarRun Model.Units Model.DeltaVar Model.FitState Model.DeltaVarRun Proofs.DeltaVarRun_Proofs Proofs.DeltaVarRun3_Proofs.
Import ListNotations.
Local Open Scope R_scope.

(** C256: what a run leaves does not depend on what was done with the object before, except
    through its lags. *)
Theorem C256_run : forall e o o2 c a, d_lags o = d_lags o2 -> d_lags o <> [] ->
  snd (run e o c a) = snd (run e o2 c a) /\
  (snd (run e o c a) = None ->
     same_results (fst (run e o c a)) (fst (run e o2 c a)) /\
     exists c', c_boundary c' = c_boundary c /\ c_others c' = c_others c /\ d_lags (fst (run e o c a)) = d_lags o /\ curve_of e (fst (run e o c a)) c').
Proof. exact run_fresh. Qed.
Print Assumptions C256_run.
Example C256_run_case : forall k r f,
  snd (run (toy 1 48) (mk_dvo [6; 12; 24] (Some []) k r f) wrap (range_px 5 13)) = None.
Proof.
  intros k r f. destruct (run_fresh (toy 1 48) (mk_dvo [6; 12; 24] None [("_convolved_arrays"%string, []); ("_convolved_weights"%string, [])] None unfitted)
    (mk_dvo [6; 12; 24] (Some []) k r f) wrap (range_px 5 13) eq_refl) as [<- _]; [discriminate|]. rewrite run_range by discriminate. reflexivity.
Qed.

(** As long as the lags are not set again and every boundary is known, the curve of an object is
    the delta variance at its lags. *)
Theorem C256_curve_partial : forall e la n o l, new_dv e la n = Ok o -> Forall keeps_lags l -> Forall good_boundary l ->
  d_lags (history e o l) = d_lags o /\ (d_curve (history e o l) = None \/ exists c, curve_of e (history e o l) c).
Proof. exact history_new. Qed.
Print Assumptions C256_curve_partial.
Example C256_curve_case : exists o, new_dv (toy 1 48) (LNumbers [6; 12; 24]) 25 = Ok o /\
  Forall keeps_lags [CRun wrap (range_px 5 13); CFit (range_px 7 30); CCompute wrap] /\ Forall good_boundary [CRun wrap (range_px 5 13); CFit (range_px 7 30); CCompute wrap] /\
  d_curve (history (toy 1 48) o [CRun wrap (range_px 5 13); CFit (range_px 7 30); CCompute wrap]) <> None.
Proof.
  eexists. split; [unfold new_dv, lags_of; cbn [bind]; change (v_side (toy 1 48)) with 48%nat; rewrite ok_fine; reflexivity|]. split; [repeat constructor|]. split; [repeat constructor|].
  cbn [history do_call]. set (h := fst (fit_plaw _ _ _)). assert (L : d_lags h = [6; 12; 24]).
  { unfold h. destruct (fit_lags (toy 1 48) (fst (run (toy 1 48) (mk_dvo [6; 12; 24] None [("_convolved_arrays"%string, []); ("_convolved_weights"%string, [])] None unfitted) wrap (range_px 5 13))) (range_px 7 30)) as [A _].
    rewrite A. now rewrite run_range by discriminate. }
  unfold compute. rewrite L. cbn. discriminate.
Qed.

(** Lags set after a run: the curve stays that of the old lags, and a fit pairs it with the new
    lags if there are as many. *)
Theorem C256_lags_refuted : forall e o c l boot, curve_of e o c -> lags_ok (v_side e) l = true -> length l = length (d_lags o) ->
  exists o1 o2, do_call e o (CSetLags l) = (o1, None) /\ d_lags o1 = l /\ d_curve o1 = Some (map (v_value e c) (d_lags o)) /\
    do_call e o1 (CFit (mk_fargs None None None boot)) = (o2, None) /\
    t_slope (d_fit o2) = Some [fst (v_line e (points None None l (map (v_value e c) (d_lags o))) boot)].
Proof. exact stale_curve. Qed.
Print Assumptions C256_lags_refuted.
(** Another number of lags: the fit is refused but its range is recorded beside the old slope. *)
Theorem C256_number_refuted : forall e o c l a lo hi, curve_of e o c -> lags_ok (v_side e) l = true -> length l <> length (d_lags o) ->
  in_pixels (v_stat e) (f_xlow a) = Ok lo -> in_pixels (v_stat e) (f_xhigh a) = Ok hi ->
  exists o1 o2 x, do_call e o (CSetLags l) = (o1, None) /\ do_call e o1 (CFit a) = (o2, Some x) /\ d_fit o2 = d_fit o /\
    d_range o2 = Some (given_or (fst (default_range l)) lo, given_or (snd (default_range l)) hi).
Proof. exact other_number. Qed.
Print Assumptions C256_number_refuted.
(** An unknown boundary: the call is refused, but the curve is now what uninitialised memory held. *)
Theorem C256_boundary_refuted : forall e o c, d_lags o <> [] -> c_boundary c <> "wrap"%string -> c_boundary c <> "fill"%string ->
  exists o', do_call e o (CCompute c) = (o', Some ValueError) /\
    d_curve o' = Some (map (v_memory e) (seq 0 (length (d_lags o)))) /\ d_fit o' = d_fit o /\ d_range o' = d_range o.
Proof. exact refused_boundary. Qed.
Print Assumptions C256_boundary_refuted.
(** A break outside the limits: the fit is refused, but its range is recorded beside the old slope. *)
Theorem C256_range_refuted : forall e o c lo hi b boot, curve_of e o c -> b < lo \/ hi < b ->
  exists o', do_call e o (CFit (mk_fargs (Some (mk_q [lo] pix)) (Some (mk_q [hi] pix)) (Some (mk_q [b] pix)) boot)) = (o', Some ValueError) /\
    d_range o' = Some (lo, hi) /\ d_fit o' = d_fit o /\ d_curve o' = d_curve o.
Proof. exact refused_break. Qed.
Print Assumptions C256_range_refuted.
(** An object after a run with limits of 5 and 13 pixels meets the hypotheses of the four. *)
Example C256_refuted_case : exists o, fst (run (toy 1 48) (mk_dvo [6; 12; 24] None [("_convolved_arrays"%string, []); ("_convolved_weights"%string, [])] None unfitted) wrap (range_px 5 13)) = o /\
  curve_of (toy 1 48) o wrap /\ d_range o = Some (5, 13) /\ t_slope (d_fit o) <> None /\ d_lags o <> [] /\
  lags_ok (v_side (toy 1 48)) [2; 3; 4] = true /\ length [2; 3; 4] = length (d_lags o) /\ lags_ok (v_side (toy 1 48)) [2; 3] = true /\ length [2; 3] <> length (d_lags o).
Proof.
  eexists. split; [reflexivity|]. rewrite run_range by discriminate. cbn [fst d_lags d_range d_fit d_curve]. split; [reflexivity|]. split; [reflexivity|]. split; [cbn; discriminate|].
  split; [discriminate|]. split; [apply lags_ok_toy; cbn; repeat constructor; lra|]. split; [reflexivity|]. split; [apply lags_ok_toy; cbn; repeat constructor; lra|discriminate].
Qed.

(** A fit between two limits takes the lags between them, both limits included. *)
Theorem C256_limits : forall e o c lo hi boot, curve_of e o c -> 0 < lo -> 0 < hi -> Forall (fun v => 0 < v) (d_lags o) ->
  exists o', do_call e o (CFit (mk_fargs (Some (mk_q [lo] pix)) (Some (mk_q [hi] pix)) None boot)) = (o', None) /\ d_range o' = Some (lo, hi) /\
    t_slope (d_fit o') = Some [fst (v_line e (fit_points (v_value e c) (lags_between lo hi (d_lags o))) boot)].
Proof. exact fit_between. Qed.
Print Assumptions C256_limits.
Example C256_limits_case : lags_between 6 12 [3; 6; 12; 24] = [6; 12].
Proof. unfold lags_between. cbn [filter]. repeat match goal with |- context [Rle_dec ?a ?b] => destruct (Rle_dec a b); [try (exfalso; lra)|try (exfalso; lra)] end. reflexivity. Qed.

(** C257: after any history, reading convolve_arrays or convolve_weights raises AttributeError. *)
Theorem C257_arrays_refuted : forall e la n o l, new_dv e la n = Ok o ->
  convolve_arrays (history e o l) = Err AttributeError /\ convolve_weights (history e o l) = Err AttributeError.
Proof. exact never_read. Qed.
Print Assumptions C257_arrays_refuted.
(** The list kept privately has one array per lag after one call, and two after a second. *)
Theorem C257_kept_partial : forall e la n o b k, new_dv e la n = Ok o -> b = "wrap"%string \/ b = "fill"%string -> d_lags o <> [] ->
  attribute "_convolved_arrays" (d_kept (history e o [keep b k])) = Ok (map (v_conv e (mk_copts b true k)) (d_lags o)) /\
  attribute "_convolved_arrays" (d_kept (history e o [keep b k; keep b k])) =
    Ok (map (v_conv e (mk_copts b true k)) (d_lags o) ++ map (v_conv e (mk_copts b true k)) (d_lags o)).
Proof. exact kept_once. Qed.
Print Assumptions C257_kept_partial.
Example C257_case : exists o, new_dv (toy 1 48) (LNumbers [6; 12; 24]) 25 = Ok o /\ d_lags o <> [] /\
  attribute "_convolved_arrays" (d_kept (history (toy 1 48) o [keep "wrap" 0])) = Ok [[]; []; []].
Proof.
  assert (N : new_dv (toy 1 48) (LNumbers [6; 12; 24]) 25 = Ok (mk_dvo [6; 12; 24] None [("_convolved_arrays"%string, []); ("_convolved_weights"%string, [])] None unfitted)).
  { unfold new_dv, lags_of; cbn [bind]; change (v_side (toy 1 48)) with 48%nat; rewrite ok_fine; reflexivity. }
  eexists. split; [exact N|]. split; [discriminate|]. destruct (kept_once _ _ _ _ "wrap" 0 N (or_introl eq_refl)) as [A _]; [discriminate|]. exact A.
Qed.

(** C258: lags given in pixels, or the default, are the same angles on the two maps. *)
Theorem C258_pixels : forall e1 e2 s1 s2 is_list l v l1 l2 w1 w2, pixel_size e1 s1 -> pixel_size e2 s2 -> pixels_given l v ->
  distance_lags e1 e2 (s2 / s1) is_list l = Ok (l1, l2) -> lags_of e1 l1 25 = Ok w1 -> lags_of e2 l2 25 = Ok w2 ->
  angles s1 w1 = angles (Rmax s1 s2) v /\ angles s2 w2 = angles (Rmax s1 s2) v.
Proof. exact common_angles. Qed.
Print Assumptions C258_pixels.
Theorem C258_default : forall e1 e2 s1 s2 is_list l1 l2 w1 w2, pixel_size e1 s1 -> pixel_size e2 s2 ->
  distance_lags e1 e2 (s2 / s1) is_list LNone = Ok (l1, l2) -> lags_of e1 l1 25 = Ok w1 -> lags_of e2 l2 25 = Ok w2 ->
  angles s1 w1 = angles s2 w2 /\ length w1 = 25%nat.
Proof. exact default_angles. Qed.
Print Assumptions C258_default.
Example C258_pixels_case : pixel_size (toy 1 48) 1 /\ pixel_size (toy 2 24) 2 /\ pixels_given (LNumbers [3; 6; 12]) [3; 6; 12] /\
  distance_lags (toy 1 48) (toy 2 24) (2 / 1) false (LNumbers [3; 6; 12]) = Ok (LNumbers [6; 12; 24], LNumbers [3; 6; 12]) /\
  lags_of (toy 1 48) (LNumbers [6; 12; 24]) 25 = Ok [6; 12; 24] /\ lags_of (toy 2 24) (LNumbers [3; 6; 12]) 25 = Ok [3; 6; 12].
Proof.
  split; [split; [reflexivity|lra]|]. split; [split; [reflexivity|lra]|]. split; [now left|]. replace (2 / 1) with 2 by field. split; [exact toy_lags|].
  unfold lags_of; cbn [bind]. change (v_side (toy 1 48)) with 48%nat. change (v_side (toy 2 24)) with 24%nat. rewrite ok_fine, ok_coarse. auto.
Qed.

(** Lags given as angles are multiplied too: the map with the smaller pixels gets larger angles
    than those given, the other one the angles given. *)
Theorem C258_angles_refuted : forall e1 e2 s1 s2 is_list q l1 l2 w1 w2, pixel_size e1 s1 -> pixel_size e2 s2 -> is_equivalent (q_unit q) deg = true ->
  distance_lags e1 e2 (s2 / s1) is_list (LQuantity q) = Ok (l1, l2) -> lags_of e1 l1 25 = Ok w1 -> lags_of e2 l2 25 = Ok w2 ->
  let theta := map (fun v => v * u_factor (q_unit q)) (q_vals q) in
  angles s1 w1 = map (fun t => Rmax (s2 / s1) 1 * t) theta /\ angles s2 w2 = map (fun t => Rmax (s1 / s2) 1 * t) theta.
Proof. exact given_angles. Qed.
Print Assumptions C258_angles_refuted.
Example C258_angles_case : exists l1 l2, is_equivalent (q_unit (mk_q [6; 12] deg)) deg = true /\
  distance_lags (toy 1 48) (toy 2 24) (2 / 1) false (LQuantity (mk_q [6; 12] deg)) = Ok (l1, l2) /\
  lags_of (toy 1 48) l1 25 = Ok [12; 24] /\ lags_of (toy 2 24) l2 25 = Ok [3; 6].
Proof. exact toy_angles. Qed.
(** A list is accepted or raises TypeError depending on which map has the larger pixels. *)
Theorem C258_list_refuted : forall e1 e2 s1 s2 v, 0 < s2 < s1 ->
  distance_lags e1 e2 (s2 / s1) true (LNumbers v) = Err TypeError /\ is_ok (distance_lags e2 e1 (s1 / s2) true (LNumbers v)) = true.
Proof. exact list_either. Qed.
Print Assumptions C258_list_refuted.

(** Limits in pixels select the values of each map by its own pixels. *)
Theorem C258_limits_partial : forall a b lags1 lags2 lo hi, Forall (fun v => 0 < v) a -> Forall (fun v => 0 < v) b ->
  length b = length a -> length lags1 = length a -> length lags2 = length a ->
  let w1 := values_within lo hi lags1 (map Fin a) in let w2 := values_within lo hi lags2 (map Fin b) in
  curve_distance true (map Fin a) lags1 (lo, hi) (map Fin b) lags2 (lo, hi) =
  if Nat.eqb (length w1) (length w2) then Ok (Fin (l2_distance (log_share w1) (log_share w2))) else Err ValueError.
Proof. exact pixel_limits. Qed.
Print Assumptions C258_limits_partial.
(** So two maps with the same curve at the same angles have a distance that is not zero, or raise
    ValueError. *)
Theorem C258_limits_refuted :
  (exists o1 o2 d, data_distance (toy 1 48) (toy 2 24) 2 false (LNumbers [3; 6; 12]) wrap wrap (range_px 5 13) (range_px 5 13) = Ok (o1, o2, Fin d) /\ 0 < d /\
     angles 1 (d_lags o1) = angles 2 (d_lags o2) /\ d_curve o1 = d_curve o2) /\
  data_distance (toy 1 48) (toy 2 24) 2 false (LNumbers [3; 6; 12]) wrap wrap (range_px 5 30) (range_px 5 30) = Err ValueError.
Proof. split; [exact toy_limits|exact toy_refused]. Qed.
Print Assumptions C258_limits_refuted.
