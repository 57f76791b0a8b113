(** Vocabulary for a Wavelet object through a history of calls, and for the slope of its
    transform. *)
From Coq Require Import Reals List ZArith Arith Bool.
From Verif Require Import Lib.PyBase Lib.Fl Spec.MexHat Model.Units Model.BaseStat Model.Wavelet Model.FitState Model.DeltaVarRun Model.WaveletRun.
Import ListNotations.
Local Open Scope R_scope.

(** An object after its construction and any calls. *)
Definition reached (e : wenv) (o : wobj) : Prop := exists scales num o0 l, new_wavelet e scales num = Ok o0 /\ o = history e o0 l.
(** The scales of the object, in pixels. *)
Definition scales_are (e : wenv) (o : wobj) (l : list R) : Prop := exists p, to_pixel (e_stat e) (w_scales o) = Ok p /\ q_vals p = l.
(** The values and errors of the object are the transform of its image at its scales. *)
Definition transform_of (e : wenv) (o : wobj) (norm : bool) : Prop :=
  exists l, scales_are e o l /\ w_curve o = Some (compute_transform (e_half e) (e_ny e) (e_nx e) (e_img e) norm l).
(** The same results: values, range of the fit, slope with its error, break and (if there is
    one) its error, and the fitted model everywhere. *)
Definition same_results (o o' : wobj) : Prop :=
  w_curve o' = w_curve o /\ w_range o' = w_range o /\ t_slope (w_state o') = t_slope (w_state o) /\ t_slope_err (w_state o') = t_slope_err (w_state o) /\
  t_brk (w_state o') = t_brk (w_state o) /\ ((exists b, t_brk (w_state o) = Some (Some b)) -> t_brk_err (w_state o') = t_brk_err (w_state o)) /\
  forall xs, fitted_model o' xs = fitted_model o xs.
(** Calls that do not set scales. *)
Definition keeps_scales (c : call) : Prop := match c with SetScales _ => False | _ => True end.

(** The same object for another image: brighter by a factor, transposed, upside down. *)
Definition with_image (e : wenv) (ny nx : nat) (img : nat -> nat -> fl) : wenv := mk_we (e_stat e) ny nx img (e_half e) (e_ols e) (e_boot e) (e_lboot e).
Definition brighter (k : R) (e : wenv) : wenv := with_image e (e_ny e) (e_nx e) (fun y x => fmul (Fin k) (e_img e y x)).
Definition transposed (e : wenv) : wenv := with_image e (e_nx e) (e_ny e) (fun y x => e_img e x y).
Definition mirrored (e : wenv) : wenv := with_image e (e_ny e) (e_nx e) (fun y x => e_img e (e_ny e - 1 - y)%nat x).

(** Limits of a fit, as numbers of pixels. *)
Definition limits_are (e : wenv) (a : wargs) (lo hi : option R) : Prop :=
  in_pixels (e_stat e) (a_xlow a) = Ok lo /\ in_pixels (e_stat e) (a_xhigh a) = Ok hi /\ (forall v, lo = Some v -> 0 < v) /\ (forall v, hi = Some v -> 0 < v).
Definition inside (lo hi : option R) (s : R) : Prop := above lo s /\ below hi s.
(** A point the fit can use: the value is a number and, for a weighted fit, so is its error,
    which is not zero. *)
Definition usable_point (weighted : bool) (ve : fl * fl) : Prop :=
  (exists v, fst ve = Fin v) /\ (weighted = true -> exists r, snd ve = Fin r /\ r <> 0).
(** Two different scales within the limits have points the fit can use. *)
Definition two_usable (weighted : bool) (lo hi : option R) (scales : list R) (curve : list (fl * fl)) : Prop :=
  exists s t u v, s <> t /\ In (s, u) (combine scales curve) /\ In (t, v) (combine scales curve) /\ inside lo hi s /\ inside lo hi t /\
    usable_point weighted u /\ usable_point weighted v.

(** The fit found a single slope and no break. *)
Definition one_slope (o : wobj) (s : R) : Prop := t_slope (w_state o) = Some [Fin s] /\ t_brk (w_state o) = Some None.
(** The fitted model is the line b + s·x. *)
Definition model_is (o : wobj) (b s : R) : Prop := forall xs, fitted_model o xs = Ok (map (fun x => b + s * x) xs).
(** The values at the scales within the limits, where there are any, are the power law A·s^p. *)
Definition power_law (A p : R) (lo hi : option R) (scales : list R) (curve : list (fl * fl)) : Prop :=
  forall s ve v, In (s, ve) (combine scales curve) -> inside lo hi s -> fst ve = Fin v -> v = A * Rpower s p.
(** A single scale s lies within the limits; its value is the number v. *)
Definition only_scale (lo hi : option R) (scales : list R) (curve : list (fl * fl)) (s v : R) (err : fl) : Prop :=
  exists before after, combine scales curve = before ++ (s, (Fin v, err)) :: after /\ inside lo hi s /\ forall q, In q (before ++ after) -> ~ inside lo hi (fst q).
(** The scales within the limits. *)
Definition scales_within (lo hi : option R) (l : list R) : list R :=
  filter (fun s => match lo with Some v => if Rle_dec v s then true else false | None => true end && match hi with Some v => if Rle_dec s v then true else false | None => true end) l.
