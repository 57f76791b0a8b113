(** Theorems about Moments objects through histories of calls (C285) *)
From Coq Require Import String Reals List Bool Arith.
From Verif Require Import Lib.PyBase Lib.Fl Model.MomentErrs Model.MomentsObj Spec.MomentsObj Proofs.MomentsObj_Proofs Proofs.MomentsObj2_Proofs.
Import ListNotations.
Local Open Scope string_scope.

(** ** C285 *)
(** Whatever was called before, make_moments and make_moment_errors leave the maps and errors, and
    raise the exceptions, of a new object for the cube with the masks applied so far and the
    noise level set last *)
Theorem C285_fresh : forall (C K A : Type) with_mask mom0 mom1 lws zeros err0 err1 errl c0 how s0 (h : list (call K)) a g, level s0 h <> None \/ g = None ->
  let step := step C K A with_mask mom0 mom1 lws zeros err0 err1 errl in
  let o := after C K A with_mask mom0 mom1 lws zeros err0 err1 errl (new C A c0 how s0) h in
  let f := new C A (masked with_mask c0 h) how (level s0 h) in
  let o1 := step o (Make K a true) in let f1 := step f (Make K a true) in
  let o2 := step (fst o1) (Errors K a g) in let f2 := step (fst f1) (Errors K a g) in
  snd o1 = snd f1 /\ (snd f1 = None -> all_moments C A (fst o1) = all_moments C A (fst f1) /\ snd o2 = snd f2 /\
    (snd f2 = None -> all_moments C A (fst o2) = all_moments C A (fst f2) /\ all_moment_errs C A (fst o2) = all_moment_errs C A (fst f2) /\
                      to_dict C A (fst o2) = to_dict C A (fst f2))).
Proof. exact fresh. Qed.
Print Assumptions C285_fresh.
Example C285_fresh_instance : snd (step3 (new _ _ cube3 "slice" (Some 1%R)) (Make k3 0 true)) = None /\
  snd (step3 (after3 (new _ _ cube3 "slice" (Some 1%R)) [Make k3 0 true]) (Errors k3 0 None)) = None.
Proof. exact (conj (proj1 fine3) (proj1 (proj2 fine3))). Qed.

(** The maps shown are those of the last make_moments, for the masks that came before it *)
Theorem C285_maps : forall (C K A : Type) with_mask mom0 mom1 lws zeros err0 err1 errl c0 how s0 (h1 : list (call K)) a h2,
  let after := after C K A with_mask mom0 mom1 lws zeros err0 err1 errl in
  forallb (fun k => negb (makes k)) h2 = true ->
  snd (step C K A with_mask mom0 mom1 lws zeros err0 err1 errl (after (new C A c0 how s0) h1) (Make K a true)) = None -> exists m0 m1 l,
  mom0 (masked with_mask c0 h1) a how = Ok m0 /\ mom1 (masked with_mask c0 h1) a how = Ok m1 /\ lws (masked with_mask c0 h1) how = Ok l /\
  all_moments C A (after (new C A c0 how s0) (h1 ++ Make K a true :: h2)%list) = Ok [m0; m1; l].
Proof. exact maps_last. Qed.
Print Assumptions C285_maps.

(** The errors shown are those of the last make_moment_errors, for the masks, the level and the
    maps it found *)
Theorem C285_errors : forall (C K A : Type) with_mask mom0 mom1 lws zeros err0 err1 errl c0 how s0 (h1 : list (call K)) a g h2 s,
  let after := after C K A with_mask mom0 mom1 lws zeros err0 err1 errl in
  forallb (fun k => negb (makes_errors k)) h2 = true -> level s0 h1 = Some s ->
  snd (step C K A with_mask mom0 mom1 lws zeros err0 err1 errl (after (new C A c0 how s0) h1) (Errors K a g)) = None -> exists m0 m1 e0 e1 el,
  (exists w w', o_m0 _ _ (after (new C A c0 how s0) h1) = Some (m0, w) /\ o_m1 _ _ (after (new C A c0 how s0) h1) = Some (m1, w')) /\
  err0 (masked with_mask c0 h1) s how a = Ok e0 /\ err1 (masked with_mask c0 h1) s how a m0 m1 = Ok e1 /\
  errl (masked with_mask c0 h1) s how m0 m1 e1 = Ok el /\
  all_moment_errs C A (after (new C A c0 how s0) (h1 ++ Errors K a g :: h2)%list) = Ok [e0; e1; el].
Proof. exact errors_last. Qed.
Print Assumptions C285_errors.

(** So a mask between the two: the cube and the errors are masked, the maps are not *)
Theorem C285_mask_refuted : forall (C K A : Type) with_mask mom0 mom1 lws zeros err0 err1 errl c how s (k : K) c' m0 m1 l,
  with_mask c k = Ok c' -> mom0 c 0%nat how = Ok m0 -> mom1 c 0%nat how = Ok m1 -> lws c how = Ok l ->
  forall e0 e1 el, err0 c' s how 0%nat = Ok e0 -> err1 c' s how 0%nat m0 m1 = Ok e1 -> errl c' s how m0 m1 e1 = Ok el ->
  to_dict C A (after C K A with_mask mom0 mom1 lws zeros err0 err1 errl (new C A c how (Some s)) [Make K 0 true; ApplyMask K k; Errors K 0 None])
  = Ok (c', [(m0, e0); (m1, e1); (l, el)]).
Proof. exact mask_between. Qed.
Print Assumptions C285_mask_refuted.
(** Channels of 1, 2 and 3 with noise 1: 6 +- sqrt 3, with the first channel alone 1 +- 1; the
    object shows 6 +- 1 *)
Theorem C285_values_refuted :
  shown (after3 (new _ _ cube3 "slice" (Some 1%R)) [Make k3 0 true; Errors k3 0 None]) = Ok (Fin 6, Fin (sqrt 3)) /\
  shown (after3 (new _ _ masked3 "slice" (Some 1%R)) [Make k3 0 true; Errors k3 0 None]) = Ok (Fin 1, Fin 1) /\
  shown (after3 (new _ _ cube3 "slice" (Some 1%R)) [Make k3 0 true; ApplyMask k3 first3; Errors k3 0 None]) = Ok (Fin 6, Fin 1).
Proof. exact (conj shown_whole (conj shown_masked shown_between)). Qed.
Print Assumptions C285_values_refuted.

(** Along an axis of the sky the errors are never there: the centroid is an angle, from which the
    first channel of the spectral axis is subtracted.  The error of the zeroth moment is
    replaced all the same, the other two are left as they were. *)
Theorem C285_sky_axis_refuted : forall (C K A : Type) with_mask mom0 mom1 lws zeros err0 err1 errl c0 how s0 (h : list (call K)) a g s,
  let step := step C K A with_mask mom0 mom1 lws zeros err0 err1 errl in
  let after := after C K A with_mask mom0 mom1 lws zeros err0 err1 errl in
  level s0 h = Some s -> snd (step (after (new C A c0 how s0) h) (Make K (S a) true)) = None ->
  let o := after (new C A c0 how s0) (h ++ [Make K (S a) true])%list in let o' := fst (step o (Errors K (S a) g)) in
  (forall e0, err0 (masked with_mask c0 h) s how (S a) = Ok e0 ->
     snd (step o (Errors K (S a) g)) = Some UnitConversionError /\ o_e0 _ _ o' = Some e0 /\
     o_e1 _ _ o' = o_e1 _ _ (after (new C A c0 how s0) h) /\ o_el _ _ o' = o_el _ _ (after (new C A c0 how s0) h)) /\
  (forall e, err0 (masked with_mask c0 h) s how (S a) = Err e -> snd (step o (Errors K (S a) g)) = Some e /\ o' = o).
Proof. exact sky_axis. Qed.
Print Assumptions C285_sky_axis_refuted.
Example C285_sky_axis_instance : snd (step3 (new _ _ cube3 "slice" (Some 1%R)) (Make k3 1 true)) = None /\ exists e0, err0_3 cube3 1 "slice" 1 = Ok e0.
Proof. exact (proj2 (proj2 fine3)). Qed.

(** A call that raises keeps the cube, the level and the method, and touches only its own maps *)
Theorem C285_raised_partial : forall (C K A : Type) with_mask mom0 mom1 lws zeros err0 err1 errl (o : obj C A) (k : call K),
  let o' := fst (step C K A with_mask mom0 mom1 lws zeros err0 err1 errl o k) in
  snd (step C K A with_mask mom0 mom1 lws zeros err0 err1 errl o k) <> None ->
  o_cube _ _ o' = o_cube _ _ o /\ o_scale _ _ o' = o_scale _ _ o /\ o_how _ _ o' = o_how _ _ o /\
  (makes k = false -> all_moments C A o' = all_moments C A o) /\ (makes_errors k = false -> all_moment_errs C A o' = all_moment_errs C A o).
Proof. exact raised_partial. Qed.
Print Assumptions C285_raised_partial.
