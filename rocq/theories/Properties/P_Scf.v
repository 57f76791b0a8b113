(** Properties C16-C20: the spectral correlation function. *)
From Coq Require Import String Reals List ZArith Arith Bool Lia Lra.
From Verif Require Import Lib.PyBase Lib.Fl Lib.RSum Spec.Blank Spec.Correlation
  Model.Psds Model.Scf Proofs.Scf_Proofs Proofs.Scf2_Proofs.
Import ListNotations.
Local Open Scope R_scope.

(** C16.  With the continuous boundary the surface is always computed (the error
    never fires), and every entry, for whole or fractional lags, lies between
    1 - sqrt 2 and 1, or is blank when no pair of spectra has power. *)
Theorem C16_surface_bounded : forall nz ny nx cube lags, cube_ok nz ny nx cube ->
  exists s, compute_surface nz ny nx cube lags "continuous" = Ok s /\
    length s = length lags /\
    forall j i, (j < length lags)%nat -> (i < length lags)%nat ->
      length (nth j s []) = length lags /\
      (at2 NaN s j i = NaN \/ exists v, at2 NaN s j i = Fin v /\ 1 - sqrt 2 <= v <= 1).
Proof. exact surface_bounded. Qed.
Print Assumptions C16_surface_bounded.

(** C16.  The entry at zero lag is 1 for a cube with a non-zero value. *)
Theorem C16_zero_lag_one : forall nz ny nx cube lags, cube_ok nz ny nx cube ->
  (exists z y x r, (z < nz)%nat /\ (y < ny)%nat /\ (x < nx)%nat /\ cube z y x = Fin r /\ r <> 0) ->
  exists s, compute_surface nz ny nx cube lags "continuous" = Ok s /\
  forall i j, (i < length lags)%nat -> (j < length lags)%nat -> nth i lags 0 = 0 -> nth j lags 0 = 0 -> at2 NaN s j i = Fin 1.
Proof. exact surface_centre. Qed.
Print Assumptions C16_zero_lag_one.

(** C16.  The entry [j, i] for whole-pixel lags is one minus the root mean square
    normalised difference between every spectrum and its periodic partner at lag
    lags[i] along the first sky axis and lags[j] along the second. *)
Theorem C16_formula : forall nz ny nx cube lags i j (sx sy : Z), cube_ok nz ny nx cube ->
  (i < length lags)%nat -> (j < length lags)%nat -> nth i lags 0 = IZR sx -> nth j lags 0 = IZR sy ->
  exists s, compute_surface nz ny nx cube lags "continuous" = Ok s /\
    at2 NaN s j i = scf_spec nz (pairs_at ny nx cube sx sy (seq 0 ny) (seq 0 nx)).
Proof. exact surface_formula. Qed.
Print Assumptions C16_formula.

(** C16.  Any other boundary name is rejected. *)
Theorem C16_boundary_name : forall nz ny nx cube lags b, b <> "continuous"%string -> b <> "cut"%string ->
  compute_surface nz ny nx cube lags b = Err ValueError.
Proof. exact surface_boundary. Qed.
Print Assumptions C16_boundary_name.

Example C16_nonvacuous : cube_ok 1 3 1 cut_cube /\
  exists s, compute_surface 1 3 1 cut_cube [IZR (-1); 0; 1] "continuous" = Ok s /\
  at2 NaN s 1 1 = Fin 1 /\ at2 NaN s 1 0 = at2 NaN s 1 2.
Proof. exact (conj cut_cube_ok ex_surface). Qed.

(** C17.  Entries at opposite whole-pixel lags are equal. *)
Theorem C17_point_symmetric : forall nz ny nx cube lags (iz : nat -> Z), cube_ok nz ny nx cube ->
  forall i j i' j', (i < length lags)%nat -> (j < length lags)%nat -> (i' < length lags)%nat -> (j' < length lags)%nat ->
  (forall k, In k [i; j; i'; j'] -> nth k lags 0 = IZR (iz k)) ->
  nth i' lags 0 = - nth i lags 0 -> nth j' lags 0 = - nth j lags 0 ->
  exists s, compute_surface nz ny nx cube lags "continuous" = Ok s /\ at2 NaN s j' i' = at2 NaN s j i.
Proof. exact surface_symmetric. Qed.
Print Assumptions C17_point_symmetric.

Example C17_nonvacuous : cube_ok 1 3 1 cut_cube /\
  exists s, compute_surface 1 3 1 cut_cube [IZR (-1); 0; 1] "continuous" = Ok s /\
  at2 NaN s 1 1 = Fin 1 /\ at2 NaN s 1 0 = at2 NaN s 1 2.
Proof. exact (conj cut_cube_ok ex_surface). Qed.

(** C18.  The surface does not depend on the intensity units, for any lags
    (whole or fractional) and either boundary. *)
Theorem C18_calibration_invariant : forall nz ny nx cube lags boundary c, cube_ok nz ny nx cube -> c <> 0 ->
  compute_surface nz ny nx (recalibrated c cube) lags boundary = compute_surface nz ny nx cube lags boundary.
Proof. exact surface_scal. Qed.
Print Assumptions C18_calibration_invariant.

Example C18_nonvacuous : cube_ok 1 3 1 cut_cube /\ recalibrated 2 cut_cube 0 2 0 = Fin (2 * 5).
Proof. exact (conj cut_cube_ok eq_refl). Qed.

(** C19 is violated: with boundary='cut' the value is not that of the pairs at
    the requested lag lying inside the cube. *)
Theorem C19_cut_refuted : exists nz ny nx cube (sx sy : Z),
  cube_ok nz ny nx cube /\ (Z.abs sx <= Z.of_nat ny)%Z /\ (Z.abs sy <= Z.of_nat nx)%Z /\
  scf_value nz ny nx cube "cut" (IZR sx) (IZR sy) <>
  Ok (scf_spec nz (pairs_at ny nx cube sx sy (partner_inside ny sx) (partner_inside nx sy))).
Proof. exact scf_cut_refuted. Qed.
Print Assumptions C19_cut_refuted.

(** C19.  What is computed: each pixel whose partner at the lag is inside the
    cube is compared with its periodic partner at twice the lag. *)
Theorem C19_cut_partial : forall nz ny nx cube (sx sy : Z), cube_ok nz ny nx cube ->
  (Z.abs sx <= Z.of_nat ny)%Z -> (Z.abs sy <= Z.of_nat nx)%Z ->
  scf_value nz ny nx cube "cut" (IZR sx) (IZR sy) =
  Ok (scf_spec nz (pairs_at ny nx cube (2 * sx) (2 * sy) (partner_inside ny sx) (partner_inside nx sy))).
Proof. exact scf_cut_law. Qed.
Print Assumptions C19_cut_partial.

(** C19.  At zero lag the two boundaries agree. *)
Theorem C19_cut_zero_lag_partial : forall nz ny nx cube, cube_ok nz ny nx cube ->
  scf_value nz ny nx cube "cut" 0 0 = scf_value nz ny nx cube "continuous" 0 0.
Proof. exact scf_cut_zero. Qed.
Print Assumptions C19_cut_zero_lag_partial.

Example C19_nonvacuous : cube_ok 1 3 1 cut_cube /\ partner_inside 3 1 = [1; 2]%nat.
Proof. exact (conj cut_cube_ok eq_refl). Qed.

(** C20.  The distance is the weighted root mean square difference. *)
Theorem C20_distance_formula : forall size w s t,
  scf_distance size w s t = weighted_rms size (if w then lag_weight size else fun _ _ => 1) s t.
Proof. exact scf_distance_formula. Qed.
Print Assumptions C20_distance_formula.

Theorem C20_distance_symmetric : forall size w s t, scf_distance size w s t = scf_distance size w t s.
Proof. exact scf_distance_sym. Qed.
Print Assumptions C20_distance_symmetric.

Theorem C20_distance_nonneg : forall size w s t, 0 <= scf_distance size w s t.
Proof. exact (fun size w s t => sqrt_pos _). Qed.
Print Assumptions C20_distance_nonneg.

Theorem C20_distance_zero : forall size w s t, (1 <= size)%nat ->
  (scf_distance size w s t = 0 <-> forall i j, (i < size)%nat -> (j < size)%nat -> s i j = t i j).
Proof. exact scf_distance_zero. Qed.
Print Assumptions C20_distance_zero.

Theorem C20_distance_triangle : forall size w s t u,
  scf_distance size w s u <= scf_distance size w s t + scf_distance size w t u.
Proof. exact scf_distance_triangle. Qed.
Print Assumptions C20_distance_triangle.

Example C20_nonvacuous : lag_weight 3 1 1 = 1 /\ (1 <= 3)%nat.
Proof. exact (conj eq_refl (le_S 1 2 (le_S 1 1 (le_n 1)))). Qed.
