(** C315: blank surroundings of a cube in the spectral correlation function. *)
From Coq Require Import String Reals List ZArith Arith Bool.
From Verif Require Import Lib.PyBase Lib.Arr Lib.Fl Lib.RSum Spec.Blank Spec.Correlation Spec.ScfFrame Model.Scf Proofs.ScfFrame_Proofs.
Import ListNotations.
Local Open Scope R_scope.

(** C315 is violated: the value of a cube in blank surroundings is not that of its own pairs. *)
Theorem C315_blank_refuted : exists nz ny nx NY NX oy ox cube sy sx v w, full_cube nz ny nx cube /\ room ny nx NY NX oy ox sy sx /\
  scf_spec nz (own_pairs ny nx cube sy sx) = Fin v /\
  scf_value nz NY NX (surrounded ny nx oy ox cube) "continuous" (IZR sy) (IZR sx) = Ok (Fin w) /\ w <> v.
Proof. exact frame_refuted. Qed.
Print Assumptions C315_blank_refuted.

(** What is computed: the cube's own pairs, and each spectrum whose partner is outside the cube
    paired with a blank one, once for the lag and once for the opposite lag.  Nothing else of the
    surroundings matters. *)
Theorem C315_pairs_partial : forall nz ny nx NY NX oy ox cube sy sx, cube_ok nz ny nx cube -> room ny nx NY NX oy ox sy sx ->
  scf_value nz NY NX (surrounded ny nx oy ox cube) "continuous" (IZR sy) (IZR sx) =
  Ok (scf_spec nz (own_pairs ny nx cube sy sx ++ with_blank ny nx cube sy sx ++ with_blank ny nx cube (- sy) (- sx))).
Proof. exact frame_value. Qed.
Print Assumptions C315_pairs_partial.

(** The surface is the same in all surroundings that have room for the lags. *)
Theorem C315_surroundings_partial : forall nz ny nx cube lags NY NX oy ox NY' NX' oy' ox', cube_ok nz ny nx cube ->
  (forall l, In l lags -> exists k, l = IZR k) ->
  (forall a b, In (IZR a) lags -> In (IZR b) lags -> room ny nx NY NX oy ox a b /\ room ny nx NY' NX' oy' ox' a b) ->
  compute_surface nz NY NX (surrounded ny nx oy ox cube) lags "continuous" =
  compute_surface nz NY' NX' (surrounded ny nx oy' ox' cube) lags "continuous".
Proof. exact frames_agree. Qed.
Print Assumptions C315_surroundings_partial.

(** It is never less than the value of the cube's own pairs. *)
Theorem C315_not_less_partial : forall nz ny nx NY NX oy ox cube sy sx v, cube_ok nz ny nx cube -> room ny nx NY NX oy ox sy sx ->
  scf_spec nz (own_pairs ny nx cube sy sx) = Fin v ->
  exists w, scf_value nz NY NX (surrounded ny nx oy ox cube) "continuous" (IZR sy) (IZR sx) = Ok (Fin w) /\ v <= w.
Proof. exact frame_raises. Qed.
Print Assumptions C315_not_less_partial.

(** Without blanks in the cube the difference from 1 is smaller by a factor that depends on the lag
    and on the shape of the cube alone. *)
Theorem C315_factor_partial : forall nz ny nx NY NX oy ox cube sy sx, full_cube nz ny nx cube -> room ny nx NY NX oy ox sy sx ->
  (Z.abs sy < Z.of_nat ny)%Z -> (Z.abs sx < Z.of_nat nx)%Z ->
  exists v w, scf_spec nz (own_pairs ny nx cube sy sx) = Fin v /\
    scf_value nz NY NX (surrounded ny nx oy ox cube) "continuous" (IZR sy) (IZR sx) = Ok (Fin w) /\
    1 - w = (1 - v) * sqrt (pair_count ny nx sy sx / (2 * (INR ny * INR nx) - pair_count ny nx sy sx)).
Proof. exact frame_factor. Qed.
Print Assumptions C315_factor_partial.

(** At lag zero the surroundings leave the value as it is. *)
Theorem C315_zero_lag_partial : forall nz ny nx NY NX oy ox cube, cube_ok nz ny nx cube -> (oy + ny <= NY)%nat -> (ox + nx <= NX)%nat ->
  scf_value nz NY NX (surrounded ny nx oy ox cube) "continuous" 0 0 = scf_value nz ny nx cube "continuous" 0 0.
Proof. exact frame_zero_lag. Qed.
Print Assumptions C315_zero_lag_partial.

Example C315_case : full_cube 1 1 2 two_pixels /\ room 1 2 1 4 0 1 0 1 /\ scf_spec 1 (own_pairs 1 2 two_pixels 0 1) = Fin (1 - sqrt (2 / 5)).
Proof. exact (conj two_full (conj two_room two_own)). Qed.
