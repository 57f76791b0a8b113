(** C325: blank surroundings of the maps of modified velocity centroids. *)
From Coq Require Import Reals List ZArith Arith Bool Lra Lia.
From Verif Require Import Lib.PyBase Lib.Arr Lib.Fl Lib.RSum Spec.Velocity Spec.PspecFrame Spec.MvcFrame Model.StatsUtils Model.Psds Model.Mvc Proofs.MvcFrame_Proofs.
Import ListNotations.
Local Open Scope R_scope.

(** The value at a frequency that the spectra of the maps and of the field have in common changes: the
    mean of the squared velocities is over all pixels, with zero for blank ones. *)
Theorem C325_refuted : ~ (forall NY NX ny nx oy ox c m l ps ps' i j i' j', blank_together c m l -> (oy + ny <= NY)%nat -> (ox + nx <= NX)%nat -> (i < ny)%nat -> (j < nx)%nat -> (i' < NY)%nat -> (j' < NX)%nat ->
  at2 0 (yy_freq NY NX) i' j' = at2 0 (yy_freq ny nx) i j -> at2 0 (xx_freq NY NX) i' j' = at2 0 (xx_freq ny nx) i j ->
  mvc_ps2D (map_of ny nx c) (map_of ny nx m) (map_of ny nx l) None false None = Ok ps ->
  mvc_ps2D (map_of NY NX (surrounded ny nx oy ox c)) (map_of NY NX (surrounded ny nx oy ox m)) (map_of NY NX (surrounded ny nx oy ox l)) None false None = Ok ps' ->
  at2 NaN ps' i' j' = at2 NaN ps i j).
Proof. exact blanks_matter. Qed.
Print Assumptions C325_refuted.
(** What holds: the transforms are those of the maps alone, and only that mean depends on the field: the
    sum of the squares over the number of pixels of the field. *)
Theorem C325_field_partial : forall NY NX ny nx oy ox c m l, blank_together c m l -> (1 <= NY)%nat -> (1 <= NX)%nat -> (oy + ny <= NY)%nat -> (ox + nx <= NX)%nat ->
  exists ps, mvc_ps2D (map_of NY NX (surrounded ny nx oy ox c)) (map_of NY NX (surrounded ny nx oy ox m)) (map_of NY NX (surrounded ny nx oy ox l)) None false None = Ok ps /\
  forall i j, (i < NY)%nat -> (j < NX)%nat -> at2 NaN ps i j = Fin (mvc_at ny nx c m (total_square ny nx c l / INR (NY * NX)) (at2 0 (yy_freq NY NX) i j) (at2 0 (xx_freq NY NX) i j)).
Proof. exact field_value. Qed.
Print Assumptions C325_field_partial.
(** One bright pixel: the correction disappears as the field grows. *)
Theorem C325_pixel_partial : forall NY NX oy ox c m l, 0 <= c * m -> 0 <= m -> (oy + 1 <= NY)%nat -> (ox + 1 <= NX)%nat ->
  exists ps, mvc_ps2D (map_of NY NX (surrounded 1 1 oy ox (one c))) (map_of NY NX (surrounded 1 1 oy ox (one m))) (map_of NY NX (surrounded 1 1 oy ox (one l))) None false None = Ok ps /\
  forall i j, (i < NY)%nat -> (j < NX)%nat -> at2 NaN ps i j = Fin ((c * m - (l * l + c * c) / INR (NY * NX) * m) * (c * m - (l * l + c * c) / INR (NY * NX) * m)).
Proof. exact one_pixel. Qed.
Print Assumptions C325_pixel_partial.
(** Maps with a blank in common, and the sum of squares of the others *)
Definition ex_map (v : R) (y x : nat) : fl := match x with 1%nat => NaN | _ => Fin v end.
Example C325_case : blank_together (ex_map 1) (ex_map 2) (ex_map 3) /\ total_square 1 3 (ex_map 1) (ex_map 3) = 20.
Proof.
  split.
  - intros y [|[|x]]; cbn [ex_map]; [left; exists 1, 2, 3; repeat split|right; repeat split|left; exists 1, 2, 3; repeat split].
  - unfold total_square, ex_map, or_zero. cbn [rsum]. ring.
Qed.
