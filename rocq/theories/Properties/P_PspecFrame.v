(** C324: blank surroundings of images and cubes in their spatial power spectra. *)
From Coq Require Import Reals List ZArith Arith Bool Lra Lia.
From Verif Require Import Lib.PyBase Lib.Arr Lib.Fl Lib.RSum Spec.PspecFrame Model.StatsUtils Model.Psds Proofs.PspecFrame_Proofs.
Import ListNotations.
Local Open Scope R_scope.

(** The power in a pixel of the spectrum of an image in a blank field is that of the image alone, in
    the wave of the frequency of that pixel: neither the size of the field nor the place of the image
    enter. *)
Theorem C324_field : forall NY NX ny nx oy ox im i j, (oy + ny <= NY)%nat -> (ox + nx <= NX)%nat -> (i < NY)%nat -> (j < NX)%nat ->
  at2 0 (power_ps2D NY NX (fun y x => real_of (clean (surrounded ny nx oy ox im y x)))) i j = power_at ny nx im (at2 0 (yy_freq NY NX) i j) (at2 0 (xx_freq NY NX) i j).
Proof. exact field_power. Qed.
Print Assumptions C324_field.
(** Where the two spectra have a frequency in common they have the same power, *)
Theorem C324_common : forall NY NX ny nx oy ox im i j i' j', (oy + ny <= NY)%nat -> (ox + nx <= NX)%nat -> (i < ny)%nat -> (j < nx)%nat -> (i' < NY)%nat -> (j' < NX)%nat ->
  at2 0 (yy_freq NY NX) i' j' = at2 0 (yy_freq ny nx) i j -> at2 0 (xx_freq NY NX) i' j' = at2 0 (xx_freq ny nx) i j ->
  at2 0 (power_ps2D NY NX (fun y x => real_of (clean (surrounded ny nx oy ox im y x)))) i' j' = at2 0 (power_ps2D ny nx (fun y x => real_of (clean (im y x)))) i j.
Proof. exact same_frequency. Qed.
Print Assumptions C324_common.
(** and in a field of a multiple of the size every frequency of the image is one of the field. *)
Theorem C324_multiples : forall my mx ny nx oy ox im i j, (0 < my)%nat -> (0 < mx)%nat -> (oy + ny <= my * ny)%nat -> (ox + nx <= mx * nx)%nat -> (i < ny)%nat -> (j < nx)%nat ->
  exists i' j', (i' < my * ny)%nat /\ (j' < mx * nx)%nat /\ at2 0 (yy_freq (my * ny) (mx * nx)) i' j' = at2 0 (yy_freq ny nx) i j /\ at2 0 (xx_freq (my * ny) (mx * nx)) i' j' = at2 0 (xx_freq ny nx) i j /\
    at2 0 (power_ps2D (my * ny) (mx * nx) (fun y x => real_of (clean (surrounded ny nx oy ox im y x)))) i' j' = at2 0 (power_ps2D ny nx (fun y x => real_of (clean (im y x)))) i j.
Proof. exact multiples. Qed.
Print Assumptions C324_multiples.
(** The spectrum of a cube in VCA: the sum over the channels. *)
Theorem C324_cube : forall nz NY NX ny nx oy ox (cube : nat -> nat -> nat -> fl) i j, (1 <= nz)%nat -> (oy + ny <= NY)%nat -> (ox + nx <= NX)%nat -> (i < NY)%nat -> (j < NX)%nat ->
  at2 0 (vca_ps2D nz NY NX (clean3 (fun z => surrounded ny nx oy ox (cube z)))) i j = INR nz * rsum nz (fun z => power_at ny nx (cube z) (at2 0 (yy_freq NY NX) i j) (at2 0 (xx_freq NY NX) i j)).
Proof. exact cube_power. Qed.
Print Assumptions C324_cube.
(** An image of one row with a blank, in a field of four rows: the power at the zero frequency. *)
Definition ex_row (y x : nat) : fl := match x with 0%nat => Fin 2 | 1%nat => NaN | _ => Fin 3 end.
Example C324_case : (1 + 1 <= 4 /\ 2 + 3 <= 6)%nat /\ surrounded 1 3 1 2 ex_row 1 4 = Fin 3 /\ surrounded 1 3 1 2 ex_row 0 4 = NaN /\ power_at 1 3 ex_row 0 0 = 25 /\ power_at 1 3 ex_row 0 (1 / 4) = 1.
Proof.
  split; [lia|]. split; [reflexivity|]. split; [reflexivity|]. unfold power_at, ex_row, or_zero. cbn [rsum INR]. split.
  - replace (2 * PI * (0 * 0 + 0 * 0)) with 0 by ring. replace (2 * PI * (0 * 0 + 0 * (1 + 1))) with 0 by ring. rewrite cos_0, sin_0. ring.
  - replace (2 * PI * (0 * 0 + 1 / 4 * 0)) with 0 by ring. replace (2 * PI * (0 * 0 + 1 / 4 * (1 + 1))) with PI by field. rewrite cos_0, sin_0, cos_PI, sin_PI. ring.
Qed.
