(** Vocabulary for the sonic length in units (C326). *)
From Coq Require Import String Reals List ZArith Bool.
From Verif Require Import Lib.PyBase Lib.RSum Model.Units Model.PcaFit.
Import ListNotations.
Local Open Scope R_scope.

(** The fit is of the sampler, and its exponent is not zero *)
Definition sampled (st : pca_state) (use_gamma : bool) : Prop :=
  exists f m samps, p_fit st = Some f /\ p_method st = Some m /\ m <> "odr"%string /\ p_samps st = Some samps /\ used_index use_gamma f <> 0.
(** The fit is the one by orthogonal distances *)
Definition by_odr (st : pca_state) : Prop := exists f, p_fit st = Some f /\ p_method st = Some "odr"%string.
(** One pixel is [size] of the unit *)
Inductive pixel_is (s : stat) : unit_ -> R -> Prop :=
| pixel_angle a u : s_header s = Some a -> u_pix u = 0%Z -> u_ang u = 1%Z -> u_len u = 0%Z -> u_other u = 0%Z -> pixel_is s u (Rabs a / u_factor u)
| pixel_length a d du u : s_header s = Some a -> s_distance s = Some (d, du) ->
    u_pix du = 0%Z -> u_ang du = 0%Z -> u_len du = 1%Z -> u_other du = 0%Z -> u_factor du <> 0 ->
    u_pix u = 0%Z -> u_ang u = 0%Z -> u_len u = 1%Z -> u_other u = 0%Z -> pixel_is s u (Rabs a * (PI / 180) * d * u_factor du / u_factor u).
