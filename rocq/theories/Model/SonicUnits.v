(** Model of the units of PCA.sonic_length (turbustat/statistics/pca/pca.py). *)
From Coq Require Import String Reals List ZArith Arith Bool.
From Verif Require Import Lib.PyBase Lib.Fl Lib.RSum Model.Units Model.PcaFit.
Import ListNotations.
Local Open Scope R_scope.

(** The power e of the unit pix.  Any power but the first matches none of the conversions, like
    another unit ([Units.v]). *)
Definition pix_power (e : R) : unit_ := if Req_EM_T e 1 then pix else mk_unit 0 0 0 1 1.

(** pca.py:706, 728-739: the power of pix in the bounds before the conversion.  With 'odr' they are
    plain numbers times pix.  Otherwise np.power raises the sound speed, in pix, over plain numbers to
    the power 1 / index; np.percentile keeps the unit, and the result is multiplied by pix again. *)
Definition bounds_power (st : pca_state) (use_gamma : bool) : R :=
  match p_fit st, p_method st with
  | Some f, Some m => if String.eqb m "odr" then 1 else 1 / used_index use_gamma f + 1
  | _, _ => 1
  end.
(** pca.py:653-742 [sonic_length] with a unit; [c_s] is the sound speed in channels *)
Definition sonic_length_in (s : stat) (st : pca_state) (c_s : R) (use_gamma : bool) (unit : unit_) : result (quantity * quantity) :=
  r <- sonic_length st c_s use_gamma ;;
  lambd <- spatial_unit_conversion s (mk_q [fst r] pix) unit ;;
  bounds <- spatial_unit_conversion s (mk_q [fst (snd r); snd (snd r)] (pix_power (bounds_power st use_gamma))) unit ;;
  Ok (lambd, bounds).
