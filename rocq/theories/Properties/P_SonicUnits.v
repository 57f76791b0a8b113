(** C326: the sonic length in the units that are asked for. *)
From Coq Require Import String Reals List ZArith Arith Bool Lra Lia.
From Verif Require Import Lib.PyBase Lib.RSum Model.Units Model.PcaFit Spec.SonicUnits Model.SonicUnits Proofs.SonicUnits_Proofs.
Import ListNotations.
Local Open Scope R_scope.

(** After a fit with the sampler, no sonic length can be had in any unit other than pixels, although
    the size of a pixel in it is known, *)
Theorem C326_sampled_refuted : forall s st c_s g u size, sampled st g -> pixel_is s u size -> sonic_length_in s st c_s g u = Err UnitConversionError.
Proof. exact sampled_units. Qed.
Print Assumptions C326_sampled_refuted.
(** and in pixels its bounds are in no number of pixels. *)
Theorem C326_bounds_refuted : forall s st c_s g, sampled st g -> exists lambd bounds, sonic_length_in s st c_s g pix = Ok (lambd, bounds) /\ q_unit lambd = pix /\ is_equivalent (q_unit bounds) pix = false.
Proof. exact sampled_pixels. Qed.
Print Assumptions C326_bounds_refuted.
(** What holds: after the fit by orthogonal distances, length and bounds are those in pixels times the
    size of a pixel in the unit; *)
Theorem C326_odr_partial : forall s st c_s g u size, by_odr st -> pixel_is s u size -> exists lambd lo hi, sonic_length st c_s g = Ok (lambd, (lo, hi)) /\
  sonic_length_in s st c_s g pix = Ok (mk_q [lambd] pix, mk_q [lo; hi] pix) /\
  sonic_length_in s st c_s g u = Ok (mk_q [lambd * size] u, mk_q [lo * size; hi * size] u).
Proof. exact odr_units. Qed.
Print Assumptions C326_odr_partial.
(** and a unit in which the size of a pixel is not known, or that is no angle and no length, is refused. *)
Theorem C326_unknown_partial : forall s st c_s g u r, sonic_length st c_s g = Ok r ->
  ((is_equivalent u deg = true /\ s_header s = None) \/ (is_equivalent u pc = true /\ (s_header s = None \/ s_distance s = None)) -> sonic_length_in s st c_s g u = Err AttributeError) /\
  (is_equivalent u pix = false -> is_equivalent u deg = false -> is_equivalent u pc = false -> sonic_length_in s st c_s g u = Err UnitConversionError).
Proof. exact unknown_size. Qed.
Print Assumptions C326_unknown_partial.
(** A fit of each kind, and a pixel of a tenth of a degree: 6 arcminutes, and 0.1 pi / 180 * 500 pc *)
Definition ex_fit : fitted := mk_fitted (1 / 2) (2 / 5, 3 / 5) 2 (1, 3).
Definition ex_stat : stat := mk_stat (Some (1 / 10)) (Some (500, pc)).
Example C326_case : sampled (mk_pst (Some "bayes"%string) None None (Some ex_fit) (Some [(1 / 2, 1 / 3)])) false /\
  by_odr (mk_pst (Some "odr"%string) None None (Some ex_fit) None) /\
  (exists size, pixel_is ex_stat (mk_unit 0 1 0 0 (/ 60)) size /\ size = 6) /\ (exists size, pixel_is ex_stat pc size /\ size = 1 / 10 * (PI / 180) * 500).
Proof.
  split; [exists ex_fit, "bayes"%string, [(1 / 2, 1 / 3)]; repeat split; [discriminate|cbn; lra]|]. split; [exists ex_fit; split; reflexivity|]. split.
  - eexists. split; [apply (pixel_angle ex_stat (1 / 10)); reflexivity|]. cbn [u_factor]. rewrite Rabs_pos_eq by lra. field.
  - eexists. split; [apply (pixel_length ex_stat (1 / 10) 500 pc pc); try reflexivity; cbn; lra|]. cbn [u_factor pc]. rewrite Rabs_pos_eq by lra. field.
Qed.
