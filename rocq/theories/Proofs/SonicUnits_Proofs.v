(** Proofs for C326: the sonic length in units. *)
From Coq Require Import String Reals List ZArith Arith Bool Lra Lia.
From Verif Require Import Lib.PyBase Lib.Fl Lib.RSum Model.Units Model.PcaFit Spec.SonicUnits Model.SonicUnits.
Import ListNotations.
Local Open Scope R_scope.

Lemma eqv u v : is_equivalent u v = true <-> u_pix u = u_pix v /\ u_ang u = u_ang v /\ u_len u = u_len v /\ u_other u = u_other v.
Proof. unfold is_equivalent. rewrite !andb_true_iff, !Z.eqb_eq. tauto. Qed.
Lemma from_pixels s u size vals : pixel_is s u size -> spatial_unit_conversion s (mk_q vals pix) u = Ok (mk_q (map (fun v => v * size) vals) u).
Proof.
  intros H. destruct H as [a u H A B C D|a d du u H Ds A B C D F A' B' C' D'].
  - unfold spatial_unit_conversion, is_equivalent. cbn [pix deg u_pix u_ang u_len u_other]. rewrite A, B, C, D. cbn [Z.eqb Pos.eqb andb]. unfold to_angular, ang_size. rewrite H. cbn [bind]. unfold convert, is_equivalent. cbn [q_unit pix deg u_pix u_ang u_len u_other u_factor q_vals]. rewrite A, B, C, D. cbn [Z.eqb Pos.eqb andb].
    f_equal. f_equal. apply map_ext. intros v. unfold Rdiv. rewrite Rinv_1. ring.
  - unfold spatial_unit_conversion, is_equivalent. cbn [pix deg pc u_pix u_ang u_len u_other]. rewrite A', B', C', D'. cbn [Z.eqb Pos.eqb andb]. unfold to_physical, physical_size, get_distance, ang_size. rewrite Ds, H. cbn [bind]. unfold convert, is_equivalent. cbn [q_unit pix u_pix u_ang u_len u_other u_factor q_vals fst snd]. rewrite A, B, C, D, A', B', C', D'. cbn [Z.eqb Pos.eqb andb].
    f_equal. f_equal. apply map_ext. intros v. unfold Rdiv. rewrite Rinv_1. ring.
Qed.
Lemma from_other s u size vals : pixel_is s u size -> spatial_unit_conversion s (mk_q vals (mk_unit 0 0 0 1 1)) u = Err UnitConversionError.
Proof.
  intros H. destruct H as [a u H A B C D|a d du u H Ds A B C D F A' B' C' D'].
  - unfold spatial_unit_conversion, is_equivalent. cbn [pix deg u_pix u_ang u_len u_other]. rewrite A, B, C, D. cbn [Z.eqb Pos.eqb andb]. unfold to_angular, ang_size. rewrite H. cbn [bind]. unfold convert, is_equivalent. cbn [q_unit pix deg u_pix u_ang u_len u_other u_factor q_vals]. rewrite A, B, C, D. reflexivity.
  - unfold spatial_unit_conversion, is_equivalent. cbn [pix deg pc u_pix u_ang u_len u_other]. rewrite A', B', C', D'. cbn [Z.eqb Pos.eqb andb]. unfold to_physical, physical_size, get_distance, ang_size. rewrite Ds, H. cbn [bind]. unfold convert, is_equivalent. cbn [q_unit pix u_pix u_ang u_len u_other u_factor q_vals fst snd]. rewrite A, B, C, D, A', B', C', D'. reflexivity.
Qed.
Lemma sampled_power st g : sampled st g -> pix_power (bounds_power st g) = mk_unit 0 0 0 1 1.
Proof.
  intros [f [m [samps [F [M [N [S I]]]]]]]. unfold bounds_power. rewrite F, M. destruct (String.eqb_spec m "odr"); [contradiction|]. unfold pix_power. destruct (Req_EM_T (1 / used_index g f + 1) 1) as [E|_]; [|reflexivity].
  exfalso. assert (P : 1 / used_index g f = 0) by lra. unfold Rdiv in P. rewrite Rmult_1_l in P. now apply (Rinv_neq_0_compat _ I).
Qed.
Lemma sampled_ok st c g : sampled st g -> exists r, sonic_length st c g = Ok r.
Proof. intros [f [m [samps [F [M [N [S I]]]]]]]. unfold sonic_length. rewrite F, M, S. destruct (String.eqb m "odr"); eexists; reflexivity. Qed.
Lemma odr_power st g : by_odr st -> pix_power (bounds_power st g) = pix.
Proof. intros [f [F M]]. unfold bounds_power. rewrite F, M. cbn. unfold pix_power. now destruct (Req_EM_T 1 1). Qed.

Theorem sampled_units : forall s st c_s g u size, sampled st g -> pixel_is s u size -> sonic_length_in s st c_s g u = Err UnitConversionError.
Proof.
  intros s st c_s g u size S P. destruct (sampled_ok st c_s g S) as [r R]. unfold sonic_length_in. rewrite R. cbn [bind]. rewrite (from_pixels s u size _ P), (sampled_power st g S), (from_other s u size _ P). reflexivity.
Qed.
Theorem sampled_pixels : forall s st c_s g, sampled st g -> exists lambd bounds, sonic_length_in s st c_s g pix = Ok (lambd, bounds) /\ q_unit lambd = pix /\ is_equivalent (q_unit bounds) pix = false.
Proof.
  intros s st c_s g S. destruct (sampled_ok st c_s g S) as [r R]. unfold sonic_length_in. rewrite R, (sampled_power st g S). cbn [bind]. eexists. eexists. split; [reflexivity|]. split; reflexivity.
Qed.
Theorem odr_units : forall s st c_s g u size, by_odr st -> pixel_is s u size -> exists lambd lo hi, sonic_length st c_s g = Ok (lambd, (lo, hi)) /\
  sonic_length_in s st c_s g pix = Ok (mk_q [lambd] pix, mk_q [lo; hi] pix) /\
  sonic_length_in s st c_s g u = Ok (mk_q [lambd * size] u, mk_q [lo * size; hi * size] u).
Proof.
  intros s st c_s g u size O P. assert (O' := O). destruct O' as [f [F M]]. assert (E : exists r, sonic_length st c_s g = Ok r) by (unfold sonic_length; rewrite F, M; eexists; reflexivity). destruct E as [[lambd [lo hi]] E].
  exists lambd, lo, hi. split; [exact E|]. unfold sonic_length_in. rewrite E, (odr_power st g O). cbn [bind fst snd]. split; [reflexivity|]. rewrite !(from_pixels s u size _ P). reflexivity.
Qed.
(** Without a header, or a distance *)
Theorem unknown_size : forall s st c_s g u r, sonic_length st c_s g = Ok r ->
  ((is_equivalent u deg = true /\ s_header s = None) \/ (is_equivalent u pc = true /\ (s_header s = None \/ s_distance s = None)) -> sonic_length_in s st c_s g u = Err AttributeError) /\
  (is_equivalent u pix = false -> is_equivalent u deg = false -> is_equivalent u pc = false -> sonic_length_in s st c_s g u = Err UnitConversionError).
Proof.
  intros s st c_s g u r R. unfold sonic_length_in. rewrite R. cbn [bind]. split.
  - intros H. assert (E : forall q, spatial_unit_conversion s q u = Err AttributeError); [|now rewrite E].
    intros q. unfold spatial_unit_conversion. destruct H as [[D H]|[P H]].
    + replace (is_equivalent u pix) with false. { rewrite D. unfold to_angular, ang_size. now rewrite H. } symmetry. apply not_true_iff_false. intros X. apply eqv in X, D. cbn in X, D. destruct X as [X _], D as [D _]. congruence.
    + replace (is_equivalent u pix) with false. { replace (is_equivalent u deg) with false. { rewrite P. unfold to_physical, get_distance. destruct (s_distance s); [|reflexivity]. destruct H as [H|H]; [now rewrite H|discriminate]. }
        symmetry. apply not_true_iff_false. intros X. apply eqv in X, P. cbn in X, P. destruct X as [_ [X _]], P as [_ [P _]]. congruence. }
      symmetry. apply not_true_iff_false. intros X. apply eqv in X, P. cbn in X, P. destruct X as [X _], P as [P _]. congruence.
  - intros A B C. assert (E : forall q, spatial_unit_conversion s q u = Err UnitConversionError); [|now rewrite E]. intros q. unfold spatial_unit_conversion. now rewrite A, B, C.
Qed.
