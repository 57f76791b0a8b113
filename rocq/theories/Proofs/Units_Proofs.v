(** Proofs about Model/Units.v. *)
From Coq Require Import Reals List ZArith Lia Lra Bool.
From Verif Require Import Lib.PyBase Model.Units Model.BaseStat Spec.Units.
Import ListNotations.
Local Open Scope R_scope.

Lemma equiv_spec u v : is_equivalent u v = true <-> u_pix u = u_pix v /\ u_ang u = u_ang v /\ u_len u = u_len v /\ u_other u = u_other v.
Proof. unfold is_equivalent. rewrite !Bool.andb_true_iff, !Z.eqb_eq. tauto. Qed.

Ltac equivs := repeat match goal with
  | |- context [is_equivalent ?u ?v] => unfold is_equivalent; cbn [u_pix u_ang u_len u_other pix deg pc]
  end.

Lemma angle_eqs n u : angle_unit n u -> u_pix u = 0%Z /\ u_ang u = n /\ u_len u = 0%Z /\ u_other u = 0%Z. Proof. intros (?&?&?&?&?). auto. Qed.
Lemma length_eqs n u : length_unit n u -> u_pix u = 0%Z /\ u_ang u = 0%Z /\ u_len u = n /\ u_other u = 0%Z. Proof. intros (?&?&?&?&?). auto. Qed.

Lemma angle_pix n u : angle_unit n u -> is_equivalent u pix = false.
Proof. intros H. apply angle_eqs in H. destruct H as (A&B&C&D). unfold is_equivalent. rewrite A. reflexivity. Qed.
Lemma angle_deg u : angle_unit 1 u -> is_equivalent u deg = true.
Proof. intros H. apply angle_eqs in H. destruct H as (A&B&C&D). unfold is_equivalent. rewrite A, B, C, D. reflexivity. Qed.
Lemma pix_angle n u : angle_unit n u -> is_equivalent pix u = false.
Proof. intros H. apply angle_eqs in H. destruct H as (A&B&C&D). unfold is_equivalent. rewrite A. reflexivity. Qed.
Lemma length_pix n u : length_unit n u -> is_equivalent u pix = false.
Proof. intros H. apply length_eqs in H. destruct H as (A&B&C&D). unfold is_equivalent. rewrite A. reflexivity. Qed.
Lemma pix_length n u : length_unit n u -> is_equivalent pix u = false.
Proof. intros H. apply length_eqs in H. destruct H as (A&B&C&D). unfold is_equivalent. rewrite A. reflexivity. Qed.
Lemma length_deg u n : length_unit n u -> is_equivalent u deg = false.
Proof. intros H. apply length_eqs in H. destruct H as (A&B&C&D). unfold is_equivalent. rewrite A, B. reflexivity. Qed.
Lemma length_pc u : length_unit 1 u -> is_equivalent u pc = true.
Proof. intros H. apply length_eqs in H. destruct H as (A&B&C&D). unfold is_equivalent. rewrite A, B, C, D. reflexivity. Qed.
Lemma length_length n u v : length_unit n u -> length_unit n v -> is_equivalent u v = true.
Proof.
  intros H K. apply length_eqs in H. apply length_eqs in K. destruct H as (A&B&C&D), K as (A'&B'&C'&D').
  apply equiv_spec. rewrite A, B, C, D, A', B', C', D'. auto.
Qed.
Lemma angle_factor n u : angle_unit n u -> 0 < u_factor u. Proof. intros (?&?&?&?&?). auto. Qed.
Lemma length_factor n u : length_unit n u -> 0 < u_factor u. Proof. intros (?&?&?&?&?). auto. Qed.

(** *** Formulas *)
Lemma to_angular_pix s a vals u : s_header s = Some a -> 0 < a -> angle_unit 1 u ->
  spatial_unit_conversion s (mk_q vals pix) u = Ok (mk_q (map (fun v => v * a / u_factor u) vals) u).
Proof.
  intros H Ha Hu. pose proof (angle_factor 1 u Hu). unfold spatial_unit_conversion. rewrite (angle_pix 1 u Hu), (angle_deg u Hu). unfold to_angular, ang_size. rewrite H. cbn [bind].
  unfold convert. cbn [q_unit q_vals]. rewrite (pix_angle 1 u Hu). replace (is_equivalent pix pix) with true by reflexivity.
  rewrite (angle_deg u Hu). cbn [andb]. do 2 f_equal. apply map_ext. intros v. rewrite Rabs_pos_eq by lra. cbn. field. lra.
Qed.

Lemma to_pixel_angle s a vals u : s_header s = Some a -> 0 < a -> angle_unit 1 u ->
  to_pixel s (mk_q vals u) = Ok (mk_q (map (fun v => v * u_factor u / a) vals) pix).
Proof.
  intros H Ha Hu. pose proof (angle_factor 1 u Hu). unfold to_pixel. cbn [q_unit]. rewrite (angle_pix 1 u Hu), (angle_deg u Hu). unfold to_angular, ang_size. rewrite H. cbn [bind].
  unfold convert. cbn [q_unit q_vals]. rewrite (angle_pix 1 u Hu). cbn [andb]. rewrite (angle_deg u Hu).
  replace (is_equivalent pix pix) with true by reflexivity. replace (is_equivalent pix deg) with false by reflexivity. cbn [andb].
  do 2 f_equal. apply map_ext. intros v. rewrite Rabs_pos_eq by lra. cbn. field. lra.
Qed.

Lemma to_physical_pix s a d du vals u : located s a d du -> length_unit 1 u ->
  spatial_unit_conversion s (mk_q vals pix) u = Ok (mk_q (map (fun v => v * (a * (PI / 180) * d * u_factor du) / u_factor u) vals) u).
Proof.
  intros (H&Ha&Hd&Hd0&Hdu) Hu. pose proof (length_factor 1 u Hu). pose proof (length_factor 1 du Hdu).
  unfold spatial_unit_conversion. rewrite (length_pix 1 u Hu), (length_deg u 1 Hu), (length_pc u Hu). unfold to_physical, get_distance, physical_size, ang_size, get_distance.
  rewrite Hd, H. cbn [bind fst snd]. unfold convert. cbn [q_unit q_vals]. rewrite (pix_length 1 u Hu). replace (is_equivalent pix pix) with true by reflexivity.
  rewrite (length_length 1 u du Hu Hdu). cbn [andb]. do 2 f_equal. apply map_ext. intros v. rewrite Rabs_pos_eq by lra. cbn. field. lra.
Qed.

Lemma to_pixel_length s a d du vals u : located s a d du -> length_unit 1 u ->
  to_pixel s (mk_q vals u) = Ok (mk_q (map (fun v => v * u_factor u / (a * (PI / 180) * d * u_factor du)) vals) pix).
Proof.
  intros (H&Ha&Hd&Hd0&Hdu) Hu. pose proof (length_factor 1 u Hu). pose proof (length_factor 1 du Hdu). pose proof PI_RGT_0.
  unfold to_pixel. cbn [q_unit]. rewrite (length_pix 1 u Hu), (length_deg u 1 Hu), (length_pc u Hu). unfold to_physical, get_distance, physical_size, ang_size, get_distance.
  rewrite Hd, H. cbn [bind fst snd]. unfold convert. cbn [q_unit q_vals]. rewrite (length_pix 1 u Hu). cbn [andb].
  rewrite (length_length 1 u du Hu Hdu). replace (is_equivalent pix pix) with true by reflexivity. cbn [andb].
  do 2 f_equal. apply map_ext. intros v. rewrite Rabs_pos_eq by lra. cbn. field. repeat split; lra.
Qed.

(** *** Round trips *)
Lemma map_id_ext (f : R -> R) l : (forall v, In v l -> f v = v) -> map f l = l.
Proof. intros H. rewrite <- (map_id l) at 2. now apply map_ext_in. Qed.

Lemma roundtrip_angle s a vals u : s_header s = Some a -> 0 < a -> angle_unit 1 u ->
  bind (spatial_unit_conversion s (mk_q vals pix) u) (to_pixel s) = Ok (mk_q vals pix) /\
  bind (to_pixel s (mk_q vals u)) (fun p => spatial_unit_conversion s p u) = Ok (mk_q vals u).
Proof.
  intros H Ha Hu. pose proof (angle_factor 1 u Hu). split.
  - rewrite (to_angular_pix s a vals u) by auto. cbn [bind]. rewrite (to_pixel_angle s a _ u) by auto. rewrite map_map. do 2 f_equal. apply map_id_ext. intros. field. lra.
  - rewrite (to_pixel_angle s a vals u) by auto. cbn [bind]. rewrite (to_angular_pix s a _ u) by auto. rewrite map_map. do 2 f_equal. apply map_id_ext. intros. field. lra.
Qed.

Lemma phys_pos s a d du : located s a d du -> 0 < a * (PI / 180) * d * u_factor du.
Proof.
  intros (H&Ha&Hd&Hd0&Hdu). pose proof (length_factor 1 du Hdu). pose proof PI_RGT_0. assert (0 < PI / 180) by lra.
  apply Rmult_lt_0_compat; [|lra]. apply Rmult_lt_0_compat; [|lra]. apply Rmult_lt_0_compat; lra.
Qed.

Lemma roundtrip_length s a d du vals u : located s a d du -> length_unit 1 u ->
  bind (spatial_unit_conversion s (mk_q vals pix) u) (to_pixel s) = Ok (mk_q vals pix) /\
  bind (to_pixel s (mk_q vals u)) (fun p => spatial_unit_conversion s p u) = Ok (mk_q vals u).
Proof.
  intros L Hu. pose proof (length_factor 1 u Hu). pose proof (phys_pos s a d du L) as P. set (k := a * (PI / 180) * d * u_factor du) in *. split.
  - rewrite (to_physical_pix s a d du vals u) by auto. fold k. cbn [bind]. rewrite (to_pixel_length s a d du _ u) by auto. fold k. rewrite map_map. do 2 f_equal. apply map_id_ext. intros. field. lra.
  - rewrite (to_pixel_length s a d du vals u) by auto. fold k. cbn [bind]. rewrite (to_physical_pix s a d du _ u) by auto. fold k. rewrite map_map. do 2 f_equal. apply map_id_ext. intros. field. lra.
Qed.

Lemma pixels_unchanged s q u : is_equivalent u pix = true -> spatial_unit_conversion s q u = Ok q.
Proof. intros H. unfold spatial_unit_conversion. now rewrite H. Qed.
Lemma to_pixel_pixels s q : is_equivalent (q_unit q) pix = true -> to_pixel s q = Ok q.
Proof. intros H. unfold to_pixel. now rewrite H. Qed.

(** *** Frequencies and areas *)
Lemma inv_angle u : angle_unit (-1) u -> angle_unit 1 (inv_unit u).
Proof.
  intros (A&B&C&D&E). unfold angle_unit, inv_unit. cbn. rewrite A, B, C, D. repeat split. now apply Rinv_0_lt_compat.
Qed.
Lemma inv_length u : length_unit (-1) u -> length_unit 1 (inv_unit u).
Proof.
  intros (A&B&C&D&E). unfold length_unit, inv_unit. cbn. rewrite A, B, C, D. repeat split. now apply Rinv_0_lt_compat.
Qed.
Lemma inv_pix : inv_unit pix = pixel_unit (-1).
Proof. unfold inv_unit, pixel_unit. cbn. f_equal. apply Rinv_1. Qed.

Lemma freq_angle s a vals u : s_header s = Some a -> 0 < a -> angle_unit (-1) u -> Forall (fun v => v <> 0) vals ->
  to_pixel_freq s (mk_q vals u) = Ok (mk_q (map (fun v => v * u_factor u * a) vals) (pixel_unit (-1))).
Proof.
  intros H Ha Hu Hv. pose proof (angle_factor _ u Hu). unfold to_pixel_freq, q_inv. cbn [q_vals q_unit].
  rewrite (to_pixel_angle s a _ (inv_unit u)) by (auto using inv_angle). cbn [bind q_vals q_unit]. rewrite !map_map, inv_pix. do 2 f_equal.
  apply map_ext_in. intros v Hin. rewrite Forall_forall in Hv. specialize (Hv v Hin). cbn. field. repeat split; lra.
Qed.
Lemma freq_length s a d du vals u : located s a d du -> length_unit (-1) u -> Forall (fun v => v <> 0) vals ->
  to_pixel_freq s (mk_q vals u) = Ok (mk_q (map (fun v => v * u_factor u * (a * (PI / 180) * d * u_factor du)) vals) (pixel_unit (-1))).
Proof.
  intros L Hu Hv. pose proof (length_factor _ u Hu). pose proof (phys_pos s a d du L) as P. unfold to_pixel_freq, q_inv. cbn [q_vals q_unit].
  rewrite (to_pixel_length s a d du _ (inv_unit u)) by (auto using inv_length). set (k := a * (PI / 180) * d * u_factor du) in *. cbn [bind q_vals q_unit]. rewrite !map_map, inv_pix. do 2 f_equal.
  apply map_ext_in. intros v Hin. rewrite Forall_forall in Hv. specialize (Hv v Hin). cbn. field. repeat split; lra.
Qed.

Lemma inv_pixel_freq : inv_unit (pixel_unit (-1)) = pix.
Proof. unfold inv_unit, pixel_unit, pix. cbn. f_equal. apply Rinv_1. Qed.

Lemma inv_inv_unit u : 0 < u_factor u -> inv_unit (inv_unit u) = u.
Proof. intros H. destruct u as [p a l o f]. unfold inv_unit. cbn in *. rewrite !Z.opp_involutive, Rinv_inv. reflexivity. Qed.

Lemma freq_roundtrip_angle s a vals u : s_header s = Some a -> 0 < a -> angle_unit (-1) u -> Forall (fun v => v <> 0) vals ->
  bind (spatial_freq_unit_conversion s (mk_q vals (pixel_unit (-1))) u) (to_pixel_freq s) = Ok (mk_q vals (pixel_unit (-1))).
Proof.
  intros H Ha Hu Hv. pose proof (angle_factor _ u Hu). unfold spatial_freq_unit_conversion, q_inv. cbn [q_vals q_unit]. rewrite inv_pixel_freq.
  rewrite (to_angular_pix s a _ (inv_unit u)) by (auto using inv_angle). cbn [bind q_vals q_unit]. rewrite inv_inv_unit by auto. rewrite !map_map.
  rewrite (freq_angle s a _ u); auto.
  - rewrite map_map. do 2 f_equal. apply map_id_ext. intros v Hin. rewrite Forall_forall in Hv. specialize (Hv v Hin). cbn. field. repeat split; lra.
  - apply Forall_forall. intros w Hw. apply in_map_iff in Hw. destruct Hw as [v [<- Hin]]. rewrite Forall_forall in Hv. specialize (Hv v Hin).
    apply Rinv_neq_0_compat. unfold Rdiv. cbn. apply Rmult_integral_contrapositive. split; [apply Rmult_integral_contrapositive; split; [now apply Rinv_neq_0_compat|lra]|].
    rewrite Rinv_inv. lra.
Qed.

Lemma area_angle s a vals u : s_header s = Some a -> 0 < a -> angle_unit 2 u -> Forall (fun v => 0 <= v) vals ->
  to_pixel_area s (mk_q vals u) = Ok (mk_q (map (fun v => v * u_factor u / (a * a)) vals) (pixel_unit 2)).
Proof.
  intros H Ha Hu Hv. pose proof (angle_factor _ u Hu) as F. unfold to_pixel_area, q_sqrt. cbn [q_unit q_vals].
  destruct (angle_eqs _ u Hu) as (A&B&C&D). rewrite A, B, C, D. cbn [Z.even andb bind Z.div2].
  rewrite (to_pixel_angle s a _ (mk_unit 0 1 0 0 (sqrt (u_factor u)))); auto.
  - cbn [bind]. unfold q_sq. cbn [q_unit q_vals u_factor pix u_pix u_ang u_len u_other]. rewrite !map_map. do 2 f_equal.
    + apply map_ext_in. intros v Hin. rewrite Forall_forall in Hv. specialize (Hv v Hin).
      pose proof (sqrt_sqrt v Hv) as S1. pose proof (sqrt_sqrt (u_factor u) (Rlt_le _ _ F)) as S2.
      rewrite <- S1 at 3. rewrite <- S2 at 3. field. lra.
    + unfold pixel_unit. f_equal. lra.
  - repeat split; cbn. now apply sqrt_lt_R0.
Qed.

Lemma area_length s a d du vals u : located s a d du -> length_unit 2 u -> Forall (fun v => 0 <= v) vals ->
  to_pixel_area s (mk_q vals u) = Ok (mk_q (map (fun v => v * u_factor u / (a * (PI / 180) * d * u_factor du) ^ 2) vals) (pixel_unit 2)).
Proof.
  intros L Hu Hv. pose proof (length_factor _ u Hu) as F. pose proof (phys_pos s a d du L) as P. unfold to_pixel_area, q_sqrt. cbn [q_unit q_vals].
  destruct (length_eqs _ u Hu) as (A&B&C&D). rewrite A, B, C, D. cbn [Z.even andb bind Z.div2].
  rewrite (to_pixel_length s a d du _ (mk_unit 0 0 1 0 (sqrt (u_factor u)))); auto.
  - set (k := a * (PI / 180) * d * u_factor du) in *. cbn [bind]. unfold q_sq. cbn [q_unit q_vals u_factor pix u_pix u_ang u_len u_other]. rewrite !map_map. do 2 f_equal.
    + apply map_ext_in. intros v Hin. rewrite Forall_forall in Hv. specialize (Hv v Hin).
      pose proof (sqrt_sqrt v Hv) as S1. pose proof (sqrt_sqrt (u_factor u) (Rlt_le _ _ F)) as S2.
      rewrite <- S1 at 3. rewrite <- S2 at 3. field. lra.
    + unfold pixel_unit. f_equal. lra.
  - repeat split; cbn. now apply sqrt_lt_R0.
Qed.

(** *** Errors *)
Lemma unrelated_errors s q u : unrelated (q_unit q) -> unrelated u ->
  to_pixel s q = Err UnitConversionError /\ forall p, spatial_unit_conversion s p u = Err UnitConversionError.
Proof. intros (A&B&C) (D&E&F). unfold to_pixel, spatial_unit_conversion. rewrite A, B, C. split; [reflexivity|]. intros p. now rewrite D, E, F. Qed.

Lemma no_distance s vals u : s_distance s = None -> length_unit 1 u ->
  to_pixel s (mk_q vals u) = Err AttributeError /\ forall p, spatial_unit_conversion s p u = Err AttributeError.
Proof.
  intros H Hu. unfold to_pixel, spatial_unit_conversion. cbn [q_unit]. rewrite (length_pix 1 u Hu), (length_deg u 1 Hu), (length_pc u Hu).
  unfold to_physical. rewrite H. auto.
Qed.
Lemma no_header s vals u : s_header s = None -> angle_unit 1 u ->
  to_pixel s (mk_q vals u) = Err AttributeError /\ forall p, spatial_unit_conversion s p u = Err AttributeError.
Proof.
  intros H Hu. unfold to_pixel, spatial_unit_conversion. cbn [q_unit]. rewrite (angle_pix 1 u Hu), (angle_deg u Hu).
  unfold to_angular, ang_size. rewrite H. auto.
Qed.
Lemma no_header_physical s vals u : s_header s = None -> length_unit 1 u ->
  to_pixel s (mk_q vals u) = Err AttributeError /\ forall p, spatial_unit_conversion s p u = Err AttributeError.
Proof.
  intros H Hu. unfold to_pixel, spatial_unit_conversion. cbn [q_unit]. rewrite (length_pix 1 u Hu), (length_deg u 1 Hu), (length_pc u Hu).
  unfold to_physical, get_distance. rewrite H. destruct (s_distance s); auto.
Qed.

(** *** Spectral axis *)
Lemma spectral_roundtrip w su vals : 0 < w -> is_equivalent su pix = false -> 0 < u_factor su ->
  forall u, is_equivalent u su = true -> 0 < u_factor u ->
  bind (to_spectral (Some (w, su)) (mk_q vals pix) u) (fun q => to_spectral (Some (w, su)) q pix) = Ok (mk_q vals pix).
Proof.
  intros Hw Hp F u E Fu. unfold to_spectral, convert. cbn [q_unit q_vals].
  assert (P : is_equivalent pix u = false).
  { destruct (is_equivalent pix u) eqn:Q; auto. apply equiv_spec in Q. apply equiv_spec in E. rewrite <- Hp. symmetry. apply equiv_spec. intuition congruence. }
  assert (P' : is_equivalent u pix = false).
  { destruct (is_equivalent u pix) eqn:Q; auto. apply equiv_spec in Q. apply equiv_spec in E. rewrite <- Hp. symmetry. apply equiv_spec. intuition congruence. }
  rewrite P. replace (is_equivalent pix pix) with true by reflexivity. rewrite E. cbn [andb bind q_unit q_vals]. rewrite P', E. cbn [andb].
  replace (is_equivalent pix pix) with true by reflexivity. rewrite map_map. do 2 f_equal. apply map_id_ext. intros v _. rewrite Rabs_pos_eq by lra. cbn. field. lra.
Qed.

(** A concrete object: pixels of 1/100 degree at 140 pc; arcminutes and AU-like units. *)
Definition ex_stat : stat := mk_stat (Some (1 / 100)) (Some (140, pc)).
Definition ex_arcmin : unit_ := mk_unit 0 1 0 0 (1 / 60).
Definition ex_mpc : unit_ := mk_unit 0 0 1 0 (1 / 1000).
Lemma ex_located : located ex_stat (1 / 100) 140 pc /\ angle_unit 1 ex_arcmin /\ length_unit 1 ex_mpc.
Proof. unfold located, angle_unit, length_unit. cbn. repeat split; lra. Qed.
Lemma ex_freq_units : angle_unit (-1) (inv_unit ex_arcmin) /\ length_unit (-1) (inv_unit ex_mpc) /\ angle_unit 2 (mk_unit 0 2 0 0 (1 / 3600)) /\ length_unit 2 (mk_unit 0 0 2 0 (1 / 1000000)).
Proof. unfold angle_unit, length_unit. cbn. repeat split; try lra; apply Rinv_0_lt_compat; lra. Qed.
Lemma ex_arcmin_value : to_pixel ex_stat (mk_q [3] ex_arcmin) = Ok (mk_q [5] pix).
Proof.
  destruct ex_located as [(A&B&_) [C _]]. rewrite (to_pixel_angle ex_stat (1 / 100)) by auto. cbn. do 3 f_equal. lra.
Qed.
Lemma ex_unrelated : unrelated (mk_unit 0 0 0 1 1).
Proof. repeat split. Qed.
