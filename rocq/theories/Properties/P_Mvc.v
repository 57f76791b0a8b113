(** Properties C66 and C173-C178: modified velocity centroids, beam correction. *)
From Coq Require Import Reals List ZArith Arith Bool Lia Lra.
From Coquelicot Require Import Complex.
From Verif Require Import Lib.PyBase Lib.PySlice Lib.DFT Lib.Fl Lib.RSum Spec.Blank Spec.Freq Spec.Velocity Model.Psds Model.Beam Model.Mvc
  Proofs.Psds_Proofs Proofs.Beam_Proofs Proofs.Mvc_Proofs Proofs.Mvc2_Proofs Proofs.Mvc3_Proofs.
Import ListNotations.
Local Open Scope R_scope.

(** C66 fails: one blank pixel of the centroid map, or of the moment 0 map, that is
    not blank in the other maps makes the whole spectrum blank. *)
Theorem C66_one_blank_refuted : forall ny nx (c m l : nat -> nat -> R) kernel y0 x0, (y0 < ny)%nat -> (x0 < nx)%nat ->
  let blank a := map_of ny nx (with_pixel y0 x0 NaN (fun y x => Fin (a y x))) in
  (exists ps, mvc_ps2D (blank c) (full ny nx m) (full ny nx l) kernel false None = Ok ps /\
     forall i j, (i < ny)%nat -> (j < nx)%nat -> at2 NaN ps i j = NaN) /\
  (exists ps, mvc_ps2D (full ny nx c) (blank m) (full ny nx l) kernel false None = Ok ps /\
     forall i j, (i < ny)%nat -> (j < nx)%nat -> at2 NaN ps i j = NaN).
Proof. exact one_blank. Qed.
Print Assumptions C66_one_blank_refuted.

(** C66, exactly when the spectrum has values: all of it, or none of it. *)
Theorem C66_blank_rule_partial : forall ny nx c m l kernel, (1 <= ny)%nat -> (1 <= nx)%nat ->
  numbers_map ny nx c -> numbers_map ny nx m -> numbers_map ny nx l ->
  exists ps, mvc_ps2D (map_of ny nx c) (map_of ny nx m) (map_of ny nx l) kernel false None = Ok ps /\
  (usable ny nx c m l -> forall i j, (i < ny)%nat -> (j < nx)%nat -> exists v, at2 NaN ps i j = Fin v) /\
  (~ usable ny nx c m l -> forall i j, (i < ny)%nat -> (j < nx)%nat -> at2 NaN ps i j = NaN).
Proof. exact blank_rule. Qed.
Print Assumptions C66_blank_rule_partial.

(** C66 for pixels blank in all three maps: they count as zero. *)
Theorem C66_common_blanks_partial : forall ny nx c m l kernel beam_correct beam,
  (forall y x, (y < ny)%nat -> (x < nx)%nat -> (c y x = NaN <-> m y x = NaN) /\ (c y x = NaN <-> l y x = NaN)) ->
  mvc_ps2D (map_of ny nx c) (map_of ny nx m) (map_of ny nx l) kernel beam_correct beam =
  mvc_ps2D (map_of ny nx (zero_filled c)) (map_of ny nx (zero_filled m)) (map_of ny nx (zero_filled l)) kernel beam_correct beam.
Proof. exact common_blanks. Qed.
Print Assumptions C66_common_blanks_partial.

(** A pixel blank in the linewidth map only, and one blank in all: usable maps. *)
Example C66_example : usable 1 3 (fun _ x => match x with O => NaN | _ => Fin 1 end) (fun _ x => match x with O => NaN | _ => Fin 2 end)
  (fun _ x => match x with 2%nat => Fin 1 | _ => NaN end).
Proof.
  split.
  - intros y x _ _ [H|H]; destruct x; try discriminate; auto.
  - exists 0%nat, 2%nat. repeat split; try lia. left. split; discriminate.
Qed.

(** C173.  The value at every frequency, for maps without blanks (no apodizing:
    [kernel] = None): the square of the difference of moduli. *)
Theorem C173_value_partial : forall ny nx c m l, (1 <= ny)%nat -> (1 <= nx)%nat ->
  exists ps, mvc_ps2D (full ny nx c) (full ny nx m) (full ny nx l) None false None = Ok ps /\
  forall i j ky kx, (i < ny)%nat -> (j < nx)%nat -> holds ny nx i j ky kx ->
    at2 NaN ps i j = Fin ((ft_abs ny nx (fun y x => c y x * m y x) ky kx
                           - mean2 ny nx (fun y x => l y x ^ 2 + c y x ^ 2) * ft_abs ny nx m ky kx) ^ 2).
Proof. exact (fun ny nx c m l => mvc_value ny nx c m l None). Qed.
Print Assumptions C173_value_partial.

(** C173 fails: it is not |F(M0 M1)|^2 - <M2> |F(M0)|^2.  For uniform maps of any
    shape with centroid 0, that is negative at frequency 0, the computed
    spectrum is positive. *)
Theorem C173_documented_refuted : forall ny nx mu lambda, (1 <= ny)%nat -> (1 <= nx)%nat -> mu <> 0 -> lambda <> 0 ->
  exists ps i j, (i < ny)%nat /\ (j < nx)%nat /\ holds ny nx i j 0 0 /\
  mvc_ps2D (full ny nx (fun _ _ => 0)) (full ny nx (fun _ _ => mu)) (full ny nx (fun _ _ => lambda)) None false None = Ok ps /\
  documented_mvc ny nx (fun _ _ => 0) (fun _ _ => mu) (fun _ _ => lambda) 0 0 < 0 /\
  exists v, at2 NaN ps i j = Fin v /\ 0 < v.
Proof. exact documented_refuted. Qed.
Print Assumptions C173_documented_refuted.

(** C174, intensity unit: the spectrum is multiplied by the square of the factor. *)
Theorem C174_intensity_unit_partial : forall ny nx c m l kernel (s : R), (1 <= ny)%nat -> (1 <= nx)%nat ->
  exists ps ps', mvc_ps2D (full ny nx c) (full ny nx m) (full ny nx l) kernel false None = Ok ps /\
  mvc_ps2D (full ny nx c) (full ny nx (fun y x => s * m y x)) (full ny nx l) kernel false None = Ok ps' /\
  forall i j, (i < ny)%nat -> (j < nx)%nat -> exists p, at2 NaN ps i j = Fin p /\ at2 NaN ps' i j = Fin (s ^ 2 * p).
Proof. exact intensity_unit. Qed.
Print Assumptions C174_intensity_unit_partial.

(** C174, velocity unit: the two terms scale differently. *)
Theorem C174_velocity_unit_partial : forall ny nx c m l (v : R), (1 <= ny)%nat -> (1 <= nx)%nat -> 0 < v ->
  exists ps ps', mvc_ps2D (full ny nx c) (full ny nx m) (full ny nx l) None false None = Ok ps /\
  mvc_ps2D (full ny nx (fun y x => v * c y x)) (full ny nx m) (full ny nx (fun y x => v * l y x)) None false None = Ok ps' /\
  forall i j ky kx, (i < ny)%nat -> (j < nx)%nat -> holds ny nx i j ky kx ->
    let T := ft_abs ny nx (fun y x => c y x * m y x) ky kx in
    let M := mean2 ny nx (fun y x => l y x ^ 2 + c y x ^ 2) * ft_abs ny nx m ky kx in
    at2 NaN ps i j = Fin ((T - M) ^ 2) /\ at2 NaN ps' i j = Fin (v ^ 2 * (T - v * M) ^ 2).
Proof. exact velocity_unit. Qed.
Print Assumptions C174_velocity_unit_partial.

(** C174 fails: doubling the velocities turns the spectrum (1, 0) into (4, 4). *)
Theorem C174_velocity_unit_refuted : exists c m l ps ps',
  mvc_ps2D (full 1 2 c) (full 1 2 m) (full 1 2 l) None false None = Ok ps /\
  mvc_ps2D (full 1 2 (fun y x => 2 * c y x)) (full 1 2 m) (full 1 2 (fun y x => 2 * l y x)) None false None = Ok ps' /\
  at2 NaN ps 0 0 = Fin 1 /\ at2 NaN ps 0 1 = Fin 0 /\ at2 NaN ps' 0 0 = Fin 4 /\ at2 NaN ps' 0 1 = Fin 4.
Proof. exact velocity_refuted. Qed.
Print Assumptions C174_velocity_unit_refuted.

(** C175.  Moving the three maps together, cyclically, leaves the spectrum as it is. *)
Theorem C175_moved : forall ny nx c m l sy sx, (1 <= ny)%nat -> (1 <= nx)%nat ->
  exists ps ps', mvc_ps2D (full ny nx c) (full ny nx m) (full ny nx l) None false None = Ok ps /\
  mvc_ps2D (full ny nx (moved ny nx sy sx c)) (full ny nx (moved ny nx sy sx m)) (full ny nx (moved ny nx sy sx l)) None false None = Ok ps' /\
  forall i j, (i < ny)%nat -> (j < nx)%nat -> at2 NaN ps' i j = at2 NaN ps i j.
Proof. exact mvc_moved. Qed.
Print Assumptions C175_moved.

(** C175.  Opposite frequencies have equal values. *)
Theorem C175_symmetric : forall ny nx c m l kernel i j i' j' ky kx,
  (i < ny)%nat -> (j < nx)%nat -> (i' < ny)%nat -> (j' < nx)%nat ->
  holds ny nx i j ky kx -> holds ny nx i' j' ((ny - ky) mod ny) ((nx - kx) mod nx) ->
  exists ps, mvc_ps2D (full ny nx c) (full ny nx m) (full ny nx l) kernel false None = Ok ps /\ at2 NaN ps i' j' = at2 NaN ps i j.
Proof. exact mvc_symmetric. Qed.
Print Assumptions C175_symmetric.

(** Every pixel stands for one frequency. *)
Example C175_example : forall ny nx i j, (i < ny)%nat -> (j < nx)%nat -> exists ky kx, holds ny nx i j ky kx.
Proof. intros ny nx i j I J. eexists. eexists. exact (holds_at ny nx i j I J). Qed.

(** C176, what apodizing computes, beside the spectrum with the moment 0 map tapered. *)
Theorem C176_apodized_partial : forall ny nx c m l k, (1 <= ny)%nat -> (1 <= nx)%nat ->
  exists ps ps', mvc_ps2D (full ny nx c) (full ny nx m) (full ny nx l) (Some k) false None = Ok ps /\
  mvc_ps2D (full ny nx c) (full ny nx (fun y x => m y x * k y x)) (full ny nx l) None false None = Ok ps' /\
  forall i j ky kx, (i < ny)%nat -> (j < nx)%nat -> holds ny nx i j ky kx ->
    let T := ft_abs ny nx (fun y x => c y x * m y x * k y x) ky kx in
    let M := ft_abs ny nx (fun y x => m y x * k y x) ky kx in
    at2 NaN ps' i j = Fin ((T - mean2 ny nx (fun y x => l y x ^ 2 + c y x ^ 2) * M) ^ 2) /\
    at2 NaN ps i j = Fin ((T - mean2 ny nx (fun y x => l y x ^ 2 + c y x ^ 2 * k y x) * M) ^ 2).
Proof. exact apodized_value. Qed.
Print Assumptions C176_apodized_partial.

Theorem C176_kernel_of_ones_partial : forall c m l,
  mvc_ps2D c m l (Some (fun _ _ => 1)) false None = mvc_ps2D c m l None false None.
Proof. exact kernel_ones. Qed.
Print Assumptions C176_kernel_of_ones_partial.

(** C176 fails: the kernel also reaches the squared centroid in the mean dispersion,
    not the squared linewidth; here with the window (0, 1, 0). *)
Theorem C176_apodized_refuted : exists c m l k ps ps',
  mvc_ps2D (full 1 3 c) (full 1 3 m) (full 1 3 l) (Some k) false None = Ok ps /\
  mvc_ps2D (full 1 3 c) (full 1 3 (fun y x => m y x * k y x)) (full 1 3 l) None false None = Ok ps' /\
  at2 NaN ps 0 1 = Fin (4 / 9) /\ at2 NaN ps' 0 1 = Fin 0.
Proof. exact apodized_refuted. Qed.
Print Assumptions C176_apodized_refuted.

(** C177 for constant moment 0 errors (and unit velocity errors): a constant factor. *)
Theorem C177_moment0_error_partial : forall ny nx c m l e, (1 <= ny)%nat -> (1 <= nx)%nat -> e <> 0 ->
  exists ps ps', distance_ps2D false (full ny nx c) (full ny nx m) (full ny nx l) (full ny nx (fun _ _ => 1)) (full ny nx (fun _ _ => e)) (full ny nx (fun _ _ => 1)) = Ok ps /\
  distance_ps2D true (full ny nx c) (full ny nx m) (full ny nx l) (full ny nx (fun _ _ => 1)) (full ny nx (fun _ _ => e)) (full ny nx (fun _ _ => 1)) = Ok ps' /\
  forall i j, (i < ny)%nat -> (j < nx)%nat -> exists p, at2 NaN ps i j = Fin p /\ at2 NaN ps' i j = Fin ((/ e ^ 2) ^ 2 * p).
Proof. exact moment0_error. Qed.
Print Assumptions C177_moment0_error_partial.

(** C177 fails for constant velocity errors of 1/2: (1, 0) becomes (16, 144). *)
Theorem C177_constant_errors_refuted : exists c m l ps ps',
  let one := full 1 2 (fun _ _ => 1) in let half := full 1 2 (fun _ _ => 1 / 2) in
  distance_ps2D false (full 1 2 c) (full 1 2 m) (full 1 2 l) half one half = Ok ps /\
  distance_ps2D true (full 1 2 c) (full 1 2 m) (full 1 2 l) half one half = Ok ps' /\
  at2 NaN ps 0 0 = Fin 1 /\ at2 NaN ps 0 1 = Fin 0 /\ at2 NaN ps' 0 0 = Fin 16 /\ at2 NaN ps' 0 1 = Fin 144.
Proof. exact error_refuted. Qed.
Print Assumptions C177_constant_errors_refuted.

(** ... and one pixel with a zero error makes the whole spectrum blank. *)
Theorem C177_zero_error_refuted : forall ny nx c m l (ec em el : nat -> nat -> fl) y0 x0, (y0 < ny)%nat -> (x0 < nx)%nat ->
  c y0 x0 <> 0 -> ec y0 x0 = Fin 0 ->
  exists ps, distance_ps2D true (full ny nx c) (full ny nx m) (full ny nx l) (map_of ny nx ec) (map_of ny nx em) (map_of ny nx el) = Ok ps /\
  forall i j, (i < ny)%nat -> (j < nx)%nat -> at2 NaN ps i j = NaN.
Proof. exact zero_error. Qed.
Print Assumptions C177_zero_error_refuted.

(** C178.  The beam-corrected spectrum of an image convolved with the beam is the
    spectrum of the image, blank where the beam has no power. *)
Theorem C178_image : forall ny nx image beam i j, (i < ny)%nat -> (j < nx)%nat ->
  exists ps, pspec_ps2D ny nx (convolved ny nx image beam) None true (Some beam) = Ok ps /\
  forall ky kx, holds ny nx i j ky kx ->
    (ft_abs ny nx beam ky kx <> 0 -> at2 NaN ps i j = Fin (ft_abs ny nx image ky kx ^ 2)) /\
    (ft_abs ny nx beam ky kx = 0 -> at2 NaN ps i j = NaN).
Proof. exact beam_recovers. Qed.
Print Assumptions C178_image.

(** C178.  The same for VCA, channel by channel. *)
Theorem C178_cube : forall nz ny nx cube beam i j, (1 <= nz)%nat -> (i < ny)%nat -> (j < nx)%nat ->
  exists ps, vca_ps2D_beam nz ny nx (fun z => convolved ny nx (cube z) beam) true (Some beam) = Ok ps /\
  forall ky kx, holds ny nx i j ky kx -> ft_abs ny nx beam ky kx <> 0 -> at2 NaN ps i j = Fin (at2 0 (vca_ps2D nz ny nx cube) i j).
Proof. exact vca_beam_recovers. Qed.
Print Assumptions C178_cube.

(** C178.  MVC: the spectrum divided by the power of the beam. *)
Theorem C178_mvc : forall ny nx c m l kernel beam, (1 <= ny)%nat -> (1 <= nx)%nat ->
  exists ps ps', mvc_ps2D (full ny nx c) (full ny nx m) (full ny nx l) kernel false None = Ok ps /\
  mvc_ps2D (full ny nx c) (full ny nx m) (full ny nx l) kernel true (Some beam) = Ok ps' /\
  forall i j ky kx, (i < ny)%nat -> (j < nx)%nat -> holds ny nx i j ky kx ->
    exists p, at2 NaN ps i j = Fin p /\
    (ft_abs ny nx beam ky kx <> 0 -> at2 NaN ps' i j = Fin (p / ft_abs ny nx beam ky kx ^ 2)) /\
    (ft_abs ny nx beam ky kx = 0 -> at2 NaN ps' i j = NaN).
Proof. exact mvc_beam. Qed.
Print Assumptions C178_mvc.

(** C178.  Where the beam kernel is placed in its array does not matter. *)
Theorem C178_kernel_position : forall ny nx sy sx beam ky kx, (0 < ny)%nat -> (0 < nx)%nat ->
  ft_abs ny nx (moved ny nx sy sx beam) ky kx = ft_abs ny nx beam ky kx.
Proof. exact ft_abs_moved. Qed.
Print Assumptions C178_kernel_position.

(** C178.  Without a beam the correction raises. *)
Theorem C178_no_beam : forall ny nx data kernel c m l nz cube,
  pspec_ps2D ny nx data kernel true None = Err AttributeError /\
  ((1 <= nz)%nat -> vca_ps2D_beam nz ny nx cube true None = Err AttributeError) /\
  mvc_ps2D (map_of ny nx c) (map_of ny nx m) (map_of ny nx l) kernel true None = Err AttributeError.
Proof. exact no_beam. Qed.
Print Assumptions C178_no_beam.

(** The one-pixel beam on 1 x 2 pixels has power 1 at frequency 0, the uniform one
    has none at frequency 1/2. *)
Example C178_example : ft_abs 1 2 cc 0 0 = 1 /\ ft_abs 1 2 one2 0 1 = 0.
Proof.
  split; [destruct (ft_12 cc) as [-> _]|destruct (ft_12 one2) as [_ ->]]; unfold cc, one2; cbn [Nat.eqb].
  - rewrite Rabs_pos_eq; lra.
  - replace (1 - 1) with 0 by ring. apply Rabs_R0.
Qed.
