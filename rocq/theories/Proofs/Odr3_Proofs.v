(** The two fits of PCA: orthogonal distances and probabilities *)
From Coq Require Import String Reals List Lia Lra Bool.
From Coq Require Import List.
From Verif Require Import Lib.PyBase Lib.Fl Lib.RSum Model.FitUtils Model.Odr Spec.Segmented Spec.Odr Proofs.FitUtils_Proofs Proofs.Odr_Proofs.
Import ListNotations.
Local Open Scope R_scope.

Definition q_of (p : R * R * (R * R)) : quad := let '(x, y, (ex, ey)) := p in mk_q x y (/ (ex * ex)) (/ (ey * ey)).
Lemma points_quads pts : errors_positive pts -> map odr_datum (map real_point pts) = map datum_of (map q_of pts) /\ posq (map q_of pts).
Proof.
  intro H. induction pts as [|[[x y] [ex ey]] pts IH]; [split; [reflexivity|constructor]|]. destruct IH as [E P]; [intros x' y' ex' ey' I; apply (H x' y' ex' ey'); now right|].
  destruct (H x y ex ey (or_introl eq_refl)) as [A B]. cbn [map]. rewrite E. split.
  - f_equal. unfold odr_datum, real_point, datum_of, q_of. cbn [p_x p_y p_ex p_ey qx qy qd qe pow_m2]. destruct (Reqb_spec ex 0); [lra|]. destruct (Reqb_spec ey 0); [lra|]. reflexivity.
  - constructor; [|exact P]. cbn [q_of qd qe]. split; apply Rinv_0_lt_compat; now apply Rmult_lt_0_compat.
Qed.
Lemma least_cost l a b : posq l -> least (map datum_of l) a b (cost l a b).
Proof.
  intro P. split.
  - destruct (cost_reached l a b P) as [d E]. exists d. now rewrite misfit_real, E.
  - intro d. rewrite misfit_real. cbn [fleb]. destruct (Rleb_spec (cost l a b) (rmis l a b d)) as [|N]; [reflexivity|]. exfalso. apply N. now apply cost_below.
Qed.
Lemma least_unique l a b v w : least l a b v -> least l a b w -> v = w.
Proof.
  intros [[d E] H] [[d' E'] H']. specialize (H d'). specialize (H' d). rewrite E' in H. rewrite E in H'. cbn [fleb] in *. destruct (Rleb_spec v w); [|discriminate]. destruct (Rleb_spec w v); [|discriminate]. lra.
Qed.
Lemma chi2_cost theta b pts : errors_positive pts -> line_chi2 theta b pts = cost (map q_of pts) (tan theta) b.
Proof.
  intro H. unfold line_chi2, cost. rewrite map_map. f_equal. apply map_ext_in. intros [[x y] [ex ey]] I. destruct (H x y ex ey I) as [A B]. unfold cost1, resid. cbn [q_of qx qy qd qe].
  assert (0 < ex * ex) by now apply Rmult_lt_0_compat. assert (0 < ey * ey) by now apply Rmult_lt_0_compat. pose proof (Rle_0_sqr (tan theta)) as S. unfold Rsqr in S.
  assert (0 <= tan theta * tan theta * (ex * ex)) by (apply Rmult_le_pos; lra).
  replace (/ (ex * ex) + tan theta * tan theta * / (ey * ey)) with ((ey * ey + tan theta * tan theta * (ex * ex)) / ((ex * ex) * (ey * ey))) by (field; split; lra).
  replace (ey ^ 2 + tan theta ^ 2 * ex ^ 2) with (ey * ey + tan theta * tan theta * (ex * ex)) by ring.
  field. repeat split; lra.
Qed.
Lemma same_misfit theta b pts : 0 <= theta < PI / 2 -> errors_positive pts -> exists v, least (map odr_datum (map real_point pts)) (tan theta) b v /\
  logprob theta b pts = Some (- (1 / 2) * v - 1 / 2 * lsum (map (fun p => ln ((sin theta) ^ 2 * fst (snd p) ^ 2 + (cos theta) ^ 2 * snd (snd p) ^ 2)) pts)).
Proof.
  intros T H. destruct (points_quads pts H) as [E P]. exists (cost (map q_of pts) (tan theta) b). rewrite E. split; [now apply least_cost|].
  rewrite logprob_value by assumption. rewrite chi2_cost by assumption. do 4 f_equal. apply map_ext_in. intros [[x y] [ex ey]] I. cbn [fst snd]. f_equal. unfold tan. field. apply Rgt_not_eq. apply cos_gt_0; lra.
Qed.
Lemma common_order e pts theta b theta' b' v v' : 0 < e -> common_error e pts -> 0 <= theta < PI / 2 -> 0 <= theta' < PI / 2 ->
  least (map odr_datum (map real_point pts)) (tan theta) b v -> least (map odr_datum (map real_point pts)) (tan theta') b' v' ->
  exists p p', logprob theta b pts = Some p /\ logprob theta' b' pts = Some p' /\ (p' <= p <-> v <= v').
Proof.
  intros E C T T' L L'. assert (H : errors_positive pts) by (intros x y ex ey I; destruct (C x y ex ey I) as [-> ->]; split; exact E).
  destruct (same_misfit theta b pts T H) as [w [M ->]]. destruct (same_misfit theta' b' pts T' H) as [w' [M' ->]]. rewrite (least_unique _ _ _ _ _ L M), (least_unique _ _ _ _ _ L' M').
  assert (K : forall t, map (fun p : R * R * (R * R) => ln ((sin t) ^ 2 * fst (snd p) ^ 2 + (cos t) ^ 2 * snd (snd p) ^ 2)) pts = map (fun _ => ln (e ^ 2)) pts).
  { intro t. apply map_ext_in. intros [[x y] [ex ey]] I. cbn [fst snd]. destruct (C x y ex ey I) as [-> ->]. f_equal. pose proof (sin2_cos2 t) as S. unfold Rsqr in S. replace (sin t ^ 2 * e ^ 2 + cos t ^ 2 * e ^ 2) with ((sin t * sin t + cos t * cos t) * e ^ 2) by ring. rewrite S. ring. }
  rewrite !K. eexists. eexists. split; [reflexivity|]. split; [reflexivity|]. lra.
Qed.
(** Two points on the diagonal, with errors twice as large in y *)
Definition diagonal : list (R * R * (R * R)) := [(0, 0, (1, 2)); (1, 1, (1, 2))].
Lemma diagonal_errors : errors_positive diagonal.
Proof. intros x y ex ey [H|[H|[]]]; injection H as <- <- <- <-; lra. Qed.
Lemma trig t : (sin (atan t)) ^ 2 * (1 + t * t) = t * t /\ (cos (atan t)) ^ 2 * (1 + t * t) = 1.
Proof.
  pose proof (atan_bound t) as B. assert (C : 0 < cos (atan t)) by (apply cos_gt_0; lra). assert (T : tan (atan t) = t) by apply tan_atan. unfold tan in T. assert (S : sin (atan t) = t * cos (atan t)) by (rewrite <- T at 2; field; lra).
  pose proof (sin2_cos2 (atan t)) as Q. unfold Rsqr in Q. rewrite S in *. split; nra.
Qed.
Lemma diagonal_prob t b : 0 <= t -> logprob (atan t) b diagonal = Some (- (1 / 2) * ((b * b + (1 - t - b) * (1 - t - b)) / (4 + t * t)) - ln ((t * t + 4) / (1 + t * t))).
Proof.
  intro N. assert (D : 0 < 1 + t * t) by nra. assert (T : 0 <= atan t < PI / 2).
  { pose proof (atan_bound t). split; [|lra]. destruct N as [N|<-]; [rewrite <- atan_0; left; now apply atan_increasing|rewrite atan_0; lra]. }
  destruct (points_quads diagonal diagonal_errors) as [_ P]. rewrite logprob_value by (exact T || exact diagonal_errors). f_equal. unfold line_chi2, diagonal, lsum. cbn [map fst snd fold_right]. rewrite tan_atan.
  destruct (trig t) as [_ C]. assert (C' : cos (atan t) ^ 2 = / (1 + t * t)) by (apply (Rmult_eq_reg_r (1 + t * t)); [rewrite C; field; lra|lra]). rewrite C'.
  replace (/ (1 + t * t) * (2 ^ 2 + t ^ 2 * 1 ^ 2)) with ((t * t + 4) / (1 + t * t)) by (field; lra). field_simplify_eq; [|nra]. ring.
Qed.
Lemma steeper_preferred : (forall p, In p diagonal -> snd (fst p) = 1 * fst (fst p) + 0) /\
  exists p p', logprob (atan 1) 0 diagonal = Some p /\ logprob (atan 2) (- (1 / 2)) diagonal = Some p' /\ p < p'.
Proof.
  split; [intros p [<-|[<-|[]]]; cbn; lra|]. eexists. eexists. split; [apply diagonal_prob; lra|]. split; [apply diagonal_prob; lra|].
  replace ((1 * 1 + 4) / (1 + 1 * 1)) with (25 / 10) by lra. replace ((2 * 2 + 4) / (1 + 2 * 2)) with (16 / 10) by lra.
  replace (- (1 / 2) * ((0 * 0 + (1 - 1 - 0) * (1 - 1 - 0)) / (4 + 1 * 1))) with 0 by field.
  replace (- (1 / 2) * ((- (1 / 2) * - (1 / 2) + (1 - 2 - - (1 / 2)) * (1 - 2 - - (1 / 2))) / (4 + 2 * 2))) with (- (1 / 32)) by field.
  assert (ln (16 / 10) + 1 / 32 < ln (25 / 10)); [|lra].
  assert (E : exp (1 / 32) < 25 / 16).
  { apply Rlt_trans with (exp (1 / 8)); [apply exp_increasing; lra|]. replace (1 / 8) with (1 / 8) by lra. apply Rle_lt_trans with (/ (1 - 1 / 8)); [|lra].
    assert (L := exp_ineq1_le (- (1 / 8))). rewrite exp_Ropp in L. pose proof (exp_pos (1 / 8)) as Q. rewrite <- (Rinv_inv (exp (1 / 8))). apply Rinv_le_contravar; lra. }
  rewrite <- (ln_exp (1 / 32)), <- ln_mult by (try apply exp_pos; lra). apply ln_increasing; [apply Rmult_lt_0_compat; [lra|apply exp_pos]|lra].
Qed.
