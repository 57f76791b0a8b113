(** Spatial widths without errors in the size-line width fit *)
From Coq Require Import String Reals List Lia Lra Bool Arith Permutation.
From Coq Require Import List.
From Verif Require Import Lib.PyBase Lib.Fl Lib.RSum Model.EllipPlaw Model.PcaFit Model.WidthMethods Model.WidthImages Proofs.WidthImages_Proofs Proofs.WidthImages2_Proofs.
From Verif Require Import Model.Odr Spec.Odr Proofs.Odr2_Proofs.
From Verif Require Proofs.FlAlg_Proofs.
Import ListNotations.
Local Open Scope R_scope.

Definition interpolating (m : string) : Prop := m = "interpolate"%string \/ m = "xinterpolate"%string.
Lemma zero_error t a : is_fin (snd (scale_of t (Fin a, Fin a, Fin 0, Fin 0))) = true -> snd (scale_of t (Fin a, Fin a, Fin 0, Fin 0)) = Fin 0.
Proof.
  assert (G : forall u v s, is_fin (fdiv (fsqrt (fadd (fsqr (fmul (Fin u) (Fin 0))) (fsqr (fmul (Fin v) (Fin 0))))) s) = true -> fdiv (fsqrt (fadd (fsqr (fmul (Fin u) (Fin 0))) (fsqr (fmul (Fin v) (Fin 0))))) s = Fin 0).
  { intros u v s. unfold fsqr. cbn [fmul fadd fsqrt]. replace (u * 0 * (u * 0) + v * 0 * (v * 0)) with 0 by ring. destruct (Rltb_spec 0 0); [lra|]. rewrite sqrt_0. destruct s as [s| | |]; cbn [fdiv]; [|reflexivity|reflexivity|discriminate].
    destruct (Reqb_spec s 0); [|intros _; f_equal; unfold Rdiv; ring]. unfold sinf. destruct (Rltb_spec 0 0); [lra|]. discriminate. }
  destruct t as [t|]; cbn [scale_of]; [|apply G]. unfold combine_widths. cbv zeta. cbn [snd fmul fabs]. replace (Rabs (1 * 1) * 0) with 0 by ring. cbn [fsub fadd fneg]. apply G.
Qed.
Section Fit.
Variable fit2 : R -> list pixel -> gauss2 * option (R * R).
Variable spline : list R -> list R -> list R -> result (R -> R).
Variable contours : list pixel -> list (bool * list Model.Ellipse.point).
Variable eig : Lib.Mat3.m3 -> list Lib.Mat3.v3.
Variable leastsq : Model.Ellipse.ellipse -> Model.Ellipse.point -> R.
Variable alpha : R.
Variable draws : list Model.Ellipse.draw.
Lemma axis_interpolated m px w : interpolating m -> axis_widths fit2 spline contours eig leastsq alpha draws m px = Ok w -> exists a, w = (Fin a, Fin a, Fin 0, Fin 0).
Proof.
  intros [->| ->]; unfold axis_widths; cbn [String.eqb Ascii.eqb Bool.eqb]; destruct (spline_width _ _ px) as [r|]; cbn [bind]; try discriminate; intro H; apply Ok_inj in H; subst w; eexists; reflexivity.
Qed.
Lemma all_interpolated m : interpolating m -> forall l ws, all_axis_widths fit2 spline contours eig leastsq alpha draws m l = Ok ws -> Forall (fun w => exists a, w = (Fin a, Fin a, Fin 0, Fin 0)) ws.
Proof.
  intro M. induction l as [|px l IH]; intros ws H; cbn [all_axis_widths] in H; [apply Ok_inj in H; subst; constructor|].
  destruct (axis_widths _ _ _ _ _ _ _ m px) as [w|] eqn:E; [|discriminate]. cbn [bind] in H. destruct (all_axis_widths _ _ _ _ _ _ _ m l) as [ws'|]; [|discriminate]. cbn [bind] in H. apply Ok_inj in H. subst ws. constructor; [exact (axis_interpolated _ _ _ M E)|now apply IH].
Qed.
Lemma widths_interpolated m noise bc fw cd images ws : interpolating m -> width_2D fit2 spline contours eig leastsq alpha draws m noise bc fw cd images = Ok ws -> Forall (fun w => is_fin (snd w) = true -> snd w = Fin 0) ws.
Proof.
  intros M H. unfold width_2D in H. destruct (negb _); [discriminate|]. destruct images as [|im ims]; [discriminate|]. destruct (all_axis_widths _ _ _ _ _ _ _ m _) as [l|] eqn:E; [|discriminate]. cbn [bind] in H.
  destruct (beam_term bc fw cd) as [t|]; [|discriminate]. cbn [bind] in H. apply Ok_inj in H. subst ws. apply all_interpolated in E; [|exact M]. apply Forall_forall. intros w I. apply in_map_iff in I as [w0 [<- I]].
  rewrite Forall_forall in E. destruct (E w0 I) as [a ->]. apply zero_error.
Qed.
Lemma no_size_errors pts a b delta : pts <> [] -> (forall r, In r pts -> w_spat_err r = Fin 0 /\ is_fin (w_spat r) = true) -> is_fin (misfit (map odr_datum (map log_point pts)) a b delta) = false.
Proof.
  intros N H. destruct pts as [|r pts]; [contradiction|]. destruct (H r (or_introl eq_refl)) as [E F]. cbn [map misfit]. apply fadd_notfin. rewrite Proofs.FlAlg_Proofs.fadd_comm. apply fadd_notfin, fmul_notfin.
  destruct (w_spat r) as [v| | |] eqn:V; try discriminate. cbn [odr_datum d_wd log_point p_ex]. rewrite E, V. cbn [fmul fdiv]. destruct (Reqb_spec v 0).
  - unfold sinf. destruct (Rltb_spec 0 (434 / 1000 * 0)); [lra|]. destruct (Rltb_spec (434 / 1000 * 0) 0); [lra|]. reflexivity.
  - cbn [pow_m2]. destruct (Reqb_spec (434 / 1000 * 0 / v) 0) as [|K]; [reflexivity|]. exfalso. apply K. unfold Rdiv. ring.
Qed.
Lemma interpolated_sizes m noise bc fw cd images ws rows lo hi pts a b delta : interpolating m -> width_2D fit2 spline contours eig leastsq alpha draws m noise bc fw cd images = Ok ws ->
  map (fun r => (w_spat r, w_spat_err r)) rows = ws -> fit_rows lo hi rows = Ok pts -> is_fin (misfit (map odr_datum (map log_point pts)) a b delta) = false.
Proof.
  intros M H E F. apply widths_interpolated in H; [|exact M]. rewrite <- E in H. unfold fit_rows in F. destruct (negb (existsb (within lo hi) rows)); [discriminate|].
  destruct (Nat.ltb_spec (length (filter (fun r => within lo hi r && all_finite r) rows)) 2) as [|Len]; [discriminate|]. apply Ok_inj in F. rewrite F in Len.
  apply no_size_errors; [intros ->; cbn in Len; lia|]. intros r I. rewrite <- F in I. apply filter_In in I as [I B]. apply andb_true_iff in B as [_ B]. rewrite Forall_forall in H. unfold all_finite in B.
  assert (S := H _ (in_map (fun r => (w_spat r, w_spat_err r)) _ _ I)). cbn [snd] in S. destruct (is_fin (w_spec r)), (is_fin (w_spat r)), (is_fin (w_spat_err r)); try discriminate. split; [now apply S|reflexivity].
Qed.
End Fit.
(** A spline that is 2 everywhere, on two images of 100 pixels *)
Definition flat_spline (x y t : list R) : result (R -> R) := Ok (fun _ => 2).
Definition ten_by_ten : image := mk_img 10 10 (fun i j => INR (i + j)).
Lemma flat_widths fit2 contours eig leastsq alpha draws : exists w, width_2D fit2 flat_spline contours eig leastsq alpha draws "interpolate" (fun _ _ => 0) false None None [ten_by_ten; ten_by_ten] = Ok [(Fin w, Fin 0); (Fin w, Fin 0)].
Proof.
  assert (S : forall radius px, length px = 100%nat -> spline_width flat_spline radius px = Ok 2).
  { intros radius px L. unfold spline_width. set (pts := sorted_knots _). assert (N : length pts = 100%nat) by (unfold pts; rewrite (Permutation_length (sorted_perm _)), map_length; exact L).
    destruct (knots (map fst pts)) as [t|e] eqn:K; [reflexivity|]. exfalso. unfold knots in K. rewrite map_length, N in K. discriminate. }
  exists (sqrt (2 / sqrt 2 * (2 / sqrt 2) + 2 / sqrt 2 * (2 / sqrt 2))). unfold width_2D. cbn [existsb String.eqb Ascii.eqb Bool.eqb orb negb map all_axis_widths]. unfold axis_widths. cbn [String.eqb Ascii.eqb Bool.eqb].
  rewrite !S by reflexivity. cbn [bind beam_term map]. assert (P : 0 < sqrt 2) by (apply sqrt_lt_R0; lra). assert (Q : 0 < 2 / sqrt 2) by (apply Rdiv_lt_0_compat; lra). assert (QQ : 0 < 2 / sqrt 2 * (2 / sqrt 2)) by now apply Rmult_lt_0_compat.
  assert (E : scale_of None (Fin (2 / sqrt 2), Fin (2 / sqrt 2), Fin 0, Fin 0) = (Fin (sqrt (2 / sqrt 2 * (2 / sqrt 2) + 2 / sqrt 2 * (2 / sqrt 2))), Fin 0)); [|now rewrite E].
  unfold scale_of, fsqr. cbn [fmul fadd fsqrt]. destruct (Rltb_spec (2 / sqrt 2 * (2 / sqrt 2) + 2 / sqrt 2 * (2 / sqrt 2)) 0); [lra|].
  replace (2 / sqrt 2 * 0 * (2 / sqrt 2 * 0) + 2 / sqrt 2 * 0 * (2 / sqrt 2 * 0)) with 0 by ring. destruct (Rltb_spec 0 0); [lra|]. rewrite sqrt_0. cbn [fdiv].
  destruct (Reqb_spec (sqrt (2 / sqrt 2 * (2 / sqrt 2) + 2 / sqrt 2 * (2 / sqrt 2))) 0) as [Z|Z]; [apply sqrt_eq_0 in Z; lra|]. do 2 f_equal. unfold Rdiv. ring.
Qed.
