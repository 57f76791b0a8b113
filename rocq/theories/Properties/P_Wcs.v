(** C294-C295: headers. *)
From Coq Require Import Reals List Arith Bool Lra Lia.
From Verif Require Import Lib.PyBase Lib.Fl Model.BaseStat Model.Wcs Spec.Wcs Proofs.Wcs_Proofs.
From Verif Require Model.StatsUtils.
Import ListNotations.
Local Open Scope R_scope.

(** *** C294: the angular size of a pixel *)
(** Square pixels at any angle, mirrored or not, with any axes after the celestial ones: the
    header is accepted and the angular size is the side. *)
Theorem C294_square_partial : forall w s, 0 < s -> celestial_first w -> square w s -> w_distortion w = false ->
  get_wcs (Some w) = Ok w /\ ang_size (Some w) = Ok s.
Proof. intros w s P C S D. split; [exact (square_wcs w s P C S D)|exact (square_size w s P C S D)]. Qed.
Print Assumptions C294_square_partial.
(** Whatever header is accepted, the square of the angular size is the area of the pixel to three
    parts in 100000. *)
Theorem C294_area_partial : forall w a, celestial_first w -> ang_size (Some w) = Ok a ->
  0 < a /\ Rabs (a * a - pixel_area w) <= 3 / 100000 * pixel_area w.
Proof. exact size_near. Qed.
Print Assumptions C294_area_partial.
(** Oblong pixels are refused. *)
Theorem C294_oblong_partial : forall w a b, celestial_first w -> rectangle w a b -> 0 < a -> 0 < b ->
  (1 / 100000 <= a / b - 1 \/ 1 / 100000 <= b / a - 1) -> ang_size (Some w) = Err ValueError.
Proof. exact oblong. Qed.
Print Assumptions C294_oblong_partial.
(** Two images with square pixels, each at its own angle: the common scale is the ratio of the
    sides, at every tolerance. *)
Theorem C294_common_scale_partial : forall w1 w2 s1 s2 tol, 0 < s1 -> 0 < s2 -> 0 <= tol ->
  celestial_first w1 -> celestial_first w2 -> square w1 s1 -> square w2 s2 -> w_distortion w1 = false -> w_distortion w2 = false ->
  (g1 <- grid_of w1 ;; g2 <- grid_of w2 ;; StatsUtils.common_scale g1 g2 tol) = Ok (s2 / s1).
Proof. exact common. Qed.
Print Assumptions C294_common_scale_partial.

Definition diagonal (d : list R) (i j : nat) : R := if Nat.eqb i j then nth i d 0 else 0.
Definition sky (s step : R) : wcs := mk_wcs [Lon; Lat; Spectral true] (diagonal [- s; s; step]) false.
Lemma sky_first s step : celestial_first (sky s step).
Proof.
  split; [exists [Spectral true]; now left|]. intros i L. cbn [sky w_matrix]. unfold diagonal.
  destruct i as [|[|i]]; [lia|lia|]. repeat split; reflexivity.
Qed.
Lemma sky_square s step : square (sky s step) s.
Proof.
  exists PI. cbn [sky w_matrix]. unfold diagonal. cbn [Nat.eqb nth]. rewrite cos_PI, sin_PI. split; [lra|]. split; [lra|]. right. split; lra.
Qed.
(** The header of a cube with its spectral axis first: the angular size is the width of a channel,
    whatever the pixels are. *)
Theorem C294_spectral_first_refuted : forall s step, 0 < s ->
  let w := mk_wcs [Spectral true; Lon; Lat] (diagonal [step; - s; s]) false in
  celestial w = celestial (sky s step) /\ ang_size (Some w) = Ok (Rabs step).
Proof.
  intros s step P w. split; [reflexivity|].
  assert (O : orthogonal (mk_mat2 (- s) 0 0 s) = Ok true) by exact (square_orthogonal (sky s step) s P (sky_square s step)).
  unfold ang_size, get_wcs, distorted. change (celestial w) with (Ok (mk_mat2 (- s) 0 0 s)). cbn [bind]. rewrite O.
  cbn [bind negb orb w_distortion w]. unfold column_length. cbn [w_axes w length total w_matrix]. unfold diagonal. cbn [Nat.eqb nth]. f_equal.
  replace (0 + step * step + 0 * 0 + 0 * 0) with (Rsqr step) by (unfold Rsqr; ring). rewrite sqrt_Rsqr_abs. apply Rabs_Rabsolu.
Qed.
Print Assumptions C294_spectral_first_refuted.

Example C294_used :
  (0 < 1 / 100 /\ celestial_first (sky (1 / 100) 40) /\ square (sky (1 / 100) 40) (1 / 100) /\ w_distortion (sky (1 / 100) 40) = false) /\
  (let w := mk_wcs [Lon; Lat] (fun i j => if Nat.ltb i 2 then if Nat.ltb j 2 then sqrt 2 / 2 * (if Nat.eqb i 0 && Nat.eqb j 1 then -1 else 1) else 0 else 0) false in
   celestial_first w /\ square w 1 /\ ang_size (Some w) = Ok 1) /\
  (let w := mk_wcs [Lon; Lat] (diagonal [-1; 2]) false in celestial_first w /\ rectangle w 1 2 /\ ang_size (Some w) = Err ValueError).
Proof.
  split; [|split].
  - split; [lra|]. split; [apply sky_first|]. split; [apply sky_square|reflexivity].
  - intros w. assert (C : celestial_first w).
    { split; [exists []; now left|]. intros i L. cbn [w w_matrix]. destruct i as [|[|i]]; [lia|lia|]. cbn. repeat split; reflexivity. }
    assert (S : square w 1).
    { exists (PI / 4). cbn [w w_matrix Nat.ltb Nat.leb Nat.eqb andb]. rewrite cos_PI4, sin_PI4.
      assert (E : 1 / sqrt 2 = sqrt 2 / 2).
      { pose proof (sqrt_sqrt 2 ltac:(lra)) as Q. pose proof (sqrt_lt_R0 2 ltac:(lra)). rewrite <- Q at 3. field. lra. }
      rewrite E. split; [lra|]. split; [lra|]. left. split; lra. }
    split; [exact C|]. split; [exact S|]. apply (square_size w 1); [lra|exact C|exact S|reflexivity].
  - intros w. assert (C : celestial_first w).
    { split; [exists []; now left|]. intros i L. cbn [w w_matrix]. unfold diagonal. destruct i as [|[|i]]; [lia|lia|]. repeat split; reflexivity. }
    assert (S : rectangle w 1 2).
    { unfold rectangle. cbn [w w_matrix]. unfold diagonal. cbn [Nat.eqb nth]. rewrite Rabs_left, Rabs_right by lra. repeat split; lra. }
    split; [exact C|]. split; [exact S|]. apply (oblong w 1 2 C S); lra.
Qed.

(** *** C295: channels, and the PCA constructor *)
(** Wherever the spectral axis is and whichever way it runs, the spectral size is the width of a
    channel. *)
Theorem C295_channel_partial : forall w k v step, get_wcs (Some w) = Ok w -> spectral_axis w k v step ->
  spectral_size (Some w) = Ok (step, v).
Proof. exact channel. Qed.
Print Assumptions C295_channel_partial.
(** PCA counts the channels of every cube with two or more of them (or none). *)
Theorem C295_channels_partial : forall w k step n rest vals, get_wcs (Some w) = Ok w -> spectral_axis w k true step -> n <> 1%nat ->
  new_pca (Some w) (mk_arr (n :: rest) vals) false None = Ok n.
Proof. exact pca_shape. Qed.
Print Assumptions C295_channels_partial.
(** It is never built without a velocity axis, nor from a header that is refused. *)
Theorem C295_velocity_partial : forall w a n_eigs distance n, new_pca (Some w) a n_eigs distance = Ok n ->
  n_eigs = false /\ get_wcs (Some w) = Ok w /\ In (Spectral true) (w_axes w).
Proof.
  intros w a ne d n E. destruct (pca_needs _ _ _ _ _ E) as (step & S & N). split; [exact N|].
  unfold spectral_size in S. destruct (get_wcs (Some w)) as [w'|] eqn:G; cbn [bind] in S; [|discriminate].
  apply get_wcs_same in G. subst w'. split; [reflexivity|].
  destruct (place is_spectral (w_axes w)) as [k|] eqn:K; [|discriminate]. injection S as _ V.
  assert (B : (k < length (w_axes w))%nat).
  { clear -K. revert k K. induction (w_axes w) as [|x l IH]; intros k; cbn [place]; [discriminate|].
    destruct (is_spectral x); [intros [= <-]; cbn; lia|]. destruct (place is_spectral l) as [j|]; cbn; [|discriminate].
    intros [= <-]. specialize (IH j eq_refl). lia. }
  pose proof (nth_In (w_axes w) OtherAxis B) as I. destruct (nth k (w_axes w) OtherAxis); try discriminate V. now subst.
Qed.
Print Assumptions C295_velocity_partial.
(** A cube of one channel: the number of channels is taken from its rows. *)
Theorem C295_one_channel_refuted : forall w k step ny nx vals, get_wcs (Some w) = Ok w -> spectral_axis w k true step -> ny <> 1%nat ->
  new_pca (Some w) (mk_arr [1%nat; ny; nx] vals) false None = Ok ny.
Proof. exact pca_one_channel. Qed.
Print Assumptions C295_one_channel_refuted.

Example C295_used : get_wcs (Some (sky 1 (-40))) = Ok (sky 1 (-40)) /\ spectral_axis (sky 1 (-40)) 2 true 40 /\
  new_pca (Some (sky 1 (-40))) (mk_arr [100%nat; 32%nat; 32%nat] []) false None = Ok 100%nat.
Proof.
  assert (G : get_wcs (Some (sky 1 (-40))) = Ok (sky 1 (-40))) by (apply (square_wcs _ 1); [lra|apply sky_first|apply sky_square|reflexivity]).
  assert (S : spectral_axis (sky 1 (-40)) 2 true 40).
  { split; [reflexivity|]. split.
    - intros j v E. destruct j as [|[|[|j]]]; cbn in E; try discriminate; auto. destruct j; discriminate.
    - cbn [sky w_matrix]. unfold diagonal. cbn [Nat.eqb nth]. rewrite Rabs_left; lra. }
  split; [exact G|]. split; [exact S|]. exact (pca_shape _ 2 40 100 [32%nat; 32%nat] [] G S ltac:(lia)).
Qed.
