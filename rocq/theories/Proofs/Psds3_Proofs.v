(** Proofs about Model/Psds.v: VCS pixel counts (C15) and examples. *)
From Coq Require Import Reals List ZArith Lia Lra Arith Bool Permutation.
From Coquelicot Require Import Complex.
From Verif Require Import Lib.PyBase Lib.PySlice Lib.Arr Lib.DFT Lib.Fl Lib.RSum Lib.Bins Lib.Trig2
  Spec.Blank Spec.Bins Spec.Freq Spec.Annulus Spec.Cube
  Model.RfftToFft Model.StatsUtils Model.Psds
  Proofs.Fl_Proofs Proofs.StatsUtils_Proofs Proofs.StatsUtils2_Proofs Proofs.RfftToFft_Proofs
  Proofs.Psds_Proofs Proofs.Psds2_Proofs.
Import ListNotations.
Local Open Scope R_scope.

Lemma has_nan_spec nz ny nx cube :
  existsb (fun z => existsb (fun p => is_nan (cube z (fst p) (snd p))) (pixels ny nx)) (seq 0 nz) = true <->
  has_blank nz ny nx cube.
Proof.
  rewrite existsb_exists. split.
  - intros [z [Hz H]]. apply existsb_exists in H. destruct H as [[y x] [Hp H]]. apply in_pixels in Hp.
    apply in_seq in Hz. exists z, y, x. cbn in H. repeat split; try tauto; lia.
  - intros (z & y & x & Hz & Hy & Hx & H). exists z. split; [apply in_seq; lia|].
    apply existsb_exists. exists (y, x). split; [now apply in_pixels|exact H].
Qed.

Lemma vcs_good_clean nz ny nx cube :
  (forall z y x, (z < nz)%nat -> (y < ny)%nat -> (x < nx)%nat -> is_nan (cube z y x) = false) ->
  vcs_good nz ny nx cube = (ny * nx)%nat.
Proof.
  intros H. unfold vcs_good.
  destruct (existsb _ (seq 0 nz)) eqn:E; [|reflexivity].
  apply has_nan_spec in E. destruct E as (z & y & x & Hz & Hy & Hx & E). rewrite H in E by auto. discriminate.
Qed.

Lemma max_upto_ge n f i : (i <= n)%nat -> f i <= max_upto n f.
Proof.
  induction n as [|n IH]; intros H; cbn [max_upto].
  - replace i with 0%nat by lia. lra.
  - destruct (Nat.eq_dec i (S n)) as [->|]; [apply Rmax_r|].
    eapply Rle_trans; [apply IH; lia|apply Rmax_l].
Qed.

Lemma max_upto_const n f c : (forall i, (i <= n)%nat -> f i = c) -> max_upto n f = c.
Proof.
  induction n as [|n IH]; intros H; cbn [max_upto]; [apply H; lia|].
  rewrite IH by (intros; apply H; lia). rewrite (H (S n)) by lia. apply Rmax_left. lra.
Qed.

Lemma vcs_good_blank nz ny nx cube : (1 <= nz)%nat -> has_blank nz ny nx cube ->
  (forall y x, (y < ny)%nat -> (x < nx)%nat -> live_line nz cube y x = true ->
     exists z r, (z < nz)%nat /\ cube z y x = Fin r /\ 0 < r) ->
  vcs_good nz ny nx cube = length (filter (fun p => live_line nz cube (fst p) (snd p)) (pixels ny nx)).
Proof.
  intros Hz Hb Hpos. unfold vcs_good. rewrite (proj2 (has_nan_spec _ _ _ _) Hb). f_equal.
  apply filter_ext_in. intros [y x] Hp. apply in_pixels in Hp. cbn [fst snd].
  destruct (live_line nz cube y x) eqn:E.
  - destruct (Hpos y x) as (z & r & Hz' & Hr & Hr0); try tauto.
    assert (clean3 cube z y x <= max_upto (nz - 1) (fun z => clean3 cube z y x)).
    { apply (max_upto_ge (nz - 1) (fun z => clean3 cube z y x)). lia. }
    unfold clean3 in H at 1. rewrite Hr in H. cbn in H.
    destruct (Reqb_spec (max_upto (nz - 1) (fun z => clean3 cube z y x)) 0); [lra|reflexivity].
  - rewrite max_upto_const with (c := 0).
    + destruct (Reqb_spec 0 0); [reflexivity|lra].
    + intros i Hi. unfold live_line in E. unfold clean3.
      destruct (is_nan (cube i y x)) eqn:En.
      * unfold clean. rewrite En. reflexivity.
      * exfalso. assert (existsb (fun z => negb (is_nan (cube z y x))) (seq 0 nz) = true); [|congruence].
        apply existsb_exists. exists i. split; [apply in_seq; lia|now rewrite En].
Qed.

(** A blank line of sight contributes nothing to the sum. *)
Lemma blank_line_zero nz cube y x kz : live_line nz cube y x = false ->
  Cnorm2 (dft1 nz (fun z => RtoC (clean3 cube z y x)) kz) = 0.
Proof.
  intros E. assert (D : dft1 nz (fun z => RtoC (clean3 cube z y x)) kz = RtoC 0).
  { unfold dft1. apply csum_zero. intros i Hi.
    assert (clean3 cube i y x = 0) as ->; [|apply Cmult_0_l].
    unfold clean3, live_line in *. destruct (is_nan (cube i y x)) eqn:En; [unfold clean; now rewrite En|].
    exfalso. assert (existsb (fun z => negb (is_nan (cube z y x))) (seq 0 nz) = true); [|congruence].
    apply existsb_exists. exists i. split; [apply in_seq; lia|now rewrite En]. }
  rewrite D, Cnorm2_RtoC. unfold Rsqr. ring.
Qed.

Definition vcs_cex_cube (z y x : nat) : fl :=
  match z, x with
  | O, O => NaN
  | _, O => Fin (-1)
  | _, _ => Fin 1
  end.

Lemma vcs_count_cex :
  vcs_good 2 1 2 vcs_cex_cube = 1%nat /\
  length (filter (fun p => live_line 2 vcs_cex_cube (fst p) (snd p)) (pixels 1 2)) = 2%nat.
Proof.
  split; [|reflexivity]. unfold vcs_good. rewrite (proj2 (has_nan_spec 2 1 2 vcs_cex_cube)).
  2:{ exists 0%nat, 0%nat, 0%nat. repeat split; try lia. }
  change (pixels 1 2) with [(0, 0); (0, 1)]%nat. cbn [filter fst snd].
  assert (M0 : max_upto (2 - 1) (fun z => clean3 vcs_cex_cube z 0 0) = 0).
  { cbn. apply Rmax_left. lra. }
  assert (M1 : max_upto (2 - 1) (fun z => clean3 vcs_cex_cube z 0 1) = 1).
  { cbn. apply Rmax_left. lra. }
  rewrite M0, M1. destruct (Reqb_spec 0 0); [|lra]. destruct (Reqb_spec 1 0); [lra|]. reflexivity.
Qed.

(** The full statement of C15 in one formula: with blanks and a positive value on
    every line that is not blank. *)
Lemma vcs_blank_formula nz ny nx cube kz live :
  (1 <= nz)%nat -> (1 <= ny)%nat -> (1 <= nx)%nat -> (kz < nz)%nat ->
  has_blank nz ny nx cube ->
  (forall y x, (y < ny)%nat -> (x < nx)%nat -> live_line nz cube y x = true ->
     exists z r, (z < nz)%nat /\ cube z y x = Fin r /\ 0 < r) ->
  live = length (filter (fun p => live_line nz cube (fst p) (snd p)) (pixels ny nx)) -> (1 <= live)%nat ->
  nth kz (vcs_ps1D nz ny nx cube) NaN =
  Fin (INR (ny * nx) / INR live *
       rsum ny (fun y => rsum nx (fun x =>
         if live_line nz cube y x then Cnorm2 (dft1 nz (fun z => RtoC (clean3 cube z y x)) kz) else 0))).
Proof.
  intros Hz Hy Hx Hk Hb Hpos -> Hl. rewrite <- (vcs_good_blank nz ny nx cube Hz Hb Hpos) in Hl |- *.
  rewrite vcs_ps1D_at by auto. do 2 f_equal. apply rsum_ext. intros y Hy'. apply rsum_ext. intros x Hx'.
  destruct (live_line nz cube y x) eqn:E; [reflexivity|]. now rewrite blank_line_zero.
Qed.

Lemma vcs_clean_formula nz ny nx (cube : nat -> nat -> nat -> R) kz :
  (1 <= nz)%nat -> (1 <= ny)%nat -> (1 <= nx)%nat -> (kz < nz)%nat ->
  nth kz (vcs_ps1D nz ny nx (fun z y x => Fin (cube z y x))) NaN =
  Fin (rsum ny (fun y => rsum nx (fun x => Cnorm2 (dft1 nz (fun z => RtoC (cube z y x)) kz)))).
Proof.
  intros Hz Hy Hx Hk.
  assert (G : vcs_good nz ny nx (fun z y x => Fin (cube z y x)) = (ny * nx)%nat) by now apply vcs_good_clean.
  rewrite vcs_ps1D_at; auto; rewrite G; [|lia]. f_equal.
  assert (0 < INR (ny * nx)) by (apply lt_0_INR; lia).
  unfold clean3. cbn [clean is_nan real_of]. field. lra.
Qed.

(** ** Examples *)

Definition ex_psd2 : list (list fl) := [[Fin 4; Fin 100; Fin 6]].

Lemma pspec_example : exists prof,
  pspec (fun _ => Fin 1) ex_psd2 (Some 1%nat) false 1 false (Some 2) (Some (1 / 2)) false None None nanmean = Ok prof /\
  increasing (prof_edges prof) /\ length (prof_edges prof) = 2%nat /\ prof_ps1D prof = [Fin 5].
Proof.
  destruct (pspec (fun _ => Fin 1) ex_psd2 (Some 1%nat) false 1 false (Some 2) (Some (1 / 2)) false None None nanmean)
    as [prof|e] eqn:E; [|discriminate].
  exists prof. split; [reflexivity|].
  destruct (pspec_edges _ _ _ _ _ _ _ _ _ _ _ _ _ (1 / 2) 2 E) as (L & I & F & Hl); auto; [lra|].
  split; [auto|]. split; [auto|].
  assert (Hb : (1 < length (prof_edges prof))%nat) by lia.
  destruct (annulus_mean _ _ _ _ _ _ _ _ _ _ _ _ 0 E I Hb) as (px & ND & Hin & _ & _ & Hmean & _).
  destruct (pspec_shape _ _ _ _ _ _ _ _ _ _ _ _ E) as (Hlen & _ & Hmask & _).
  assert (P : Permutation px [(0, 0); (0, 2)]%nat).
  { apply NoDup_Permutation; auto.
    - repeat constructor; cbn; intuition congruence.
    - intros [i j]. rewrite Hin. unfold in_annulus, in_bin. rewrite Hmask by auto. rewrite L, F, Hl. cbn [length hd ex_psd2].
      assert (D : forall j, (j < 3)%nat -> radial_distance false 1 3 0 j = Rabs (INR j - 1)).
      { intros k Hk. unfold radial_distance, dists, radial_y, radial_x. cbn [Nat.div Nat.divmod fst snd].
        change (INR 1) with 1. change (INR 0) with 0.
        replace ((0 - 0) * (0 - 0) + (INR k - 1) * (INR k - 1)) with (Rsqr (INR k - 1)) by (unfold Rsqr; ring).
        apply sqrt_Rsqr_abs. }
      split.
      + intros (H1 & H2 & _ & _ & _ & H3 & _). assert (i = 0)%nat by lia. subst i. rewrite D in H3 by auto.
        destruct j as [|[|[|j]]]; [now left| |right; now left|lia].
        change (INR 1) with 1 in H3. rewrite Rminus_diag_eq, Rabs_R0 in H3 by auto. lra.
      + intros [H|[H|[]]]; injection H as <- <-; (split; [lia|]; split; [lia|]; split; [reflexivity|]; split; [discriminate|];
          rewrite D by lia; split; [lia|]).
        * change (INR 0) with 0. rewrite Rabs_left by lra. lra.
        * replace (INR 2) with 2 by (cbn; ring). rewrite Rabs_right by lra. lra. }
  destruct (prof_ps1D prof) as [|v [|w l]] eqn:Ev; rewrite L in Hlen; cbn in Hlen; try lia.
  f_equal. assert (Hp : (2 <= length px)%nat) by (rewrite (Permutation_length P); cbn; lia).
  specialize (Hmean (or_introl Hp)). cbn [nth] in Hmean. rewrite Hmean. f_equal.
  unfold rmean. rewrite map_length, (Permutation_length P).
  rewrite (lsum_perm _ _ (Permutation_map (pixel_value ex_psd2) P)). cbn. lra.
Qed.

Lemma radial_distance_spec ny nx i j : (i < ny)%nat -> (j < nx)%nat ->
  let fy := at2 0 (yy_freq ny nx) i j in
  let fx := at2 0 (xx_freq ny nx) i j in
  (fy <> 0 \/ fx <> 0 -> radial_distance true ny nx i j = sqrt (fy * fy + fx * fx)) /\
  (fy = 0 -> fx = 0 -> nonzero_freqs ny nx <> [] ->
     exists r, is_min r (nonzero_freqs ny nx) /\ radial_distance true ny nx i j = r / 2).
Proof.
  intros Hi Hj fy fx. split.
  - intros H. destruct (freqs_dist_spec ny nx i j Hi Hj) as (a & b & _ & _ & -> & -> & E). now apply E.
  - intros Ey Ex Hne. now apply freqs_dist_zero.
Qed.

Lemma vca_example : at2 0 (vca_ps2D 2 1 1 (fun z _ _ => match z with O => 3 | _ => 4 end)) 0 0 = 50.
Proof.
  rewrite vca_ps2D_at by lia. cbn [rsum]. unfold dft2, csum.
  change (unshift 1 (1 - 1 - 0)) with 0%nat. change (unshift 1 0) with 0%nat.
  cbn -[cis]. rewrite ?tw_0_r. unfold Cnorm2. cbn. unfold Rsqr. 
  rewrite ?Rmult_0_r, ?Rmult_0_l. rewrite ?cos_0, ?sin_0. lra.
Qed.

Lemma vcs_example :
  nth 0 (vcs_ps1D 2 1 2 (fun z y x => match x with O => Fin (INR (S z)) | _ => NaN end)) NaN = Fin 18.
Proof.
  set (cube := fun z y x : nat => match x with O => Fin (INR (S z)) | _ => NaN end).
  rewrite (vcs_blank_formula 2 1 2 cube 0 1); try lia; [| | |reflexivity].
  - f_equal. cbn [rsum]. change (live_line 2 cube 0 0) with true. change (live_line 2 cube 0 1) with false. cbv iota.
    unfold dft1, Cnorm2. rewrite !csum_fst, !csum_snd. cbn [rsum]. rewrite !tw_0_r. cbn. unfold Rsqr. lra.
  - exists 0%nat, 0%nat, 1%nat. repeat split; lia.
  - intros y x Hy Hx. destruct x; [|discriminate]. intros _. exists 0%nat, 1. cbn. repeat split; [lia|lra].
Qed.
