From Coq Require Import String Reals List ZArith Arith Bool Lia Lra Permutation.
From Coquelicot Require Import Complex.
From Verif Require Import Lib.PyBase Lib.Arr Lib.DFT Lib.Fl Lib.RSum Lib.Bins Spec.Blank Spec.Freq Spec.ScfSpectrum Spec.PspecFit
  Model.StatsUtils Model.Psds Model.EllipPlaw Model.FitState Model.ScfSpectrum Model.PspecFit
  Proofs.RfftToFft_Proofs Proofs.Psds_Proofs Proofs.Psds2_Proofs Proofs.Beam_Proofs Proofs.ScfSpectrum2_Proofs.
Import ListNotations.
Local Open Scope R_scope.

Lemma clip_within low high f : clip low high f = within low high f.
Proof.
  unfold clip, within. destruct (Rltb_spec low f), (Rleb_spec f high); destruct (Rlt_dec low f); try lra; try (destruct (Rle_dec f high); try lra); reflexivity.
Qed.
Lemma within_iff low high f : within low high f = true <-> low < f <= high.
Proof. unfold within. destruct (Rlt_dec low f); [destruct (Rle_dec f high)|]; split; intros; try lra; try discriminate; reflexivity. Qed.

Lemma axis_freq_is n k : (k < n)%nat -> fftfreq n k = axis_freq n k.
Proof.
  intros H. assert (0 < INR n) by (apply lt_0_INR; lia). unfold fftfreq, axis_freq.
  pose proof (Nat.div_mod (n - 1) 2). pose proof (Nat.mod_upper_bound (n - 1) 2).
  destruct (Nat.ltb_spec k ((n - 1) / 2 + 1)), (Nat.ltb_spec (2 * k) n); try lia; [reflexivity|field; lra].
Qed.

Lemma Permutation_filter' {A} (f : A -> bool) l m : Permutation l m -> Permutation (filter f l) (filter f m).
Proof.
  induction 1; cbn; auto.
  - destruct (f x); auto.
  - destruct (f x), (f y); auto. apply perm_swap.
  - etransitivity; eauto.
Qed.

Lemma NoDup_map_in {A B} (f : A -> B) l : (forall x y, In x l -> In y l -> f x = f y -> x = y) -> NoDup l -> NoDup (map f l).
Proof.
  induction l as [|a l IH]; intros H N; [constructor|]. inversion N; subst. cbn [map]. constructor.
  - intros C. apply in_map_iff in C. destruct C as [y [E Hy]]. apply H in E; [|now right|now left]. now subst.
  - apply IH; [intros; apply H; auto; now right|assumption].
Qed.

(** The mode held by a pixel of ps2D *)
Definition mode_at (ny nx : nat) (p : nat * nat) : nat * nat := (unshift ny (ny - 1 - fst p), unshift nx (snd p)).

Lemma modes_perm ny nx : Permutation (map (mode_at ny nx) (pixels ny nx)) (modes ny nx).
Proof.
  apply NoDup_Permutation.
  - apply NoDup_map_in; [|apply NoDup_pixels].
    intros [i j] [i' j'] H1 H2 E. apply in_pixels in H1, H2. unfold mode_at in E. cbn [fst snd] in E.
    pose proof (f_equal fst E) as E1. pose proof (f_equal snd E) as E2. cbn [fst snd] in E1, E2.
    apply unshift_inj in E1; [|lia|lia]. apply unshift_inj in E2; [|lia|lia]. f_equal; lia.
  - apply NoDup_pixels.
  - intros [ky kx]. change (modes ny nx) with (pixels ny nx). rewrite in_pixels, in_map_iff. split.
    + intros [[i j] [E H]]. apply in_pixels in H. unfold mode_at in E. cbn [fst snd] in E.
      pose proof (f_equal fst E) as E1. pose proof (f_equal snd E) as E2. cbn [fst snd] in E1, E2. subst. split; apply unshift_lt; lia.
    + intros [Hy Hx]. destruct (unshift_surj ny ky Hy) as [i0 [Hi Ei]]. destruct (unshift_surj nx kx Hx) as [j [Hj Ej]].
      exists (ny - 1 - i0, j)%nat. split; [|apply in_pixels; lia]. unfold mode_at. cbn [fst snd]. replace (ny - 1 - (ny - 1 - i0))%nat with i0 by lia. now rewrite Ei, Ej.
Qed.

Lemma freqs_raw_mode ny nx i j : (i < ny)%nat -> (j < nx)%nat -> freqs_raw ny nx i j = mode_freq ny nx (mode_at ny nx (i, j)).
Proof.
  intros Hi Hj. unfold freqs_raw, mode_freq, mode_at. cbn [fst snd]. rewrite yy_freq_at, xx_freq_at by assumption.
  rewrite !axis_freq_is by (apply unshift_lt; lia). f_equal. ring.
Qed.

Lemma map_fin_tab2 (g : nat -> nat -> R) ny nx : map (map Fin) (tab2 ny nx g) = tab2 ny nx (fun i j => Fin (g i j)).
Proof. apply map_tab2. Qed.
Lemma power_tab ny nx image : (1 <= ny)%nat -> (1 <= nx)%nat ->
  power_ps2D ny nx image = tab2 ny nx (fun i j => mode_power ny nx image (mode_at ny nx (i, j))).
Proof.
  intros Hy Hx. unfold power_ps2D. rewrite rfft_2d by lia. rewrite fftshift2_tab.
  assert (E : forall g : nat -> nat -> R, map (map (fun v => v * v)) (tab2 ny nx g) = tab2 ny nx (fun i j => g i j * g i j)).
  { intros g. unfold tab2, tab1. rewrite map_map. apply map_ext. intros. rewrite map_map. reflexivity. }
  rewrite E, flip2_tab. unfold tab2. apply tab1_ext. intros i Hi. apply tab1_ext. intros j Hj. apply Cmod_sqr.
Qed.

Lemma power_shape ny nx image : (1 <= ny)%nat -> (1 <= nx)%nat ->
  rows_of (map (map Fin) (power_ps2D ny nx image)) = ny /\ cols_of (map (map Fin) (power_ps2D ny nx image)) = nx.
Proof.
  intros Hy Hx. rewrite power_tab, map_fin_tab2 by assumption. unfold rows_of, cols_of, tab2. rewrite tab1_length. split; [reflexivity|].
  destruct ny; [lia|]. rewrite tab1_S. cbn [hd]. apply tab1_length.
Qed.
Lemma power_at ny nx image i j : (i < ny)%nat -> (j < nx)%nat ->
  at2 NaN (map (map Fin) (power_ps2D ny nx image)) i j = Fin (mode_power ny nx image (mode_at ny nx (i, j))).
Proof. intros Hi Hj. rewrite power_tab, map_fin_tab2 by lia. now rewrite at2_tab. Qed.

Lemma default_low_val ny nx image : (1 <= ny)%nat -> (1 <= nx)%nat ->
  default_low (map (map Fin) (power_ps2D ny nx image)) = 2 / INR (Nat.max ny nx).
Proof.
  intros Hy Hx. destruct (power_shape ny nx image Hy Hx) as [E1 E2]. unfold default_low. rewrite E1, E2.
  assert (0 < INR (Nat.max ny nx)) by (apply lt_0_INR; lia). field. lra.
Qed.

Definition mode_row (ny nx : nat) (image : nat -> nat -> R) (k : nat * nat) : fl * fl * fl :=
  (Fin (log10 (mode_freq ny nx k)), flog10 (Fin (mode_power ny nx image k)), Fin 1).

Lemma pixel_rows ny nx image low high : 0 <= low ->
  map (fun p => (flog10 (Fin (freqs_raw ny nx (fst p) (snd p))), flog10 (at2 NaN (map (map Fin) (power_ps2D ny nx image)) (fst p) (snd p)), Fin 1))
    (filter (fun p => clip low high (freqs_raw ny nx (fst p) (snd p))) (pixels ny nx)) =
  map (mode_row ny nx image) (filter (fun k => within low high (mode_freq ny nx k)) (map (mode_at ny nx) (pixels ny nx))).
Proof.
  intros Hl. rewrite filter_map_comm, map_map.
  rewrite (filter_ext_in (fun p => clip low high (freqs_raw ny nx (fst p) (snd p))) (fun p => within low high (mode_freq ny nx (mode_at ny nx p)))).
  2:{ intros [i j] H. apply in_pixels in H. cbn [fst snd]. rewrite freqs_raw_mode by tauto. apply clip_within. }
  apply map_ext_in. intros [i j] H. apply filter_In in H. destruct H as [H W]. apply in_pixels in H. apply within_iff in W. cbn [fst snd].
  unfold mode_row. rewrite freqs_raw_mode, power_at by tauto. rewrite flog10_pos by lra. reflexivity.
Qed.

Lemma max_freq_spec ny nx : (1 <= ny)%nat -> (1 <= nx)%nat ->
  is_max (rmax_list (map (fun p => freqs_raw ny nx (fst p) (snd p)) (pixels ny nx))) (map (mode_freq ny nx) (modes ny nx)).
Proof.
  intros Hy Hx.
  assert (E : map (fun p => freqs_raw ny nx (fst p) (snd p)) (pixels ny nx) = map (mode_freq ny nx) (map (mode_at ny nx) (pixels ny nx))).
  { rewrite map_map. apply map_ext_in. intros [i j] H. apply in_pixels in H. now apply freqs_raw_mode. }
  rewrite E. set (l := map (mode_freq ny nx) (map (mode_at ny nx) (pixels ny nx))).
  assert (P : Permutation l (map (mode_freq ny nx) (modes ny nx))) by apply Permutation_map, modes_perm.
  assert (N : l <> []).
  { unfold l. intros C. apply map_eq_nil in C. apply map_eq_nil in C. assert (H : In (0, 0)%nat (pixels ny nx)) by (apply in_pixels; lia). now rewrite C in H. }
  destruct (rmax_list_spec l N) as [I M]. split; [now apply (Permutation_in _ P)|]. intros y Hy'. apply M. apply (Permutation_in _ (Permutation_sym P)). exact Hy'.
Qed.

(** The points of the unbinned fit *)
Theorem unbinned_points : forall o ny nx image a low high rows, (1 <= ny)%nat -> (1 <= nx)%nat -> holds_spectrum o ny nx image ->
  f_unbinned a = true -> fit_rows o a = Ok (low, high, rows) ->
  (f_low a = Some low \/ (f_low a = None /\ low = 2 / INR (Nat.max ny nx))) /\
  (f_high a = Some high \/ (f_high a = None /\ is_max high (map (mode_freq ny nx) (modes ny nx)))) /\
  (0 <= low -> Permutation rows (map (fun k => (Fin (log10 (mode_freq ny nx k)), flog10 (Fin (mode_power ny nx image k)), Fin 1))
                                   (filter (fun k => within low high (mode_freq ny nx k)) (modes ny nx)))).
Proof.
  intros o ny nx image a low high rows Hy Hx HS HU. unfold fit_rows. rewrite HS, HU. destruct (power_shape ny nx image Hy Hx) as [E1 E2]. rewrite E1, E2.
  destruct (f_weighted a); [discriminate|]. intros E.
  assert (EL : low = match f_low a with Some r => r | None => default_low (map (map Fin) (power_ps2D ny nx image)) end) by (injection E; congruence).
  assert (EH : high = match f_high a with Some r => r | None => rmax_list (map (fun p => freqs_raw ny nx (fst p) (snd p)) (pixels ny nx)) end) by (injection E; congruence).
  rewrite <- EL, <- EH in E. split; [|split].
  - rewrite EL. destruct (f_low a); [now left|]. right. split; [reflexivity|]. now apply default_low_val.
  - rewrite EH. destruct (f_high a); [now left|]. right. split; [reflexivity|]. now apply max_freq_spec.
  - intros Hl. match type of E with Ok (_, _, ?m) = _ => assert (ER : m = rows) by congruence end. rewrite <- ER. rewrite pixel_rows by assumption. apply Permutation_map, Permutation_filter', modes_perm.
Qed.
