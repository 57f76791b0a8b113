(** Proofs about Model/ScfPairs.v: the objects. *)
From Coq Require Import String Reals List ZArith Arith Bool Lia Lra.
From Verif Require Import Lib.PyBase Lib.PyStr Lib.Arr Lib.Fl Lib.RSum Spec.Blank Spec.Correlation Spec.ScfSpectrum Spec.ScfPairs
  Model.DeltaVar Model.Psds Model.Scf Model.ScfSpectrum Model.ScfPairs
  Proofs.Fl_Proofs Proofs.Psds_Proofs Proofs.Scf_Proofs Proofs.Scf2_Proofs Proofs.DeltaVar2_Proofs.
Import ListNotations.
Local Open Scope R_scope.

Lemma sequence_length {A} (l : list (result A)) s : sequence l = Ok s -> length s = length l.
Proof.
  revert s. induction l as [|r l IH]; intros s; cbn [sequence].
  - intros [= <-]. reflexivity.
  - destruct r as [x|e]; cbn [bind]; [|discriminate]. destruct (sequence l) as [xs|e] eqn:E; cbn [bind]; [|discriminate].
    intros [= <-]. cbn [length]. now rewrite (IH xs eq_refl).
Qed.
Lemma sequence_in {A} (l : list (result A)) s r : sequence l = Ok s -> In r s -> In (Ok r) l.
Proof.
  revert s. induction l as [|x l IH]; intros s; cbn [sequence].
  - intros [= <-] [].
  - destruct x as [x|e]; cbn [bind]; [|discriminate]. destruct (sequence l) as [xs|e] eqn:E; cbn [bind]; [|discriminate].
    intros [= <-] [->|H]; [now left|]. right. now apply (IH xs).
Qed.
Lemma surface_square nz ny nx cube lags b s : compute_surface nz ny nx cube lags b = Ok s -> square_array (length lags) s.
Proof.
  unfold compute_surface. destruct (negb _); [discriminate|]. intros E. split.
  - apply sequence_length in E. now rewrite map_length in E.
  - intros r Hr. apply (sequence_in _ _ _ E) in Hr. apply in_map_iff in Hr. destruct Hr as [y [Hy _]].
    apply sequence_length in Hy. now rewrite map_length in Hy.
Qed.
Lemma square_tab n (s : list (list fl)) : square_array n s -> tab2 n n (fun j i => at2 NaN s j i) = s.
Proof.
  intros [L Rw]. apply (nth_ext _ _ [] []); unfold tab2; rewrite tab1_length; [now rewrite L|]. intros j Hj. rewrite tab1_nth by assumption.
  assert (Hr : length (nth j s []) = n) by (apply Rw, nth_In; lia).
  apply (nth_ext _ _ NaN NaN); rewrite tab1_length; [now rewrite Hr|]. intros i Hi. now rewrite tab1_nth.
Qed.
Lemma fill_full n s : square_array n s -> fill n n s = s.
Proof.
  intros H. rewrite <- (square_tab n s H) at 2. unfold fill. apply tab2_ext. intros j i Hj Hi.
  apply Nat.ltb_lt in Hj, Hi. now rewrite Hj, Hi.
Qed.
Lemma fill_square size n s : square_array size (fill size n s).
Proof.
  split; [apply tab1_length|]. intros r Hr. unfold fill, tab2, tab1 in Hr. apply in_map_iff in Hr. destruct Hr as [j [<- _]]. now rewrite map_length, seq_length.
Qed.
Lemma fill_at size n s j i : (j < size)%nat -> (i < size)%nat ->
  at2 NaN (fill size n s) j i = if Nat.ltb j n && Nat.ltb i n then at2 NaN s j i else Fin 0.
Proof. intros Hj Hi. unfold at2, fill, tab2. rewrite (tab1_nth size _ j []) by assumption. now rewrite tab1_nth. Qed.

Lemma literal_surface o b : b = "continuous"%string \/ b = "cut"%string ->
  boundary_surface o (text b) = compute_surface (s_nz o) (s_ny o) (s_nx o) (s_cube o) (s_roll_lags o) b.
Proof. intros [->| ->]; reflexivity. Qed.
Lemma unknown_surface o s i : s <> "continuous"%string -> s <> "cut"%string -> boundary_surface o (mk_str s i) = Err ValueError.
Proof. intros H1 H2. unfold boundary_surface. cbn [str_value]. apply String.eqb_neq in H1, H2. now rewrite H1, H2. Qed.
Lemma made_surface o b : b = "continuous"%string \/ b = "cut"%string -> s_roll_lags o <> [] -> boundary_surface o (made b) = Err UnboundLocalError.
Proof. intros H N. destruct (s_roll_lags o) eqn:E; [contradiction|]. destruct H as [->| ->]; unfold boundary_surface; rewrite E; reflexivity. Qed.

(** ** New lags *)
Lemma surface_of_literal i lags b : b = "continuous"%string \/ b = "cut"%string ->
  boundary_surface (i_obj (set_roll i lags)) (text b) = surface_of i lags b.
Proof. intros H. rewrite literal_surface by assumption. reflexivity. Qed.

Lemma new_lags_same i lags b : b = "continuous"%string \/ b = "cut"%string -> length lags = i_size i ->
  match inst_surface (set_roll i lags) (text b), surface_of i lags b with
  | Ok i', Ok s => s_surface (i_obj i') = Some s
  | Err e, Err e' => e = e'
  | _, _ => False
  end.
Proof.
  intros Hb L. unfold inst_surface. rewrite surface_of_literal by assumption. destruct (surface_of i lags b) as [s|e] eqn:E; cbn [bind]; [|reflexivity].
  cbn [i_obj set_roll s_roll_lags i_size]. rewrite L, Nat.ltb_irrefl. cbn [i_obj set_surface s_surface].
  unfold surface_of in E. apply surface_square in E. rewrite L in E. now rewrite fill_full.
Qed.
Lemma new_lags_fewer i lags : cube_ok (s_nz (i_obj i)) (s_ny (i_obj i)) (s_nx (i_obj i)) (s_cube (i_obj i)) -> (length lags < i_size i)%nat ->
  exists i' s, inst_surface (set_roll i lags) (text "continuous") = Ok i' /\ s_surface (i_obj i') = Some s /\ square_array (i_size i) s /\
    forall j k, (j < i_size i)%nat -> (k < i_size i)%nat -> (length lags <= j \/ length lags <= k)%nat -> at2 NaN s j k = Fin 0.
Proof.
  intros H L. destruct (surface_bounded _ _ _ _ lags H) as [s [E _]]. eexists. eexists.
  split. { unfold inst_surface. rewrite surface_of_literal by now left. unfold surface_of. rewrite E. cbn [bind i_obj set_roll s_roll_lags i_size].
           destruct (Nat.ltb_spec (i_size i) (length lags)); [lia|]. reflexivity. }
  split; [reflexivity|]. split; [apply fill_square|]. intros j k Hj Hk HL. rewrite fill_at by assumption.
  destruct (Nat.ltb_spec j (length lags)), (Nat.ltb_spec k (length lags)); cbn [andb]; try reflexivity. lia.
Qed.
Lemma new_lags_more i lags b : (i_size i < length lags)%nat -> is_ok (inst_surface (set_roll i lags) b) = false.
Proof.
  intros L. unfold inst_surface. destruct (boundary_surface _ _); cbn [bind]; [|reflexivity]. cbn [i_obj set_roll s_roll_lags i_size].
  apply Nat.ltb_lt in L. now rewrite L.
Qed.

(** ** The spectrum of a surface *)
Lemma pspec_plain tppf s : s <> [] -> hd [] s <> [] -> exists out,
  pspec tppf s None true 1 false None None false None None nanmean = Ok out.
Proof.
  intros H1 H2. unfold pspec. cbn [bind]. destruct s as [|r s]; [congruence|]. cbn [hd] in *. destruct r as [|v r]; [congruence|].
  cbn [length pixels seq list_prod map app Nat.eqb andb orb negb]. eexists. reflexivity.
Qed.
Lemma plain_spectrum tppf i s n : s_surface (i_obj i) = Some s -> square_array n s -> (1 <= n)%nat -> (2 <= length (s_roll_lags (i_obj i)))%nat ->
  exists i', inst_spectrum tppf i = Ok i' /\ s_surface (i_obj i') = Some s /\ s_spectrum (i_obj i') <> None /\
    s_roll_lags (i_obj i') = s_roll_lags (i_obj i) /\ s_fit (i_obj i') = s_fit (i_obj i) /\
    s_nz (i_obj i') = s_nz (i_obj i) /\ s_ny (i_obj i') = s_ny (i_obj i) /\ s_nx (i_obj i') = s_nx (i_obj i) /\ s_cube (i_obj i') = s_cube (i_obj i) /\
    i_size i' = i_size i /\ i_pixel i' = i_pixel i.
Proof.
  intros HS [L Rw] N HL. destruct s as [|r s]; [cbn in L; lia|]. assert (Hr : length r = n) by (apply Rw; now left).
  destruct (pspec_plain tppf (r :: s)) as [out E]; [discriminate|cbn [hd]; destruct r; [cbn in Hr; lia|discriminate]|].
  unfold inst_spectrum, do_spectrum. rewrite HS. cbn [bind]. rewrite HS. cbn [k_nbins k_binsize k_max_bin k_min_bin k_theta_0 k_delta_theta no_kwargs].
  rewrite E. cbn [bind]. destruct (s_roll_lags (i_obj i)) as [|a [|b l]] eqn:EL; cbn [length] in HL; try lia. cbn [bind].
  eexists. split; [reflexivity|]. cbn [i_obj i_size i_pixel s_surface s_spectrum s_roll_lags s_fit s_nz s_ny s_nx s_cube length]. repeat split; try reflexivity; try assumption. discriminate.
Qed.
(** A spectrum that is computed was computed from at least two lags. *)
Lemma spectrum_inv tppf i i' s : s_surface (i_obj i) = Some s -> inst_spectrum tppf i = Ok i' ->
  (2 <= length (s_roll_lags (i_obj i)))%nat /\ s_surface (i_obj i') = Some s /\ s_spectrum (i_obj i') <> None /\
    s_roll_lags (i_obj i') = s_roll_lags (i_obj i) /\ s_fit (i_obj i') = s_fit (i_obj i) /\
    s_nz (i_obj i') = s_nz (i_obj i) /\ s_ny (i_obj i') = s_ny (i_obj i) /\ s_nx (i_obj i') = s_nx (i_obj i) /\ s_cube (i_obj i') = s_cube (i_obj i) /\
    i_size i' = i_size i /\ i_pixel i' = i_pixel i /\ s_fit2D (i_obj i') = s_fit2D (i_obj i).
Proof.
  intros HS. unfold inst_spectrum, do_spectrum. rewrite HS. cbn [bind]. rewrite HS. cbn [k_nbins k_binsize k_max_bin k_min_bin k_theta_0 k_delta_theta no_kwargs].
  destruct (pspec _ _ _ _ _ _ _ _ _ _ _ _) as [out|e]; cbn [bind]; [|discriminate].
  destruct (s_roll_lags (i_obj i)) as [|a [|b l]] eqn:EL; cbn [bind]; try discriminate. intros [= <-]. cbn [i_obj i_size i_pixel s_surface s_spectrum s_roll_lags s_fit s_fit2D s_nz s_ny s_nx s_cube length].
  repeat split; try reflexivity; try lia; try assumption. discriminate.
Qed.

(** ** Finite surfaces *)
Lemma signal_finite nz ny nx cube lags : cube_ok nz ny nx cube -> signal nz ny nx cube ->
  exists s, compute_surface nz ny nx cube lags "continuous" = Ok s /\ square_array (length lags) s /\
    forall j i, (j < length lags)%nat -> (i < length lags)%nat -> exists v, at2 NaN s j i = Fin v /\ 1 - sqrt 2 <= v <= 1.
Proof.
  intros H (z0 & y0 & x0 & r0 & Hz0 & Hy0 & Hx0 & E0 & Hr0). pose proof (surface_cont nz ny nx cube lags H) as E. eexists. split; [exact E|].
  split; [now apply surface_square in E|]. intros j i Hj Hi. unfold at2. rewrite (nth2_map (fun sx sy => scf_at nz ny nx cube sx sy) lags NaN 0) by auto.
  unfold scf_at. set (sx := nth i lags 0). set (sy := nth j lags 0).
  destruct (scf_of_values_bounds _ (cont_values_ok nz ny nx cube sx sy H)) as [[F _]|F]; [exfalso|exact F].
  assert (P : In (y0, x0) (pixels ny nx)) by now apply in_pixels.
  assert (Bd : forall z, (z < nz)%nat -> blankable (cube z y0 x0)) by (intros; apply H; assumption).
  assert (Bt : forall z, (z < nz)%nat -> blankable (shifted ny nx cube sx sy z y0 x0)).
  { intros z Hz. apply shifted_blankable; auto. }
  assert (V : In (pair_value nz (fun z => cube z y0 x0) (fun z => shifted ny nx cube sx sy z y0 x0)) (cont_values nz ny nx cube sx sy)).
  { unfold cont_values. apply in_map_iff. exists (y0, x0). split; [reflexivity|exact P]. }
  rewrite pair_value_eq in V by assumption. destruct (Reqb_spec (den nz (fun z => cube z y0 x0) (fun z => shifted ny nx cube sx sy z y0 x0)) 0) as [D|D].
  - unfold den in D.
    assert (G : rval (fsqr (cube z0 y0 x0)) <= rsum nz (fun z => rval (fsqr (cube z y0 x0)))).
    { apply (rsum_term_le nz (fun z => rval (fsqr (cube z y0 x0)))); auto.
      intros z Hz. destruct (blankable_cases _ (Bd z Hz)) as [->|[r ->]]; cbn; nra. }
    assert (G' : 0 <= rsum nz (fun z => rval (fsqr (shifted ny nx cube sx sy z y0 x0)))).
    { apply rsum_nonneg. intros z Hz. destruct (blankable_cases _ (Bt z Hz)) as [->|[r ->]]; cbn; nra. }
    rewrite E0 in G. cbn in G. nra.
  - apply in_fins in V. rewrite F in V. destruct V.
Qed.
