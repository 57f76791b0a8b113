(** Proofs about Model/ScfPairs.v: the distance of two cubes. *)
From Coq Require Import String Reals List ZArith Arith Bool Lia Lra.
From Verif Require Import Lib.PyBase Lib.PyStr Lib.Arr Lib.Fl Lib.RSum Spec.Blank Spec.Correlation Spec.ScfSpectrum Spec.ScfPairs
  Model.DeltaVar Model.Psds Model.Scf Model.ScfSpectrum Model.ScfPairs
  Proofs.Fl_Proofs Proofs.Psds_Proofs Proofs.Scf_Proofs Proofs.Scf2_Proofs Proofs.DeltaVar2_Proofs Proofs.ScfPairs_Proofs.
From Verif Require Proofs.Bispec3_Proofs.
Import ListNotations.
Local Open Scope R_scope.

(** ** Lags *)
Lemma default_length size : length (default_lags size) = odd_size size.
Proof. unfold default_lags. cbv zeta. now rewrite tab1_length. Qed.
Lemma odd_size_odd size : (1 <= odd_size size)%nat -> Nat.even (odd_size size) = false.
Proof.
  unfold odd_size. destruct (Nat.even size) eqn:E; [|auto]. intros H. destruct size as [|n]; [cbn in H; lia|].
  replace (S n - 1)%nat with n by lia. rewrite Nat.even_succ in E. rewrite <- Nat.negb_odd, E. reflexivity.
Qed.
Lemma init_lags_odd l size n : length l = odd_size n -> init_lags (Some l) size = l.
Proof.
  intros L. unfold init_lags. rewrite L. destruct (Nat.eq_dec (odd_size n) 0) as [Z|Z].
  - rewrite Z in *. destruct l; [reflexivity|discriminate].
  - now rewrite odd_size_odd by lia.
Qed.

(** The default lags on a grid of pixels [p] that share their angles with pixels [q]. *)
Definition scaled (size : nat) (p q : R) : list R := map (fun l => l * (Rmax p q / p)) (default_lags size).
Lemma scaled_length size p q : length (scaled size p q) = odd_size size.
Proof. unfold scaled. now rewrite map_length, default_length. Qed.
Lemma scaled_self size p q : 0 < p -> q <= p -> scaled size p q = default_lags size.
Proof.
  intros Hp H. unfold scaled. rewrite (map_ext _ (fun l => l)); [apply map_id|]. intros l. rewrite Rmax_left by assumption. field. lra.
Qed.
Lemma scaled_angles size p q : 0 < p -> 0 < q -> map (fun l => l * p) (scaled size p q) = map (fun l => l * q) (scaled size q p).
Proof.
  intros Hp Hq. unfold scaled. rewrite !map_map. apply map_ext. intros l. rewrite (Rmax_comm q p). field. lra.
Qed.
Lemma lags_of_cubes size n1 m1 k1 c1 p1 n2 m2 k2 c2 p2 : 0 < p1 -> 0 < p2 ->
  pair_lags size (RawCube n1 m1 k1 c1 p1) (RawCube n2 m2 k2 c2 p2) = Ok (scaled size p1 p2, scaled size p2 p1).
Proof.
  intros H1 H2. unfold pair_lags. cbn [input_pixel input_lags].
  destruct (Reqb_spec (p2 / p1) 1) as [E|E].
  - assert (p2 = p1) as -> by (apply (Rmult_eq_compat_r p1) in E; field_simplify in E; lra).
    cbn [bind]. rewrite Nat.eqb_refl. cbn [negb]. rewrite (proj2 (lags_eqb_spec _ _) eq_refl). now rewrite !scaled_self by lra.
  - destruct (Rltb_spec 1 (p2 / p1)) as [L|L].
    + assert (p1 < p2) by (apply (Rmult_lt_compat_r p1) in L; [|assumption]; field_simplify in L; lra).
      f_equal. f_equal; [|now rewrite scaled_self by lra]. unfold scaled. apply map_ext. intros l. rewrite Rmax_right by lra. ring.
    + assert (p2 < p1).
      { destruct (Rlt_dec p2 p1) as [Q|Q]; [exact Q|]. exfalso. assert (p2 / p1 = 1); [|contradiction].
        apply Rle_antisym; [lra|]. apply (Rmult_le_reg_r p1); [assumption|]. field_simplify; lra. }
      f_equal. f_equal; [now rewrite scaled_self by lra|]. unfold scaled. apply map_ext. intros l. rewrite Rmax_right by lra. field. lra.
Qed.

(** ** The surface of a cube *)
Definition fresh (nz ny nx : nat) (cube : nat -> nat -> nat -> fl) (lags : list R) : scf_obj :=
  mk_scf nz ny nx cube lags None None None None None None None.
(** What is left of a cube *)
Definition holds (i : scf_inst) (nz ny nx : nat) (cube : nat -> nat -> nat -> fl) (pixel : R) (lags : list R) (s : list (list fl)) : Prop :=
  s_nz (i_obj i) = nz /\ s_ny (i_obj i) = ny /\ s_nx (i_obj i) = nx /\ s_cube (i_obj i) = cube /\ i_pixel i = pixel /\
  s_roll_lags (i_obj i) = lags /\ i_size i = length lags /\ s_surface (i_obj i) = Some s /\ s_spectrum (i_obj i) <> None.

Lemma raw_surface nz ny nx cube p l n b : length l = odd_size n ->
  inst_surface (new_inst nz ny nx cube p (Some l) 11) b =
  match boundary_surface (fresh nz ny nx cube l) b with
  | Ok s => Ok (mk_inst (set_surface (fresh nz ny nx cube l) s) (length l) p)
  | Err e => Err e
  end.
Proof.
  intros L. unfold new_inst, new_scf. cbv zeta. rewrite (init_lags_odd l 11 n L). unfold inst_surface. cbn [i_obj s_roll_lags i_size i_pixel].
  fold (fresh nz ny nx cube l). destruct (boundary_surface (fresh nz ny nx cube l) b) as [s|e] eqn:E; cbn [bind]; [|reflexivity].
  rewrite Nat.ltb_irrefl. rewrite fill_full; [reflexivity|].
  unfold boundary_surface in E. cbv zeta in E. destruct (negb _); [discriminate|]. destruct (is_literal b "cut" || _ || _)%bool; [|discriminate].
  now apply surface_square in E.
Qed.
Lemma prepare_raw tppf nz ny nx cube p l n b i r : length l = odd_size n ->
  prepare tppf (RawCube nz ny nx cube p) l b = Ok (i, r) ->
  r = true /\ (2 <= length l)%nat /\ exists s, boundary_surface (fresh nz ny nx cube l) b = Ok s /\ holds i nz ny nx cube p l s.
Proof.
  intros L. unfold prepare. rewrite (raw_surface nz ny nx cube p l n b L).
  destruct (boundary_surface (fresh nz ny nx cube l) b) as [s|e] eqn:E; cbn [bind]; [|discriminate].
  destruct (inst_spectrum _ _) as [i'|e] eqn:E2; cbn [bind]; [|discriminate]. intros [= <- <-]. split; [reflexivity|].
  apply (spectrum_inv tppf _ _ s) in E2; [|reflexivity]. destruct E2 as [N [A [B [C [D [F1 [F2 [F3 [F4 [F5 [F6 _]]]]]]]]]]].
  split; [exact N|]. exists s. split; [reflexivity|]. unfold holds. rewrite A, C, F1, F2, F3, F4, F5, F6. now repeat split.
Qed.
Lemma prepare_raw_ok tppf nz ny nx cube p l n b s : length l = odd_size n -> (2 <= length l)%nat ->
  boundary_surface (fresh nz ny nx cube l) b = Ok s -> square_array (length l) s ->
  exists i, prepare tppf (RawCube nz ny nx cube p) l b = Ok (i, true).
Proof.
  intros L N E Q. unfold prepare. rewrite (raw_surface nz ny nx cube p l n b L), E. cbn [bind].
  destruct (plain_spectrum tppf (mk_inst (set_surface (fresh nz ny nx cube l) s) (length l) p) s (length l) eq_refl Q ltac:(lia) N) as [i' [E' _]].
  rewrite E'. cbn [bind]. eauto.
Qed.
Lemma boundary_square o b s : boundary_surface o b = Ok s -> square_array (length (s_roll_lags o)) s.
Proof.
  unfold boundary_surface. cbv zeta. destruct (negb _); [discriminate|]. destruct (is_literal b "cut" || _ || _)%bool; [|discriminate].
  apply surface_square.
Qed.

(** ** The metric *)
Definition metric_of (n : nat) (weighted : bool) (s1 s2 : list (list fl)) : fl :=
  fsqrt (fdiv (fsum (map (fun q => fmul (fsqr (fsub (at2 NaN s1 (fst q) (snd q)) (at2 NaN s2 (fst q) (snd q)))) (Fin (scf_weight n weighted (fst q) (snd q)))) (pixels n n)))
    (Fin (rsum n (fun j => rsum n (fun i => scf_weight n weighted j i))))).
Lemma stretch_lt n i : (i < n)%nat -> stretch n i = i.
Proof. unfold stretch. destruct (Nat.eqb_spec n 1); lia. Qed.
Lemma metric_square i1 i2 n w s1 s2 : s_surface (i_obj i1) = Some s1 -> s_surface (i_obj i2) = Some s2 -> square_array n s1 -> square_array n s2 ->
  pair_metric (mk_pair i1 i2 n) w = Ok (metric_of n w s1 s2).
Proof.
  intros E1 E2 [L1 _] [L2 _]. unfold pair_metric. cbn [p_1 p_2 p_size]. rewrite E1, E2, L1, L2. unfold broadcast. rewrite Nat.eqb_refl. cbn [bind].
  rewrite Nat.eqb_refl. cbn [bind]. unfold metric_of. do 3 f_equal. f_equal. apply map_ext_in. intros [j i] H. apply in_pixels in H.
  cbn [fst snd]. now rewrite !stretch_lt by tauto.
Qed.
Lemma fsqr_sub_sym a b : fsqr (fsub a b) = fsqr (fsub b a).
Proof.
  destruct a, b; cbn; try reflexivity. f_equal. ring.
Qed.
Lemma metric_sym n w s1 s2 : metric_of n w s1 s2 = metric_of n w s2 s1.
Proof. unfold metric_of. do 3 f_equal. apply map_ext. intros q. now rewrite fsqr_sub_sym. Qed.

(** ** Two cubes *)
Lemma cubes_distance tppf n1 m1 k1 c1 p1 n2 m2 k2 c2 p2 size b1 b2 w v : 0 < p1 -> 0 < p2 ->
  scf_pair_distance tppf (RawCube n1 m1 k1 c1 p1) (RawCube n2 m2 k2 c2 p2) size (Boundaries [b1; b2]) w = Ok v <->
  (2 <= odd_size size)%nat /\ exists s1 s2, boundary_surface (fresh n1 m1 k1 c1 (scaled size p1 p2)) b1 = Ok s1 /\
    boundary_surface (fresh n2 m2 k2 c2 (scaled size p2 p1)) b2 = Ok s2 /\ v = metric_of (odd_size size) w s1 s2.
Proof.
  intros H1 H2. unfold scf_pair_distance, pair_init. rewrite lags_of_cubes by assumption. cbn [bind pair_boundary fst snd].
  fold (odd_size size). split.
  - destruct (prepare tppf (RawCube n1 m1 k1 c1 p1) _ _) as [[i1 r1]|e] eqn:P1; cbn [bind]; [|discriminate].
    destruct (prepare tppf (RawCube n2 m2 k2 c2 p2) _ _) as [[i2 r2]|e] eqn:P2; cbn [bind]; [|discriminate].
    apply (prepare_raw _ _ _ _ _ _ _ size) in P1; [|apply scaled_length]. apply (prepare_raw _ _ _ _ _ _ _ size) in P2; [|apply scaled_length].
    destruct P1 as [-> [N [s1 [E1 A1]]]]. destruct P2 as [-> [_ [s2 [E2 A2]]]]. cbn [fst snd negb andb]. intros M.
    rewrite scaled_length in N. split; [exact N|]. exists s1, s2. split; [exact E1|]. split; [exact E2|].
    unfold holds in A1, A2. rewrite (metric_square i1 i2 _ w s1 s2) in M; try tauto.
    + now injection M as <-.
    + apply boundary_square in E1. cbn [fresh s_roll_lags] in E1. now rewrite scaled_length in E1.
    + apply boundary_square in E2. cbn [fresh s_roll_lags] in E2. now rewrite scaled_length in E2.
  - intros [N [s1 [s2 [E1 [E2 ->]]]]]. pose proof (boundary_square _ _ _ E1) as Q1. pose proof (boundary_square _ _ _ E2) as Q2.
    cbn [fresh s_roll_lags] in Q1, Q2.
    destruct (prepare_raw_ok tppf n1 m1 k1 c1 p1 _ size b1 s1 (scaled_length _ _ _) ltac:(rewrite scaled_length; lia) E1 Q1) as [i1 P1].
    destruct (prepare_raw_ok tppf n2 m2 k2 c2 p2 _ size b2 s2 (scaled_length _ _ _) ltac:(rewrite scaled_length; lia) E2 Q2) as [i2 P2].
    rewrite P1, P2. cbn [bind fst snd negb andb].
    apply (prepare_raw _ _ _ _ _ _ _ size) in P1; [|apply scaled_length]. apply (prepare_raw _ _ _ _ _ _ _ size) in P2; [|apply scaled_length].
    destruct P1 as [_ [_ [s1' [E1' A1]]]]. destruct P2 as [_ [_ [s2' [E2' A2]]]]. rewrite E1 in E1'. rewrite E2 in E2'.
    injection E1' as <-. injection E2' as <-. unfold holds in A1, A2. rewrite scaled_length in Q1, Q2. apply metric_square; tauto.
Qed.

Lemma cubes_sym tppf n1 m1 k1 c1 p1 n2 m2 k2 c2 p2 size b1 b2 w v : 0 < p1 -> 0 < p2 ->
  scf_pair_distance tppf (RawCube n1 m1 k1 c1 p1) (RawCube n2 m2 k2 c2 p2) size (Boundaries [b1; b2]) w = Ok v ->
  scf_pair_distance tppf (RawCube n2 m2 k2 c2 p2) (RawCube n1 m1 k1 c1 p1) size (Boundaries [b2; b1]) w = Ok v.
Proof.
  intros H1 H2 H. apply cubes_distance in H; [|assumption..]. apply cubes_distance; [assumption..|].
  destruct H as [N [s1 [s2 [E1 [E2 ->]]]]]. split; [exact N|]. exists s2, s1. split; [exact E2|]. split; [exact E1|]. apply metric_sym.
Qed.

Lemma boundary_scal nz ny nx cube lags b c : cube_ok nz ny nx cube -> c <> 0 ->
  boundary_surface (fresh nz ny nx (recalibrated c cube) lags) b = boundary_surface (fresh nz ny nx cube lags) b.
Proof.
  intros H C. unfold boundary_surface. cbn [fresh s_nz s_ny s_nx s_cube s_roll_lags]. cbv zeta. destruct (negb _); [reflexivity|].
  destruct (_ || _)%bool; [now apply surface_scal|reflexivity].
Qed.
Lemma cubes_calibration tppf n1 m1 k1 c1 p1 n2 m2 k2 c2 p2 size b1 b2 w v a1 a2 : 0 < p1 -> 0 < p2 ->
  cube_ok n1 m1 k1 c1 -> cube_ok n2 m2 k2 c2 -> a1 <> 0 -> a2 <> 0 ->
  scf_pair_distance tppf (RawCube n1 m1 k1 (recalibrated a1 c1) p1) (RawCube n2 m2 k2 (recalibrated a2 c2) p2) size (Boundaries [b1; b2]) w = Ok v <->
  scf_pair_distance tppf (RawCube n1 m1 k1 c1 p1) (RawCube n2 m2 k2 c2 p2) size (Boundaries [b1; b2]) w = Ok v.
Proof.
  intros H1 H2 K1 K2 A1 A2. rewrite !cubes_distance by assumption. now rewrite !boundary_scal by assumption.
Qed.

Lemma even_lags k : default_lags (2 * S k) = default_lags (2 * S k - 1).
Proof.
  unfold default_lags. cbv zeta. rewrite Nat.even_mul. cbn [Nat.even orb].
  assert (E : Nat.even (2 * S k - 1) = false).
  { replace (2 * S k - 1)%nat with (1 + 2 * k)%nat by lia. rewrite Nat.even_add, Nat.even_mul. reflexivity. }
  now rewrite E.
Qed.
Lemma even_odd_size k : odd_size (2 * S k) = odd_size (2 * S k - 1).
Proof. now rewrite <- !default_length, even_lags. Qed.
Lemma cubes_even tppf n1 m1 k1 c1 p1 n2 m2 k2 c2 p2 k b1 b2 w v : 0 < p1 -> 0 < p2 ->
  scf_pair_distance tppf (RawCube n1 m1 k1 c1 p1) (RawCube n2 m2 k2 c2 p2) (2 * S k) (Boundaries [b1; b2]) w = Ok v <->
  scf_pair_distance tppf (RawCube n1 m1 k1 c1 p1) (RawCube n2 m2 k2 c2 p2) (2 * S k - 1) (Boundaries [b1; b2]) w = Ok v.
Proof.
  intros H1 H2. rewrite !cubes_distance by assumption. unfold scaled. now rewrite even_lags, even_odd_size.
Qed.

(** ** Numbers *)
Definition finite_values (n : nat) (s : list (list fl)) : Prop :=
  forall j i, (j < n)%nat -> (i < n)%nat -> exists v, at2 NaN s j i = Fin v /\ 1 - sqrt 2 <= v <= 1.
Lemma metric_finite n w s1 s2 : (1 <= n)%nat -> finite_values n s1 -> finite_values n s2 ->
  metric_of n w s1 s2 = Fin (scf_distance n w (values_of s1) (values_of s2)).
Proof.
  intros N F1 F2. unfold metric_of.
  rewrite (map_ext_in _ (fun q => Fin ((values_of s1 (fst q) (snd q) - values_of s2 (fst q) (snd q)) ^ 2 * scf_weight n w (fst q) (snd q)))).
  - rewrite <- (map_map (fun q => (values_of s1 (fst q) (snd q) - values_of s2 (fst q) (snd q)) ^ 2 * scf_weight n w (fst q) (snd q)) Fin), fsum_Fin.
    rewrite Bispec3_Proofs.sum_grid. cbn [fst snd]. pose proof (scf_total_pos n w N) as T. cbn [fdiv].
    destruct (Reqb_spec (rsum n (fun j => rsum n (fun i => scf_weight n w j i))) 0) as [Z|Z]; [lra|]. cbn [fsqrt].
    set (d := rsum n (fun j => rsum n (fun i => (values_of s1 j i - values_of s2 j i) ^ 2 * scf_weight n w j i))).
    assert (0 <= d).
    { apply rsum_nonneg. intros i Hi. apply rsum_nonneg. intros j Hj. apply Rmult_le_pos; [apply pow2_ge_0|left; apply scf_weight_pos]. }
    destruct (Rltb_spec (d / rsum n (fun j => rsum n (fun i => scf_weight n w j i))) 0) as [L|L]; [|reflexivity].
    exfalso. assert (0 <= d / rsum n (fun j => rsum n (fun i => scf_weight n w j i))); [|lra].
    apply Rmult_le_pos; [assumption|]. left. now apply Rinv_0_lt_compat.
  - intros [j i] H. apply in_pixels in H. cbn [fst snd]. unfold values_of.
    destruct (F1 j i) as [a [-> _]]; try tauto. destruct (F2 j i) as [b [-> _]]; try tauto. cbn. f_equal. ring.
Qed.
Lemma scf_distance_nonneg n w s t : 0 <= scf_distance n w s t.
Proof. apply sqrt_pos. Qed.
Lemma scf_distance_bound n w s t : (1 <= n)%nat -> (forall j i, (j < n)%nat -> (i < n)%nat -> (s j i - t j i) ^ 2 <= 2) -> scf_distance n w s t <= sqrt 2.
Proof.
  intros N H. unfold scf_distance. cbv zeta. pose proof (scf_total_pos n w N) as T. apply sqrt_le_1_alt.
  apply (Rmult_le_reg_r (rsum n (fun i => rsum n (fun j => scf_weight n w i j)))); [exact T|]. unfold Rdiv. rewrite Rmult_assoc, Rinv_l by lra.
  rewrite Rmult_1_r, <- rsum_scal. apply rsum_le. intros i Hi. rewrite <- rsum_scal. apply rsum_le. intros j Hj.
  apply Rmult_le_compat_r; [left; apply scf_weight_pos|]. now apply H.
Qed.
Lemma values_bound n s1 s2 : finite_values n s1 -> finite_values n s2 ->
  forall j i, (j < n)%nat -> (i < n)%nat -> (values_of s1 j i - values_of s2 j i) ^ 2 <= 2.
Proof.
  intros F1 F2 j i Hj Hi. unfold values_of. destruct (F1 j i Hj Hi) as [a [-> Ba]]. destruct (F2 j i Hj Hi) as [b [-> Bb]].
  pose proof (sqrt_sqrt 2 ltac:(lra)) as Q. pose proof (sqrt_pos 2). nra.
Qed.
Lemma finite_surface nz ny nx cube lags : cube_ok nz ny nx cube -> signal nz ny nx cube ->
  exists s, boundary_surface (fresh nz ny nx cube lags) (text "continuous") = Ok s /\ compute_surface nz ny nx cube lags "continuous" = Ok s /\ finite_values (length lags) s.
Proof.
  intros H S. destruct (signal_finite nz ny nx cube lags H S) as [s [E [_ F]]]. exists s. split; [|now split].
  rewrite literal_surface by now left. exact E.
Qed.
Lemma cubes_defined tppf n1 m1 k1 c1 p1 n2 m2 k2 c2 p2 size w : 0 < p1 -> 0 < p2 -> (3 <= size)%nat ->
  cube_ok n1 m1 k1 c1 -> cube_ok n2 m2 k2 c2 -> signal n1 m1 k1 c1 -> signal n2 m2 k2 c2 ->
  exists s1 s2 d, compute_surface n1 m1 k1 c1 (scaled size p1 p2) "continuous" = Ok s1 /\ compute_surface n2 m2 k2 c2 (scaled size p2 p1) "continuous" = Ok s2 /\
    scf_pair_distance tppf (RawCube n1 m1 k1 c1 p1) (RawCube n2 m2 k2 c2 p2) size (OneBoundary (text "continuous")) w = Ok (Fin d) /\
    d = scf_distance (odd_size size) w (values_of s1) (values_of s2) /\ 0 <= d <= sqrt 2.
Proof.
  intros H1 H2 N K1 K2 S1 S2. destruct (finite_surface n1 m1 k1 c1 (scaled size p1 p2) K1 S1) as [s1 [B1 [E1 F1]]].
  destruct (finite_surface n2 m2 k2 c2 (scaled size p2 p1) K2 S2) as [s2 [B2 [E2 F2]]]. rewrite scaled_length in F1, F2.
  assert (O : (2 <= odd_size size)%nat).
  { unfold odd_size. destruct (Nat.even size) eqn:E; [|lia]. destruct (Nat.eq_dec size 3) as [->|]; [discriminate|lia]. }
  exists s1, s2. eexists. split; [exact E1|]. split; [exact E2|]. split; [|split; [reflexivity|]].
  - change (scf_pair_distance tppf (RawCube n1 m1 k1 c1 p1) (RawCube n2 m2 k2 c2 p2) size (OneBoundary (text "continuous")) w)
      with (scf_pair_distance tppf (RawCube n1 m1 k1 c1 p1) (RawCube n2 m2 k2 c2 p2) size (Boundaries [text "continuous"; text "continuous"]) w).
    apply cubes_distance; [assumption..|]. split; [exact O|]. exists s1, s2. split; [exact B1|]. split; [exact B2|].
    symmetry. apply metric_finite; auto; lia.
  - split; [apply scf_distance_nonneg|]. apply scf_distance_bound; [lia|]. now apply values_bound.
Qed.
(** The same cube twice *)
Lemma cubes_same tppf nz ny nx c p size w : 0 < p -> (3 <= size)%nat -> cube_ok nz ny nx c -> signal nz ny nx c ->
  scf_pair_distance tppf (RawCube nz ny nx c p) (RawCube nz ny nx c p) size (OneBoundary (text "continuous")) w = Ok (Fin 0).
Proof.
  intros Hp N K S. destruct (cubes_defined tppf nz ny nx c p nz ny nx c p size w Hp Hp N K K S S) as [s1 [s2 [d [E1 [E2 [D [-> _]]]]]]].
  rewrite D. do 2 f_equal. rewrite E1 in E2. injection E2 as <-. apply scf_distance_zero; [|auto].
  unfold odd_size. destruct (Nat.even size); lia.
Qed.
(** The lags of the two objects *)
Lemma cubes_angles tppf n1 m1 k1 c1 p1 n2 m2 k2 c2 p2 size b p : 0 < p1 -> 0 < p2 ->
  pair_init tppf (RawCube n1 m1 k1 c1 p1) (RawCube n2 m2 k2 c2 p2) size b = Ok p ->
  angles (p_1 p) = angles (p_2 p) /\ length (angles (p_1 p)) = odd_size size /\
  (p2 <= p1 -> s_roll_lags (i_obj (p_1 p)) = default_lags size) /\ (p1 <= p2 -> s_roll_lags (i_obj (p_2 p)) = default_lags size).
Proof.
  intros H1 H2. unfold pair_init. rewrite lags_of_cubes by assumption. cbn [bind fst snd]. destruct (pair_boundary b) as [[b1 b2]|e]; cbn [bind]; [|discriminate].
  destruct (prepare tppf (RawCube n1 m1 k1 c1 p1) _ _) as [[i1 r1]|e] eqn:P1; cbn [bind]; [|discriminate].
  destruct (prepare tppf (RawCube n2 m2 k2 c2 p2) _ _) as [[i2 r2]|e] eqn:P2; cbn [bind]; [|discriminate]. intros [= <-]. cbn [p_1 p_2].
  apply (prepare_raw _ _ _ _ _ _ _ size) in P1; [|apply scaled_length]. apply (prepare_raw _ _ _ _ _ _ _ size) in P2; [|apply scaled_length].
  destruct P1 as [_ [_ [s1 [_ A1]]]]. destruct P2 as [_ [_ [s2 [_ A2]]]]. unfold holds in A1, A2. unfold angles. cbn [fst].
  destruct A1 as [_ [_ [_ [_ [-> [-> _]]]]]]. destruct A2 as [_ [_ [_ [_ [-> [-> _]]]]]].
  split; [now apply scaled_angles|]. split; [now rewrite map_length, scaled_length|]. split; intros; now apply scaled_self.
Qed.
