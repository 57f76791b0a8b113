(** Proofs about Model/ScfPairs.v: distances of SCF objects. *)
From Coq Require Import String Reals List ZArith Arith Bool Lia Lra.
From Verif Require Import Lib.PyBase Lib.PyStr Lib.Arr Lib.Fl Lib.RSum Spec.Blank Spec.Correlation Spec.ScfSpectrum Spec.ScfPairs
  Model.DeltaVar Model.Psds Model.Scf Model.ScfSpectrum Model.ScfPairs
  Proofs.Fl_Proofs Proofs.Psds_Proofs Proofs.Scf_Proofs Proofs.Scf2_Proofs Proofs.DeltaVar2_Proofs Proofs.ScfPairs_Proofs Proofs.ScfPairs2_Proofs.
Import ListNotations.
Local Open Scope R_scope.

Lemma eqb_refl_lags l : lags_eqb l l = true. Proof. now apply lags_eqb_spec. Qed.
Lemma scale_one p : 0 < p -> Reqb (p / p) 1 = true.
Proof. intros H. destruct (Reqb_spec (p / p) 1) as [E|E]; [reflexivity|]. exfalso. apply E. field. lra. Qed.
Lemma scale_other p1 p2 : 0 < p1 -> p1 <> p2 -> Reqb (p2 / p1) 1 = false.
Proof.
  intros H N. destruct (Reqb_spec (p2 / p1) 1) as [E|E]; [|reflexivity]. exfalso. apply N.
  apply (Rmult_eq_compat_r p1) in E. unfold Rdiv in E. rewrite Rmult_assoc, Rinv_l in E by lra. lra.
Qed.

(** An object that needs nothing *)
Lemma prepare_keep tppf i l b : s_spectrum (i_obj i) <> None -> (length l <> length (s_roll_lags (i_obj i)) \/ l = s_roll_lags (i_obj i)) ->
  prepare tppf (ScfGiven i) l b = Ok (i, false).
Proof.
  intros S H. unfold prepare.
  assert (K : (if negb (Nat.eqb (length l) (length (s_roll_lags (i_obj i)))) then true else lags_eqb l (s_roll_lags (i_obj i))) = true).
  { destruct H as [H| ->]; [apply Nat.eqb_neq in H; now rewrite H|]. now rewrite Nat.eqb_refl, eqb_refl_lags. }
  rewrite K. cbn [negb orb]. destruct (s_spectrum (i_obj i)); [reflexivity|contradiction].
Qed.

Definition same_cube (i i' : scf_inst) : Prop :=
  s_nz (i_obj i') = s_nz (i_obj i) /\ s_ny (i_obj i') = s_ny (i_obj i) /\ s_nx (i_obj i') = s_nx (i_obj i) /\ s_cube (i_obj i') = s_cube (i_obj i) /\
  i_pixel i' = i_pixel i /\ i_size i' = i_size i /\ s_fit (i_obj i') = s_fit (i_obj i) /\ s_fit2D (i_obj i') = s_fit2D (i_obj i).

(** What becomes of an object *)
Lemma prepare_given tppf i l b i' r : prepare tppf (ScfGiven i) l b = Ok (i', r) ->
  (r = false /\ i' = i /\ s_spectrum (i_obj i) <> None /\ (length l <> length (s_roll_lags (i_obj i)) \/ l = s_roll_lags (i_obj i))) \/
  (r = true /\ same_cube i i' /\ s_spectrum (i_obj i') <> None /\
   s_roll_lags (i_obj i') = (if Nat.eqb (length l) (length (s_roll_lags (i_obj i))) then l else s_roll_lags (i_obj i)) /\
   exists s, boundary_surface (i_obj (set_roll i (s_roll_lags (i_obj i')))) b = Ok s /\ (length (s_roll_lags (i_obj i')) <= i_size i)%nat /\
     s_surface (i_obj i') = Some (fill (i_size i) (length (s_roll_lags (i_obj i'))) s)).
Proof.
  unfold prepare. set (check := if negb (Nat.eqb (length l) (length (s_roll_lags (i_obj i)))) then true else lags_eqb l (s_roll_lags (i_obj i))).
  set (lags := if Nat.eqb (length l) (length (s_roll_lags (i_obj i))) then l else s_roll_lags (i_obj i)).
  assert (C : (check = true /\ (length l <> length (s_roll_lags (i_obj i)) \/ l = s_roll_lags (i_obj i)) /\ lags = s_roll_lags (i_obj i)) \/ (check = false /\ lags = l)).
  { unfold check, lags. destruct (Nat.eqb_spec (length l) (length (s_roll_lags (i_obj i)))) as [E|E]; cbn [negb]; [|left; auto].
    destruct (lags_eqb l (s_roll_lags (i_obj i))) eqn:Q; [|right; auto]. apply lags_eqb_spec in Q. left. auto. }
  assert (G : forall i0, s_roll_lags (i_obj i0) = lags -> same_cube i i0 -> boundary_surface (i_obj i0) b = boundary_surface (i_obj (set_roll i lags)) b ->
    (i <- inst_surface i0 b ;; i <- inst_spectrum tppf i ;; Ok (i, true)) = Ok (i', r) ->
    r = true /\ same_cube i i' /\ s_spectrum (i_obj i') <> None /\ s_roll_lags (i_obj i') = lags /\
    exists s, boundary_surface (i_obj (set_roll i (s_roll_lags (i_obj i')))) b = Ok s /\ (length (s_roll_lags (i_obj i')) <= i_size i)%nat /\
     s_surface (i_obj i') = Some (fill (i_size i) (length (s_roll_lags (i_obj i'))) s)).
  { intros i0 L0 (K1 & K2 & K3 & K4 & K5 & K6 & K7 & K8) B0. unfold inst_surface. rewrite L0, B0.
    destruct (boundary_surface (i_obj (set_roll i lags)) b) as [s|e] eqn:ES; cbn [bind]; [|discriminate].
    destruct (Nat.ltb_spec (i_size i0) (length lags)) as [Lt|Lt]; cbn [bind]; [discriminate|].
    destruct (inst_spectrum tppf _) as [i2|e] eqn:E2; cbn [bind]; [|discriminate]. intros [= <- <-].
    eapply spectrum_inv in E2; [|reflexivity]. cbn [i_obj set_surface s_roll_lags s_fit s_fit2D s_nz s_ny s_nx s_cube i_size i_pixel] in E2.
    destruct E2 as [_ [A [B [D [F [F1 [F2 [F3 [F4 [F5 [F6 F7]]]]]]]]]]]. rewrite L0 in D. rewrite K6 in Lt, A.
    split; [reflexivity|]. split; [unfold same_cube; now rewrite F1, F2, F3, F4, F5, F6, F7, F, K1, K2, K3, K4, K5, K6, K7, K8|].
    split; [exact B|]. split; [exact D|]. exists s. rewrite D. now split. }
  destruct C as [[-> [HL EL]]|[-> EL]]; cbn [negb orb].
  - destruct (s_spectrum (i_obj i)) eqn:S.
    + intros [= <- <-]. left. split; [reflexivity|]. split; [reflexivity|]. split; [congruence|exact HL].
    + intros H. right. apply (G i); [now rewrite EL|now repeat split| |exact H]. rewrite EL. unfold set_roll. cbn [i_obj]. now destruct (i_obj i).
  - intros H. right. apply (G (set_roll i l)); [now rewrite EL|now repeat split|now rewrite EL|exact H].
Qed.

(** ** Objects on one grid *)
Lemma objects_reused tppf i1 i2 size b bb : 0 < i_pixel i1 -> i_pixel i2 = i_pixel i1 -> s_roll_lags (i_obj i2) = s_roll_lags (i_obj i1) ->
  s_spectrum (i_obj i1) <> None -> s_spectrum (i_obj i2) <> None -> pair_boundary b = Ok bb ->
  pair_init tppf (ScfGiven i1) (ScfGiven i2) size b = Ok (mk_pair i1 i2 (i_size i1)).
Proof.
  intros P Ep El S1 S2 B. unfold pair_init, pair_lags. cbn [input_pixel input_lags]. rewrite Ep, scale_one by assumption. cbn [bind].
  rewrite El, Nat.eqb_refl, eqb_refl_lags. cbn [negb bind fst snd]. rewrite B. cbn [bind].
  rewrite prepare_keep by auto. cbn [bind]. rewrite (prepare_keep tppf i2) by auto. reflexivity.
Qed.
Lemma computed_square i b s : s_surface (i_obj i) = Some s -> surface_of i (s_roll_lags (i_obj i)) b = Ok s -> square_array (length (s_roll_lags (i_obj i))) s.
Proof. intros _ E. unfold surface_of in E. now apply surface_square in E. Qed.
Lemma objects_distance tppf i1 i2 b1 b2 size b bb w : 0 < i_pixel i1 -> i_pixel i2 = i_pixel i1 -> s_roll_lags (i_obj i2) = s_roll_lags (i_obj i1) ->
  computed i1 b1 -> computed i2 b2 -> pair_boundary b = Ok bb ->
  exists s1 s2, s_surface (i_obj i1) = Some s1 /\ s_surface (i_obj i2) = Some s2 /\
    scf_pair_distance tppf (ScfGiven i1) (ScfGiven i2) size b w = Ok (metric_of (i_size i1) w s1 s2).
Proof.
  intros P Ep El (s1 & A1 & E1 & Z1 & S1) (s2 & A2 & E2 & Z2 & S2) B. exists s1, s2. split; [exact A1|]. split; [exact A2|].
  unfold scf_pair_distance. rewrite (objects_reused tppf i1 i2 size b bb) by assumption. cbn [bind].
  apply metric_square; try assumption; [apply (computed_square i1 b1) in E1; [|assumption]; now rewrite Z1|].
  apply (computed_square i2 b2) in E2; [|assumption]. now rewrite Z1, <- El.
Qed.

(** SCF(cube, size=size) with its surface and spectrum computed *)
Definition ran (tppf : nat -> fl) (nz ny nx : nat) (cube : nat -> nat -> nat -> fl) (p : R) (size : nat) (b : py_str) (i : scf_inst) : Prop :=
  exists i0, inst_surface (new_inst nz ny nx cube p None size) b = Ok i0 /\ inst_spectrum tppf i0 = Ok i.
Lemma ran_prepare tppf nz ny nx cube p size b i : ran tppf nz ny nx cube p size b i <->
  prepare tppf (RawCube nz ny nx cube p) (default_lags size) b = Ok (i, true).
Proof.
  unfold ran, prepare.
  assert (E : new_inst nz ny nx cube p (Some (default_lags size)) 11 = new_inst nz ny nx cube p None size).
  { unfold new_inst, new_scf. cbv zeta. now rewrite (init_lags_odd (default_lags size) 11 size (default_length size)). }
  rewrite E. split.
  - intros [i0 [-> H]]. cbn [bind]. rewrite H. reflexivity.
  - destruct (inst_surface _ _) as [i0|e]; cbn [bind]; [|discriminate]. destruct (inst_spectrum tppf i0) as [i1|e] eqn:H; cbn [bind]; [|discriminate].
    intros [= <-]. eauto.
Qed.
Lemma one_grid p : 0 < p -> forall size, scaled size p p = default_lags size.
Proof. intros. apply scaled_self; lra. Qed.
Lemma objects_as_cubes tppf n1 m1 k1 c1 n2 m2 k2 c2 p size b1 b2 w v i1 i2 b bb : 0 < p ->
  ran tppf n1 m1 k1 c1 p size b1 i1 -> ran tppf n2 m2 k2 c2 p size b2 i2 -> pair_boundary b = Ok bb ->
  scf_pair_distance tppf (RawCube n1 m1 k1 c1 p) (RawCube n2 m2 k2 c2 p) size (Boundaries [b1; b2]) w = Ok v ->
  scf_pair_distance tppf (ScfGiven i1) (ScfGiven i2) size b w = Ok v /\
  (fst bb = b1 -> scf_pair_distance tppf (RawCube n1 m1 k1 c1 p) (ScfGiven i2) size b w = Ok v).
Proof.
  intros P R1 R2 B D. apply ran_prepare in R1, R2. apply cubes_distance in D; [|assumption..]. rewrite !one_grid in D by assumption.
  destruct D as [N [s1 [s2 [E1 [E2 ->]]]]].
  pose proof (boundary_square _ _ _ E1) as Q1. pose proof (boundary_square _ _ _ E2) as Q2. cbn [fresh s_roll_lags] in Q1, Q2. rewrite default_length in Q1, Q2.
  pose proof R1 as P1.
  apply (prepare_raw _ _ _ _ _ _ _ size) in R1; [|apply default_length]. apply (prepare_raw _ _ _ _ _ _ _ size) in R2; [|apply default_length].
  destruct R1 as [_ [_ [s1' [E1' A1]]]]. destruct R2 as [_ [_ [s2' [E2' A2]]]]. rewrite E1 in E1'. rewrite E2 in E2'.
  injection E1' as <-. injection E2' as <-. unfold holds in A1, A2.
  destruct A1 as (_ & _ & _ & _ & G1 & L1 & Z1 & F1 & S1). destruct A2 as (_ & _ & _ & _ & G2 & L2 & Z2 & F2 & S2).
  rewrite default_length in Z1, Z2. split.
  - unfold scf_pair_distance. rewrite (objects_reused tppf i1 i2 size b bb) by (try assumption; try congruence; lra). cbn [bind]. rewrite Z1. now apply metric_square.
  - intros Hb. unfold scf_pair_distance, pair_init, pair_lags. cbn [input_pixel input_lags]. rewrite G2, scale_one by assumption. cbn [bind].
    rewrite Nat.eqb_refl, eqb_refl_lags. cbn [negb bind fst snd]. rewrite B. cbn [bind]. rewrite Hb, P1. cbn [bind].
    rewrite prepare_keep by auto. cbn [bind fst snd negb andb]. fold (odd_size size). now apply metric_square.
Qed.

(** Objects that were not run *)
Lemma unrun_fails tppf i1 i2 size w : 0 < i_pixel i1 -> i_pixel i2 = i_pixel i1 -> s_roll_lags (i_obj i2) = s_roll_lags (i_obj i1) ->
  s_spectrum (i_obj i1) = None -> s_spectrum (i_obj i2) = None ->
  i_size i1 = length (s_roll_lags (i_obj i1)) -> i_size i2 = length (s_roll_lags (i_obj i1)) ->
  cube_ok (s_nz (i_obj i1)) (s_ny (i_obj i1)) (s_nx (i_obj i1)) (s_cube (i_obj i1)) -> cube_ok (s_nz (i_obj i2)) (s_ny (i_obj i2)) (s_nx (i_obj i2)) (s_cube (i_obj i2)) ->
  (2 <= length (s_roll_lags (i_obj i1)))%nat -> (2 <= odd_size size)%nat -> odd_size size <> length (s_roll_lags (i_obj i1)) ->
  scf_pair_distance tppf (ScfGiven i1) (ScfGiven i2) size (OneBoundary (text "continuous")) w = Err ValueError.
Proof.
  intros P Ep El S1 S2 Z1 Z2 K1 K2 N O NE. unfold scf_pair_distance, pair_init, pair_lags. cbn [input_pixel input_lags]. rewrite Ep, scale_one by assumption. cbn [bind].
  rewrite El, Nat.eqb_refl, eqb_refl_lags. cbn [negb bind fst snd pair_boundary].
  assert (G : forall i, s_roll_lags (i_obj i) = s_roll_lags (i_obj i1) -> s_spectrum (i_obj i) = None -> i_size i = length (s_roll_lags (i_obj i1)) ->
     cube_ok (s_nz (i_obj i)) (s_ny (i_obj i)) (s_nx (i_obj i)) (s_cube (i_obj i)) ->
     exists i' s, prepare tppf (ScfGiven i) (s_roll_lags (i_obj i1)) (text "continuous") = Ok (i', true) /\ s_surface (i_obj i') = Some s /\ length s = length (s_roll_lags (i_obj i1))).
  { intros i L S Z K. unfold prepare. rewrite L, Nat.eqb_refl, eqb_refl_lags. cbn [negb orb]. rewrite S. unfold inst_surface. rewrite L, Z, Nat.ltb_irrefl.
    rewrite literal_surface by now left. destruct (surface_bounded _ _ _ _ (s_roll_lags (i_obj i)) K) as [s [E [_ _]]]. rewrite E. cbn [bind].
    pose proof (surface_square _ _ _ _ _ _ _ E) as Q. rewrite L in Q. rewrite fill_full by assumption.
    destruct (plain_spectrum tppf (mk_inst (set_surface (i_obj i) s) (length (s_roll_lags (i_obj i1))) (i_pixel i)) s _ eq_refl Q) as [i' [E' [A _]]];
      [lia|cbn [i_obj set_surface s_roll_lags]; rewrite L; lia|].
    rewrite E'. cbn [bind]. exists i', s. split; [reflexivity|]. split; [exact A|]. apply Q. }
  destruct (G i1 eq_refl S1 Z1 K1) as [j1 [s1 [P1 [A1 L1]]]]. destruct (G i2 El S2 Z2 K2) as [j2 [s2 [P2 [A2 L2]]]].
  rewrite P1, P2. cbn [bind fst snd negb andb]. fold (odd_size size). unfold pair_metric. cbn [p_1 p_2 p_size]. rewrite A1, A2, L1, L2.
  unfold broadcast. rewrite Nat.eqb_refl. cbn [bind]. destruct (Nat.eqb_spec (length (s_roll_lags (i_obj i1))) (odd_size size)); [lia|].
  destruct (Nat.eqb_spec (length (s_roll_lags (i_obj i1))) 1); [lia|]. destruct (Nat.eqb_spec (odd_size size) 1); [lia|]. reflexivity.
Qed.

(** ** Objects on two grids *)
Lemma lags_other_grid size c1 c2 : 0 < input_pixel c1 -> 0 < input_pixel c2 -> input_pixel c1 <> input_pixel c2 ->
  pair_lags size c1 c2 = Ok (scaled size (input_pixel c1) (input_pixel c2), scaled size (input_pixel c2) (input_pixel c1)).
Proof.
  intros H1 H2 N. rewrite <- (lags_of_cubes size 0 0 0 (fun _ _ _ => NaN) _ 0 0 0 (fun _ _ _ => NaN) _ H1 H2).
  unfold pair_lags. cbn [input_pixel]. now rewrite scale_other by auto.
Qed.
Lemma other_grid_kept tppf i1 i2 size b bb : 0 < i_pixel i1 -> 0 < i_pixel i2 -> i_pixel i1 <> i_pixel i2 ->
  s_spectrum (i_obj i1) <> None -> s_spectrum (i_obj i2) <> None -> pair_boundary b = Ok bb ->
  odd_size size <> length (s_roll_lags (i_obj i1)) -> odd_size size <> length (s_roll_lags (i_obj i2)) ->
  pair_init tppf (ScfGiven i1) (ScfGiven i2) size b = Ok (mk_pair i1 i2 (i_size i1)).
Proof.
  intros P1 P2 N S1 S2 B L1 L2. unfold pair_init. rewrite lags_other_grid by assumption. cbn [bind fst snd input_pixel]. rewrite B. cbn [bind].
  rewrite prepare_keep by (rewrite ?scaled_length; auto). cbn [bind]. rewrite (prepare_keep tppf i2) by (rewrite ?scaled_length; auto). reflexivity.
Qed.
Lemma angles_differ i1 i2 : i_pixel i1 <> i_pixel i2 -> s_roll_lags (i_obj i2) = s_roll_lags (i_obj i1) -> (exists l, In l (s_roll_lags (i_obj i1)) /\ l <> 0) -> angles i1 <> angles i2.
Proof.
  intros N E [l [I Z]] H. unfold angles in H. rewrite E in H. apply N. clear E N. induction (s_roll_lags (i_obj i1)) as [|a m IH]; [destruct I|].
  cbn [map] in H. injection H as H1 H2. destruct I as [->|I]; [|now apply IH]. now apply Rmult_eq_reg_l in H1.
Qed.
Lemma other_grid_angles tppf i1 i2 size b p : 0 < i_pixel i1 -> 0 < i_pixel i2 -> i_pixel i1 <> i_pixel i2 ->
  length (s_roll_lags (i_obj i1)) = odd_size size -> length (s_roll_lags (i_obj i2)) = odd_size size ->
  pair_init tppf (ScfGiven i1) (ScfGiven i2) size b = Ok p -> angles (p_1 p) = angles (p_2 p).
Proof.
  intros P1 P2 N L1 L2. unfold pair_init. rewrite lags_other_grid by assumption. cbn [bind fst snd input_pixel]. destruct (pair_boundary b) as [[b1 b2]|e]; cbn [bind]; [|discriminate].
  destruct (prepare tppf (ScfGiven i1) _ _) as [[j1 r1]|e] eqn:A1; cbn [bind]; [|discriminate].
  destruct (prepare tppf (ScfGiven i2) _ _) as [[j2 r2]|e] eqn:A2; cbn [bind]; [|discriminate]. intros [= <-]. cbn [p_1 p_2 fst].
  assert (G : forall i j r l bd, length (s_roll_lags (i_obj i)) = odd_size size -> length l = odd_size size -> prepare tppf (ScfGiven i) l bd = Ok (j, r) ->
    s_roll_lags (i_obj j) = l /\ i_pixel j = i_pixel i).
  { intros i j r l bd L L' A. apply prepare_given in A. destruct A as [(_ & -> & _ & [C| ->])|(_ & K & _ & C & _)].
    - congruence.
    - now split.
    - rewrite L, L', Nat.eqb_refl in C. split; [exact C|]. apply K. }
  apply (G _ _ _ _ _ L1 (scaled_length _ _ _)) in A1. apply (G _ _ _ _ _ L2 (scaled_length _ _ _)) in A2.
  unfold angles. destruct A1 as [-> ->], A2 as [-> ->]. now apply scaled_angles.
Qed.

(** A recomputed object keeps the fit of its old surface *)
Lemma default_nonzero size : (2 <= odd_size size)%nat -> exists l, In l (default_lags size) /\ l <> 0.
Proof.
  intros H. exists (nth 0 (default_lags size) 0). split; [apply nth_In; rewrite default_length; lia|].
  unfold default_lags. cbv zeta. fold (odd_size size). rewrite tab1_nth by lia. cbn [INR]. assert (1 <= odd_size size / 2)%nat by (apply Nat.div_le_lower_bound; lia).
  apply le_INR in H0. cbn [INR] in H0. lra.
Qed.
Lemma scaled_other size p q : 0 < p -> p < q -> (2 <= odd_size size)%nat -> scaled size p q <> default_lags size.
Proof.
  intros Hp Hq O C. destruct (default_nonzero size O) as [l [I Z]]. unfold scaled in C. rewrite Rmax_right in C by lra.
  assert (G : l * (q / p) = l).
  { clear -C I. induction (default_lags size) as [|a m IH]; [destruct I|]. cbn [map] in C. injection C as C1 C2. destruct I as [->|I]; [exact C1|now apply IH]. }
  assert (q / p = 1) by (apply (Rmult_eq_reg_l l); lra). apply (Rmult_eq_compat_r p) in H. unfold Rdiv in H. rewrite Rmult_assoc, Rinv_l in H by lra. lra.
Qed.
Lemma fit_stays tppf i1 c2 size b p : 0 < i_pixel i1 -> i_pixel i1 < input_pixel c2 -> (2 <= odd_size size)%nat -> s_roll_lags (i_obj i1) = default_lags size ->
  pair_init tppf (ScfGiven i1) c2 size b = Ok p ->
  s_roll_lags (i_obj (p_1 p)) <> s_roll_lags (i_obj i1) /\ s_fit (i_obj (p_1 p)) = s_fit (i_obj i1) /\ s_fit2D (i_obj (p_1 p)) = s_fit2D (i_obj i1) /\
  exists b0 s, boundary_surface (i_obj (set_roll i1 (s_roll_lags (i_obj (p_1 p))))) b0 = Ok s /\
    s_surface (i_obj (p_1 p)) = Some (fill (i_size i1) (length (s_roll_lags (i_obj (p_1 p)))) s).
Proof.
  intros P1 P2 O L. unfold pair_init. rewrite lags_other_grid by (cbn [input_pixel]; lra). cbn [bind fst snd input_pixel].
  destruct (pair_boundary b) as [[b1 b2]|e]; cbn [bind]; [|discriminate].
  destruct (prepare tppf (ScfGiven i1) _ _) as [[j1 r1]|e] eqn:A1; cbn [bind]; [|discriminate].
  destruct (prepare tppf c2 _ _) as [[j2 r2]|e]; cbn [bind]; [|discriminate]. intros [= <-]. cbn [p_1 fst].
  pose proof (scaled_other size (i_pixel i1) (input_pixel c2) P1 P2 O) as D. apply prepare_given in A1. rewrite L in A1. rewrite default_length, scaled_length, Nat.eqb_refl in A1.
  destruct A1 as [(_ & _ & _ & [C|C])|(_ & K & _ & C & [s [E [_ A]]])]; [congruence|contradiction|].
  rewrite L. rewrite C in *. split; [exact D|]. split; [apply K|]. split; [apply K|]. exists b1, s. now split.
Qed.
