(** Proofs for C318: the velocity coordinate spectrum of cubes with blank surroundings. *)
From Coq Require Import Reals List Bool ZArith Arith Lra Lia Permutation.
From Coquelicot Require Import Complex.
From Coq Require Import List.
From Verif Require Import Lib.PyBase Lib.RSum Lib.Arr Lib.Fl Lib.DFT Lib.DFT2 Lib.DFT3 Lib.PySlice Model.Psds Spec.Cube Spec.MomentsFrame Spec.VcsFrame.
From Verif Require Import Model.RfftToFft Model.StatsUtils Proofs.Fl_Proofs Proofs.RfftToFft_Proofs Proofs.Psds_Proofs Proofs.Psds2_Proofs Proofs.Psds3_Proofs.
From Verif Require Import Proofs.ScfFrame_Proofs Proofs.MomentsFrame_Proofs.
From Verif Require Proofs.Orders_Proofs Proofs.TurnedMoments_Proofs.
Import ListNotations.
Local Open Scope R_scope.

Lemma field_at n0 n1 o0 o1 cube z y x : in_field n0 n1 o0 o1 cube z y x = if inbox n0 o0 y && inbox n1 o1 x then cube z (y - o0)%nat (x - o1)%nat else NaN.
Proof. reflexivity. Qed.
Lemma clean_field n0 n1 o0 o1 cube z y x : clean3 (in_field n0 n1 o0 o1 cube) z y x = if inbox n0 o0 y && inbox n1 o1 x then clean3 cube z (y - o0)%nat (x - o1)%nat else 0.
Proof. unfold clean3. rewrite field_at. destruct (inbox n0 o0 y && inbox n1 o1 x); reflexivity. Qed.

(** ** Sums over a part of an axis *)
Lemma rsum_box N n o g : (o + n <= N)%nat -> rsum N (fun i => if inbox n o i then g (i - o)%nat else 0) = rsum n g.
Proof.
  intros H. replace N with (o + (n + (N - o - n)))%nat by lia. rewrite rsum_split, rsum_zero, Rplus_0_l.
  2: { intros i Hi. destruct (inbox n o i) eqn:B; [apply inbox_spec in B; lia|reflexivity]. }
  rewrite rsum_split, (rsum_zero (N - o - n)), Rplus_0_r.
  2: { intros i Hi. destruct (inbox n o _) eqn:B; [apply inbox_spec in B; lia|reflexivity]. }
  apply rsum_ext. intros i Hi. destruct (inbox n o (o + i)) eqn:B; [f_equal; lia|]. apply not_true_iff_false in B. rewrite inbox_spec in B. lia.
Qed.
Lemma rsum_field n0 n1 N0 N1 o0 o1 g : (o0 + n0 <= N0)%nat -> (o1 + n1 <= N1)%nat ->
  rsum N0 (fun y => rsum N1 (fun x => if inbox n0 o0 y && inbox n1 o1 x then g (y - o0)%nat (x - o1)%nat else 0)) = rsum n0 (fun y => rsum n1 (g y)).
Proof.
  intros H0 H1. rewrite <- (rsum_box N0 n0 o0 (fun y => rsum n1 (g y)) H0). apply rsum_ext. intros y _. destruct (inbox n0 o0 y); cbn [andb].
  - rewrite <- (rsum_box N1 n1 o1 (g (y - o0)%nat) H1). reflexivity.
  - apply rsum_0.
Qed.
Lemma power_field nz n0 n1 N0 N1 o0 o1 cube k : (o0 + n0 <= N0)%nat -> (o1 + n1 <= N1)%nat ->
  rsum N0 (fun y => rsum N1 (fun x => Cnorm2 (dft1 nz (fun z => RtoC (clean3 (in_field n0 n1 o0 o1 cube) z y x)) k))) =
  rsum n0 (fun y => rsum n1 (fun x => Cnorm2 (dft1 nz (fun z => RtoC (clean3 cube z y x)) k))).
Proof.
  intros H0 H1. rewrite <- (rsum_field n0 n1 N0 N1 o0 o1 (fun y x => Cnorm2 (dft1 nz (fun z => RtoC (clean3 cube z y x)) k)) H0 H1).
  apply rsum_ext. intros y _. apply rsum_ext. intros x _. destruct (inbox n0 o0 y && inbox n1 o1 x) eqn:B.
  - f_equal. apply dft1_ext. intros z _. now rewrite clean_field, B.
  - unfold dft1. rewrite csum_zero; [rewrite Cnorm2_RtoC; apply Rsqr_0|]. intros z _. rewrite clean_field, B. apply Cmult_0_l.
Qed.

(** ** The number of good pixels *)
Definition lit (nz : nat) (cube : nat -> nat -> nat -> fl) (p : nat * nat) : bool :=
  negb (Reqb (max_upto (nz - 1) (fun z => clean3 cube z (fst p) (snd p))) 0).
Lemma lit_field nz n0 n1 N0 N1 o0 o1 cube : (o0 + n0 <= N0)%nat -> (o1 + n1 <= N1)%nat ->
  length (filter (lit nz (in_field n0 n1 o0 o1 cube)) (pixels N0 N1)) = length (filter (lit nz cube) (pixels n0 n1)).
Proof.
  intros H0 H1. set (b := fun q : nat * nat => inbox n0 o0 (fst q) && inbox n1 o1 (snd q)).
  transitivity (length (filter (lit nz (in_field n0 n1 o0 o1 cube)) (filter b (pixels N0 N1)))).
  - f_equal. induction (pixels N0 N1) as [|q l IH]; [reflexivity|]. cbn [filter]. destruct (b q) eqn:B; cbn [filter].
    + now rewrite IH.
    + replace (lit nz (in_field n0 n1 o0 o1 cube) q) with false; [exact IH|]. unfold lit. rewrite (max_upto_const _ _ 0).
      * destruct (Reqb_spec 0 0); [reflexivity|lra].
      * intros z _. rewrite clean_field. unfold b in B. now rewrite B.
  - unfold pixels. rewrite (Permutation_length (TurnedMoments_Proofs.perm_filter _ _ _ (box_perm n0 n1 N0 N1 o0 o1 H0 H1))).
    rewrite Orders_Proofs.filter_map, map_length. f_equal. apply filter_ext_in. intros [y x] H. apply in_prod_iff in H. rewrite !in_seq in H.
    unfold lit. cbn [fst snd]. do 2 f_equal.
    assert (E : forall m f g, (forall z, f z = g z) -> max_upto m f = max_upto m g) by (induction m as [|m IH]; intros f g E; cbn [max_upto]; rewrite ?E; [reflexivity|]; now rewrite (IH f g E)).
    apply E. intros z. rewrite clean_field. replace (inbox n0 o0 (o0 + y) && inbox n1 o1 (o1 + x)) with true by (symmetry; rewrite andb_true_iff, !inbox_spec; lia).
    f_equal; lia.
Qed.
Lemma all_lit nz n0 n1 cube : emission nz n0 n1 cube -> length (filter (lit nz cube) (pixels n0 n1)) = (n0 * n1)%nat.
Proof.
  intros H. replace (filter (lit nz cube) (pixels n0 n1)) with (pixels n0 n1); [unfold pixels; now rewrite prod_length, !seq_length|].
  symmetry. assert (I : forall A (h : A -> bool) l, (forall a, In a l -> h a = true) -> filter h l = l).
  { intros A h l. induction l as [|a l IH]; intros Q; [reflexivity|]. cbn [filter]. rewrite (Q a (or_introl eq_refl)). f_equal. apply IH. intros c Hc. apply Q. now right. }
  apply I. intros [y x] Hp. apply in_prod_iff in Hp. rewrite !in_seq in Hp. destruct (H y x) as [z [v [Hz [E V]]]]; [lia|lia|].
  unfold lit. cbn [fst snd]. assert (L : clean3 cube z y x <= max_upto (nz - 1) (fun z => clean3 cube z y x)) by (apply (max_upto_ge (nz - 1) (fun z => clean3 cube z y x)); lia).
  unfold clean3 in L at 1. rewrite E in L. cbn in L. destruct (Reqb_spec (max_upto (nz - 1) (fun z => clean3 cube z y x)) 0); [lra|reflexivity].
Qed.
Lemma good_field nz n0 n1 N0 N1 o0 o1 cube : (1 <= nz)%nat -> (1 <= n0)%nat -> (1 <= n1)%nat -> (o0 + n0 <= N0)%nat -> (o1 + n1 <= N1)%nat ->
  has_blank nz n0 n1 cube \/ emission nz n0 n1 cube -> vcs_good nz N0 N1 (in_field n0 n1 o0 o1 cube) = vcs_good nz n0 n1 cube.
Proof.
  intros Z P0 P1 H0 H1 H. assert (G : forall c a b, vcs_good nz a b c = if existsb (fun z => existsb (fun p => is_nan (c z (fst p) (snd p))) (pixels a b)) (seq 0 nz) then length (filter (lit nz c) (pixels a b)) else (a * b)%nat) by reflexivity.
  rewrite (G cube).
  destruct (existsb (fun z => existsb (fun p => is_nan (cube z (fst p) (snd p))) (pixels n0 n1)) (seq 0 nz)) eqn:E.
  - apply has_nan_spec in E. destruct E as [z [y [x [Hz [Hy [Hx E]]]]]]. rewrite G, (proj2 (has_nan_spec _ _ _ _)); [now apply lit_field|].
    exists z, (o0 + y)%nat, (o1 + x)%nat. repeat split; try lia. rewrite field_at. replace (inbox n0 o0 (o0 + y) && inbox n1 o1 (o1 + x)) with true by (symmetry; rewrite andb_true_iff, !inbox_spec; lia).
    replace (o0 + y - o0)%nat with y by lia. now replace (o1 + x - o1)%nat with x by lia.
  - destruct H as [H|H]; [apply has_nan_spec in H; rewrite H in E; discriminate|].
    rewrite G. match goal with |- (if ?b then _ else _) = _ => destruct b eqn:F end; [now rewrite lit_field, all_lit|].
    assert (Q : forall y x, (y < N0)%nat -> (x < N1)%nat -> inbox n0 o0 y && inbox n1 o1 x = true).
    { intros y x Hy Hx. apply not_false_iff_true. intros B. apply not_true_iff_false in F. apply F, (proj2 (has_nan_spec nz N0 N1 (in_field n0 n1 o0 o1 cube))). exists 0%nat, y, x. repeat split; try lia. now rewrite field_at, B. }
    pose proof (Q 0%nat 0%nat ltac:(lia) ltac:(lia)) as A. pose proof (Q (N0 - 1)%nat (N1 - 1)%nat ltac:(lia) ltac:(lia)) as B.
    rewrite andb_true_iff, !inbox_spec in A, B. f_equal; lia.
Qed.

(** ** The spectrum *)
Lemma ps1D_at nz ny nx cube k : (1 <= nz)%nat -> (1 <= ny)%nat -> (1 <= nx)%nat -> (k < nz)%nat ->
  nth k (vcs_ps1D nz ny nx cube) NaN =
  fdiv (Fin (INR ny * INR nx * rsum ny (fun y => rsum nx (fun x => Cnorm2 (dft1 nz (fun z => RtoC (clean3 cube z y x)) k))))) (Fin (INR (vcs_good nz ny nx cube))).
Proof.
  intros Hz Hy Hx Hk. unfold vcs_ps1D.
  destruct (rfft_to_fft (Real3 nz ny nx (clean3 cube)) false) as [o|] eqn:E; [|rewrite rfft_3d in E by lia; discriminate].
  assert (A : exists l, o = Abs3 l) by (rewrite rfft_3d in E by lia; injection E as <-; eexists; reflexivity). destruct A as [l ->].
  rewrite tab1_nth by exact Hk. now rewrite (Orders_Proofs.vcs_total nz ny nx cube k l).
Qed.
Lemma power_nonneg nz ny nx a k : 0 <= rsum ny (fun y => rsum nx (fun x => Cnorm2 (dft1 nz (fun z => RtoC (clean3 a z y x)) k))).
Proof. apply rsum_nonneg. intros y _. apply rsum_nonneg. intros x _. apply Cnorm2_nonneg. Qed.
Theorem field_factor : forall nz n0 n1 N0 N1 o0 o1 cube k, (1 <= nz)%nat -> (1 <= n0)%nat -> (1 <= n1)%nat -> (o0 + n0 <= N0)%nat -> (o1 + n1 <= N1)%nat -> (k < nz)%nat ->
  has_blank nz n0 n1 cube \/ emission nz n0 n1 cube ->
  nth k (vcs_ps1D nz N0 N1 (in_field n0 n1 o0 o1 cube)) NaN = fmul (Fin (larger n0 n1 N0 N1)) (nth k (vcs_ps1D nz n0 n1 cube) NaN).
Proof.
  intros nz n0 n1 N0 N1 o0 o1 cube k Z P0 P1 H0 H1 Hk H. rewrite !ps1D_at by lia. rewrite good_field, power_field by assumption.
  set (g := INR (vcs_good nz n0 n1 cube)). pose proof (power_nonneg nz n0 n1 cube k) as P. set (s := rsum _ _) in *. clearbody g s. unfold larger. rewrite !mult_INR.
  assert (A : forall n, (1 <= n)%nat -> 0 < INR n) by (intros n Hn; apply lt_0_INR; lia).
  pose proof (A n0 P0). pose proof (A n1 P1). pose proof (A N0 ltac:(lia)). pose proof (A N1 ltac:(lia)). set (a := INR n0) in *. set (b := INR n1) in *. set (c := INR N0) in *. set (d := INR N1) in *.
  assert (C : 0 < c * d) by nra. assert (D : 0 < a * b) by nra. assert (F : 0 < c * d / (a * b)) by now apply Rdiv_lt_0_compat.
  unfold fdiv. destruct (Reqb_spec g 0) as [->|G].
  - unfold sinf. destruct (Rle_lt_or_eq_dec _ _ P) as [Q|<-].
    + assert (0 < c * d * s) by nra. assert (0 < a * b * s) by nra.
      repeat match goal with |- context [Rltb ?u ?v] => destruct (Rltb_spec u v); try lra | |- context [Reqb ?u ?v] => destruct (Reqb_spec u v); try lra end; cbn [fmul]; unfold sinf;
      repeat match goal with |- context [Rltb ?u ?v] => destruct (Rltb_spec u v); try lra | |- context [Reqb ?u ?v] => destruct (Reqb_spec u v); try lra end; reflexivity.
    + rewrite !Rmult_0_r. repeat match goal with |- context [Rltb ?u ?v] => destruct (Rltb_spec u v); try lra | |- context [Reqb ?u ?v] => destruct (Reqb_spec u v); try lra end. reflexivity.
  - cbn [fmul]. f_equal. field. repeat split; lra.
Qed.
(** What is left of the surroundings in ratios of the spectrum *)
Theorem field_shape : forall nz n0 n1 N0 N1 o0 o1 cube j k a b a' b', (1 <= nz)%nat -> (1 <= n0)%nat -> (1 <= n1)%nat -> (o0 + n0 <= N0)%nat -> (o1 + n1 <= N1)%nat -> (j < nz)%nat -> (k < nz)%nat ->
  has_blank nz n0 n1 cube \/ emission nz n0 n1 cube ->
  nth j (vcs_ps1D nz n0 n1 cube) NaN = Fin a -> nth k (vcs_ps1D nz n0 n1 cube) NaN = Fin b ->
  nth j (vcs_ps1D nz N0 N1 (in_field n0 n1 o0 o1 cube)) NaN = Fin a' -> nth k (vcs_ps1D nz N0 N1 (in_field n0 n1 o0 o1 cube)) NaN = Fin b' ->
  0 < a -> 0 < b -> ln a' - ln b' = ln a - ln b.
Proof.
  intros nz n0 n1 N0 N1 o0 o1 cube j k a b a' b' Z P0 P1 H0 H1 Hj Hk H A B A' B' Pa Pb. rewrite field_factor, A in A' by assumption. rewrite field_factor, B in B' by assumption.
  cbn [fmul] in A', B'. injection A' as <-. injection B' as <-. assert (L : 0 < larger n0 n1 N0 N1) by (unfold larger; apply Rdiv_lt_0_compat; apply lt_0_INR; nia).
  rewrite !ln_mult by assumption. ring.
Qed.
(** One spectrum of one channel, and a blank one beside it *)
Lemma one_one : vcs_ps1D 1 1 1 (fun _ _ _ => Fin 1) = [Fin 1].
Proof.
  assert (L : length (vcs_ps1D 1 1 1 (fun _ _ _ => Fin 1)) = 1%nat) by reflexivity.
  destruct (vcs_ps1D 1 1 1 (fun _ _ _ => Fin 1)) as [|v [|w l]] eqn:E; try discriminate. f_equal.
  assert (G := ps1D_at 1 1 1 (fun _ _ _ => Fin 1) 0 (le_n _) (le_n _) (le_n _) (le_n _)). rewrite E in G. cbn [nth] in G. rewrite G.
  replace (vcs_good 1 1 1 (fun _ _ _ => Fin 1)) with 1%nat by reflexivity. cbn [rsum]. unfold dft1. cbn [csum].
  replace (Cplus (RtoC 0) (Cmult (RtoC (clean3 (fun _ _ _ => Fin 1) 0 0 0)) (tw 1 0 0))) with (RtoC 1).
  - rewrite Cnorm2_RtoC. unfold fdiv, Rsqr. cbn [INR]. destruct (Reqb_spec 1 0); [lra|]. f_equal. field.
  - unfold clean3. cbn. rewrite tw_0_l. ring.
Qed.
Theorem field_refuted : ~ (forall nz n0 n1 N0 N1 o0 o1 cube, (1 <= nz)%nat -> (1 <= n0)%nat -> (1 <= n1)%nat -> (o0 + n0 <= N0)%nat -> (o1 + n1 <= N1)%nat ->
  emission nz n0 n1 cube -> vcs_ps1D nz N0 N1 (in_field n0 n1 o0 o1 cube) = vcs_ps1D nz n0 n1 cube).
Proof.
  intros H. assert (E : emission 1 1 1 (fun _ _ _ => Fin 1)) by (intros y x _ _; exists 0%nat, 1; repeat split; [lia|lra]).
  specialize (H 1%nat 1%nat 1%nat 1%nat 2%nat 0%nat 0%nat (fun _ _ _ => Fin 1) (le_n _) (le_n _) (le_n _) (le_n _) ltac:(repeat constructor) E).
  apply (f_equal (fun l => nth 0 l NaN)) in H. rewrite field_factor in H; [|try lia ..|now right]. rewrite one_one in H. cbn [nth fmul] in H. injection H as H. unfold larger in H. cbn [Nat.mul Nat.add INR] in H. lra.
Qed.
