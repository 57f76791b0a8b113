(** The velocity coordinate spectrum of a cube whose spectral axis is reversed or begins elsewhere (C307). *)
From Coq Require Import Reals List ZArith Arith Bool Lia Lra Permutation.
From Coquelicot Require Import Complex.
From Verif Require Import Lib.PyBase Lib.PySlice Lib.Arr Lib.RSum Lib.Fl Lib.DFT Spec.Blank Spec.Freq Spec.Orders
  Model.RfftToFft Model.Psds Model.VcsRun Proofs.RfftToFft_Proofs Proofs.Psds_Proofs Proofs.Psds2_Proofs Proofs.Psds3_Proofs Proofs.Orders_Proofs Proofs.Turned_Proofs Proofs.PspecFit_Proofs Proofs.ThreeD_Proofs.
Import ListNotations.
Local Open Scope R_scope.

Lemma max_upto_le n f v : (forall i, (i <= n)%nat -> f i <= v) -> max_upto n f <= v.
Proof. induction n as [|n IH]; intros H; cbn [max_upto]; [apply H; lia|]. apply Rmax_lub; [apply IH; intros; apply H; lia|apply H; lia]. Qed.
Lemma reorders_lt p n z : reorders p n -> (z < n)%nat -> (p z < n)%nat.
Proof. intros P H. assert (I : In (p z) (seq 0 n)) by (apply (Permutation_in _ P), in_map, in_seq; lia). apply in_seq in I. lia. Qed.
Lemma reorders_onto p n z : reorders p n -> (z < n)%nat -> exists k, (k < n)%nat /\ p k = z.
Proof.
  intros P H. assert (I : In z (map p (seq 0 n))) by (apply (Permutation_in _ (Permutation_sym P)), in_seq; lia).
  apply in_map_iff in I. destruct I as [k [E K]]. apply in_seq in K. exists k. split; [lia|exact E].
Qed.
Lemma max_reorders p n f : (1 <= n)%nat -> reorders p n -> max_upto (n - 1) (fun i => f (p i)) = max_upto (n - 1) f.
Proof.
  intros Hn P. apply Rle_antisym; apply max_upto_le; intros i Hi.
  - assert (Q := reorders_lt p n i P ltac:(lia)). apply (max_upto_ge (n - 1) f (p i)). lia.
  - destruct (reorders_onto p n i P ltac:(lia)) as [k [Hk <-]]. apply (max_upto_ge (n - 1) (fun i => f (p i)) k). lia.
Qed.
Lemma existsb_ext {A} (f g : A -> bool) l : (forall a, f a = g a) -> existsb f l = existsb g l.
Proof. intros H. induction l as [|a l IH]; [reflexivity|]. cbn. now rewrite H, IH. Qed.
Lemma good_channels nz ny nx p cube : (1 <= nz)%nat -> reorders p nz -> vcs_good nz ny nx (channels p cube) = vcs_good nz ny nx cube.
Proof.
  intros Hz P. unfold vcs_good.
  replace (existsb (fun z => existsb (fun q => is_nan (channels p cube z (fst q) (snd q))) (pixels ny nx)) (seq 0 nz))
    with (existsb (fun z => existsb (fun q => is_nan (cube z (fst q) (snd q))) (pixels ny nx)) (seq 0 nz)).
  - destruct (existsb _ (seq 0 nz)); [|reflexivity]. f_equal. apply filter_ext. intros [y x]. cbn [fst snd].
    rewrite <- (max_reorders p nz (fun z => clean3 cube z y x) Hz P). reflexivity.
  - rewrite <- (existsb_perm _ _ _ P), existsb_map. reflexivity.
Qed.

Lemma vcs_channels nz ny nx p cube : (1 <= nz)%nat -> (1 <= ny)%nat -> (1 <= nx)%nat -> reorders p nz ->
  (forall (f : nat -> R) k, (k < nz)%nat -> Cnorm2 (dft1 nz (fun z => RtoC (f (p z))) k) = Cnorm2 (dft1 nz (fun z => RtoC (f z)) k)) ->
  vcs_ps1D nz ny nx (channels p cube) = vcs_ps1D nz ny nx cube.
Proof.
  intros Hz Hy Hx P D. unfold vcs_ps1D.
  destruct (rfft_to_fft (Real3 nz ny nx (clean3 (channels p cube))) false) as [o1|] eqn:E1; [|rewrite rfft_3d in E1 by lia; discriminate].
  destruct (rfft_to_fft (Real3 nz ny nx (clean3 cube)) false) as [o2|] eqn:E2; [|rewrite rfft_3d in E2 by lia; discriminate].
  assert (A : exists l, o1 = Abs3 l) by (rewrite rfft_3d in E1 by lia; injection E1 as <-; eexists; reflexivity).
  assert (B : exists l, o2 = Abs3 l) by (rewrite rfft_3d in E2 by lia; injection E2 as <-; eexists; reflexivity).
  destruct A as [p1 ->]. destruct B as [p2 ->]. apply tab1_ext. intros kz Hk.
  rewrite good_channels by assumption. do 2 f_equal. rewrite (vcs_total nz ny nx (channels p cube) kz p1), (vcs_total nz ny nx cube kz p2) by assumption. f_equal.
  apply rsum_ext. intros y _. apply rsum_ext. intros x _. exact (D (fun z => clean3 cube z y x) kz Hk).
Qed.

Lemma dft1_hermitian n (f : nat -> R) k : (k < n)%nat -> dft1 n (fun z => RtoC (f z)) ((n - k) mod n) = Cconj (dft1 n (fun z => RtoC (f z)) k).
Proof.
  intros H. unfold dft1. rewrite csum_conj. apply csum_ext. intros z _. rewrite tw_neg_r by lia.
  rewrite Cconj_mult. f_equal. unfold Cconj, RtoC. cbn. f_equal. ring.
Qed.
Lemma reversed_reorders n : reorders (fun z => (n - 1 - z)%nat) n.
Proof.
  unfold reorders. apply NoDup_Permutation; [|apply seq_NoDup|].
  - apply NoDup_map_in; [|apply seq_NoDup]. intros a b Ha Hb E. apply in_seq in Ha, Hb. lia.
  - intros z. rewrite in_map_iff, in_seq. split.
    + intros [k [<- K]]. apply in_seq in K. lia.
    + intros K. exists (n - 1 - z)%nat. rewrite in_seq. lia.
Qed.
Theorem vcs_reversed : forall nz ny nx cube, (1 <= nz)%nat -> (1 <= ny)%nat -> (1 <= nx)%nat ->
  vcs_ps1D nz ny nx (channels (fun z => (nz - 1 - z)%nat) cube) = vcs_ps1D nz ny nx cube.
Proof.
  intros nz ny nx cube Hz Hy Hx. apply vcs_channels; try assumption; [apply reversed_reorders|]. intros f k Hk.
  rewrite (dft1_mirror nz (fun z => RtoC (f z))) by exact Hk. rewrite dft1_hermitian by exact Hk. rewrite Cnorm2_mult, tw_norm, Cnorm2_conj. ring.
Qed.
Lemma rolled_reorders n s : (1 <= n)%nat -> reorders (fun z => ((z + s) mod n)%nat) n.
Proof.
  intros Hn. unfold reorders. apply NoDup_Permutation_bis; [|now rewrite map_length|].
  - apply NoDup_map_in; [|apply seq_NoDup]. intros a b Ha Hb E. apply in_seq in Ha, Hb.
    pose proof (Nat.div_mod (a + s) n ltac:(lia)) as A. pose proof (Nat.div_mod (b + s) n ltac:(lia)) as B. rewrite E in A.
    assert (Q : ((a + s) / n = (b + s) / n)%nat) by nia. rewrite Q in A. lia.
  - intros z Hz. apply in_map_iff in Hz. destruct Hz as [k [<- _]]. apply in_seq. split; [lia|]. apply Nat.mod_upper_bound. lia.
Qed.
Theorem vcs_rolled : forall nz ny nx s cube, (1 <= nz)%nat -> (1 <= ny)%nat -> (1 <= nx)%nat ->
  vcs_ps1D nz ny nx (channels (fun z => ((z + s) mod nz)%nat) cube) = vcs_ps1D nz ny nx cube.
Proof.
  intros nz ny nx s cube Hz Hy Hx. apply vcs_channels; try assumption; [now apply rolled_reorders|]. intros f k Hk.
  rewrite (dft1_roll nz (fun z => RtoC (f z)) s k) by lia. rewrite Cnorm2_mult, Cnorm2_conj, tw_norm. ring.
Qed.

(** ** Other orders of the channels *)
Definition two_bright (z y x : nat) : fl := if (z <? 2)%nat then Fin 1 else Fin 0.
Definition middle_swapped (z : nat) : nat := match z with 1 => 2 | 2 => 1 | _ => z end%nat.
Lemma middle_reorders : reorders middle_swapped 4.
Proof. unfold reorders. cbn. apply perm_skip, perm_swap. Qed.
Lemma tw_4_half z : tw 4 z 2 = RtoC ((-1) ^ z).
Proof.
  assert (E : tw 4 1 2 = RtoC (-1)).
  { unfold tw, cis. change (1 * 2)%nat with 2%nat. replace (- (2 * PI * INR 2 / INR 4)) with (- PI) by (cbn; field).
    apply Ceq; cbn; [rewrite cos_neg, cos_PI|rewrite sin_neg, sin_PI]; lra. }
  induction z as [|z IH]; [rewrite tw_0_l; reflexivity|]. replace (S z) with (1 + z)%nat by lia. rewrite tw_add_l, E, IH. rewrite <- RtoC_mult. reflexivity.
Qed.
Lemma vcs_one cube : (forall z, (z < 4)%nat -> exists r, cube z 0%nat 0%nat = Fin r) ->
  nth 2 (vcs_ps1D 4 1 1 cube) NaN = Fin ((clean3 cube 0 0 0 - clean3 cube 1 0 0 + clean3 cube 2 0 0 - clean3 cube 3 0 0) ^ 2).
Proof.
  intros F. unfold vcs_ps1D. destruct (rfft_to_fft (Real3 4 1 1 (clean3 cube)) false) as [o|] eqn:E; [|rewrite rfft_3d in E by lia; discriminate].
  assert (A : exists l, o = Abs3 l) by (rewrite rfft_3d in E by lia; injection E as <-; eexists; reflexivity).
  destruct A as [p ->]. rewrite tab1_nth by lia. rewrite (vcs_total 4 1 1 cube 2 p) by (try exact E; lia).
  assert (G : vcs_good 4 1 1 cube = 1%nat).
  { unfold vcs_good. cbn [seq pixels list_prod map app existsb fst snd].
    destruct (F 0%nat ltac:(lia)) as [r0 ->], (F 1%nat ltac:(lia)) as [r1 ->], (F 2%nat ltac:(lia)) as [r2 ->], (F 3%nat ltac:(lia)) as [r3 ->]. reflexivity. }
  rewrite G. cbn [rsum INR]. unfold dft1. cbn [csum]. rewrite !tw_4_half. rewrite <- !RtoC_mult. rewrite <- !RtoC_plus.
  rewrite Cnorm2_RtoC. unfold fdiv. destruct (Reqb_spec 1 0) as [K|_]; [lra|]. f_equal. unfold Rsqr. field.
Qed.
Theorem vcs_order : exists p cube, reorders p 4 /\ vcs_ps1D 4 1 1 (channels p cube) <> vcs_ps1D 4 1 1 cube.
Proof.
  exists middle_swapped, two_bright. split; [exact middle_reorders|]. intros E. apply (f_equal (fun l => nth 2 l NaN)) in E.
  rewrite !vcs_one in E.
  - injection E as E. revert E. cbn. lra.
  - intros z _. unfold two_bright. destruct (z <? 2)%nat; eexists; reflexivity.
  - intros z _. unfold channels, two_bright. destruct (middle_swapped z <? 2)%nat; eexists; reflexivity.
Qed.

(** ** Objects *)
Theorem vcs_histories : forall nz ny nx s cube to_freq knots ols boot o calls, (1 <= nz)%nat -> (1 <= ny)%nat -> (1 <= nx)%nat ->
  let seen cube := history nz ny nx cube to_freq knots ols boot o calls in
  seen (channels (fun z => (nz - 1 - z)%nat) cube) = seen cube /\ seen (channels (fun z => ((z + s) mod nz)%nat) cube) = seen cube.
Proof.
  intros nz ny nx s cube to_freq knots ols boot o calls Hz Hy Hx. cbv beta zeta.
  assert (H : forall c c', vcs_ps1D nz ny nx c = vcs_ps1D nz ny nx c' -> history nz ny nx c to_freq knots ols boot o calls = history nz ny nx c' to_freq knots ols boot o calls).
  { intros c c' E. unfold history. revert o. induction calls as [|k l IH]; intros o; [reflexivity|]. cbn [fold_left]. rewrite IH. f_equal.
    destruct k; cbn [do_call fst]; unfold run, compute; rewrite ?E; reflexivity. }
  split; apply H; [now apply vcs_reversed|now apply vcs_rolled].
Qed.
