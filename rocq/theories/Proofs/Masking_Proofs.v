(** Masks of cubes. *)
From Coq Require Import Reals List Bool Arith Lra Lia.
From Verif Require Import Lib.PyBase Lib.RSum Lib.Fl Spec.Masking Model.MakeMoments Model.Masking Proofs.MakeMoments_Proofs.
Import ListNotations.
Local Open Scope R_scope.

Section Masking.
  Variables (nz ny nx : nat).
  Lemma beside_in n a b : In b (beside n a) <-> (b < n /\ a <= b + 1 /\ b <= a + 1)%nat.
  Proof.
    unfold beside. rewrite filter_In, in_seq, !andb_true_iff, Nat.ltb_lt, !Nat.leb_le. lia.
  Qed.
  Lemma dilate_iff m z y x : dilate nz ny nx m z y x = true <-> exists q, in_cube nz ny nx q /\ within 1 (z, y, x) q /\ at_voxel m q = true.
  Proof.
    unfold dilate. rewrite existsb_exists. split.
    - intros (a & Ha & H). apply existsb_exists in H. destruct H as (b & Hb & H). apply existsb_exists in H. destruct H as (c & Hc & H).
      apply beside_in in Ha, Hb, Hc. exists (a, b, c). cbn. intuition lia.
    - intros ([[a b] c] & I & W & M). cbn in I, W, M. exists a. split; [apply beside_in; lia|]. apply existsb_exists. exists b. split; [apply beside_in; lia|].
      apply existsb_exists. exists c. split; [apply beside_in; lia|exact M].
  Qed.
  Lemma axis_step n a b d : (a < n -> b < n -> a <= b + S d -> b <= a + S d -> exists r, r < n /\ (a <= r + 1 /\ r <= a + 1) /\ (r <= b + d /\ b <= r + d))%nat.
  Proof. intros. destruct (lt_eq_lt_dec a b) as [[L|E]|L]; [exists (a + 1)%nat|exists a|exists (a - 1)%nat]; lia. Qed.
  Lemma dilated_iff t m p : in_cube nz ny nx p -> at_voxel (dilated nz ny nx t m) p = true <-> exists q, in_cube nz ny nx q /\ within t p q /\ at_voxel m q = true.
  Proof.
    revert p. induction t as [|t IH]; intros [[z y] x] I.
    - cbn [dilated]. split.
      + intros H. exists (z, y, x). split; [exact I|]. split; [cbn; lia|exact H].
      + intros ([[a b] c] & J & W & M). cbn in W. assert (a = z /\ b = y /\ c = x) as (-> & -> & ->) by lia. exact M.
    - cbn [dilated at_voxel]. rewrite dilate_iff. split.
      + intros (q & J & W & M). apply (IH q J) in M. destruct M as (r & K & W' & M). exists r. split; [exact K|]. split; [|exact M].
        destruct q as [[a b] c], r as [[a' b'] c']. cbn in *. lia.
      + intros ([[a b] c] & J & W & M). cbn in I, J, W.
        destruct (axis_step nz z a t) as (r & R1 & R2 & R3); [lia..|]. destruct (axis_step ny y b t) as (s & S1 & S2 & S3); [lia..|]. destruct (axis_step nx x c t) as (u & U1 & U2 & U3); [lia..|].
        assert (K : in_cube nz ny nx (r, s, u)) by (cbn; lia). exists (r, s, u). split; [exact K|]. split; [cbn; lia|]. apply (IH _ K). exists (a, b, c). split; [exact J|]. split; [cbn; lia|exact M].
  Qed.
  Lemma saturated m p : in_cube nz ny nx p -> at_voxel (binary_dilation nz ny nx 0 m) p = true <-> exists q, in_cube nz ny nx q /\ at_voxel m q = true.
  Proof.
    intros I. unfold binary_dilation. rewrite (dilated_iff _ m p I). split; intros (q & J & H).
    - exists q. split; [exact J|apply H].
    - exists q. split; [exact J|]. split; [|exact H]. destruct p as [[z y] x], q as [[a b] c]. cbn in *. lia.
  Qed.

  (** ** The smoothed cube *)
  Lemma over_kernel_le size f g : (forall i j k, (i < 2 * size + 1)%nat -> (j < 2 * size + 1)%nat -> (k < 2 * size + 1)%nat -> f i j k <= g i j k) -> over_kernel size f <= over_kernel size g.
  Proof.
    intros H. unfold over_kernel. apply rsum_le. intros i Hi. apply rsum_le. intros j Hj. apply rsum_le. intros k Hk. apply Rmult_le_compat_l; [left; apply kern_pos|now apply H].
  Qed.
  Lemma over_kernel_scal size c f : over_kernel size (fun i j k => c * f i j k) = c * over_kernel size f.
  Proof.
    unfold over_kernel. rewrite <- rsum_scal. apply rsum_ext. intros i _. rewrite <- rsum_scal. apply rsum_ext. intros j _. rewrite <- rsum_scal. apply rsum_ext. intros k _. ring.
  Qed.
  Lemma smooth_bounded data size p t : in_cube nz ny nx p -> 0 <= t ->
    (forall q v, in_cube nz ny nx q -> within size p q -> at_voxel data q = Fin v -> v <= t) ->
    forall v, at_voxel (smooth nz ny nx data size) p = Fin v -> v <= t.
  Proof.
    destruct p as [[z y] x]. intros I T B v. cbn [at_voxel]. unfold smooth. cbv zeta. set (bottom := over_kernel size (fun i j k => match _ with Some _ => 1 | None => 0 end)). set (top := over_kernel size _).
    assert (LE : top <= t * bottom).
    { unfold top, bottom. rewrite <- over_kernel_scal. apply over_kernel_le. intros i j k Hi Hj Hk. unfold sample.
      match goal with |- context [if ?c then _ else _] => match type of c with bool => destruct c eqn:E end end; [|lra]. rewrite !andb_true_iff, !Nat.leb_le, !Nat.ltb_lt in E.
      destruct (data _ _ _) as [v'| | |] eqn:D; try lra. rewrite Rmult_1_r. apply (B (z + i - size, y + j - size, x + k - size)%nat v'); [cbn; lia|cbn; lia|exact D]. }
    assert (NN : 0 <= bottom).
    { unfold bottom. apply Rle_trans with (over_kernel size (fun _ _ _ => 0)); [right; symmetry; unfold over_kernel; apply rsum_zero; intros; apply rsum_zero; intros; apply rsum_zero; intros; ring|].
      apply over_kernel_le. intros i j k _ _ _. destruct (sample nz ny nx data size z y x i j k); lra. }
    destruct (Reqb_spec bottom 0) as [Z|Z].
    - intros D. apply (B (z, y, x) v I); [cbn; lia|exact D].
    - intros D. injection D as <-. apply Rmult_le_reg_r with bottom; [lra|]. unfold Rdiv. rewrite Rmult_assoc, Rinv_l, Rmult_1_r by exact Z. exact LE.
  Qed.
  Lemma above_iff s clip scale q : at_voxel (above s clip scale) q = true -> (exists v, at_voxel s q = Fin v /\ clip * scale < v) \/ at_voxel s q = PInf.
  Proof.
    destruct q as [[z y] x]. cbn [at_voxel]. unfold above. destruct (s z y x) as [v| | |]; cbn; try discriminate.
    - intros H. left. exists v. split; [reflexivity|]. destruct (Rltb_spec (clip * scale) v); [assumption|discriminate].
    - intros _. now right.
  Qed.
End Masking.

Lemma binary_iff nz ny nx d m p : in_cube nz ny nx p -> at_voxel (binary_dilation nz ny nx d m) p = true <-> exists q, in_cube nz ny nx q /\ (d = 0%nat \/ within d p q) /\ at_voxel m q = true.
Proof.
  intros I. destruct d as [|d].
  - rewrite (saturated nz ny nx m p I). split; intros (q & J & H); exists q; intuition.
  - unfold binary_dilation. rewrite (dilated_iff nz ny nx (S d) m p I). split; intros (q & J & W & H); exists q; intuition discriminate.
Qed.
Lemma masking_iff nz ny nx noise data size clip d : exists mask, moment_masking nz ny nx (Some true) noise data size clip d = Ok mask /\
  forall p, in_cube nz ny nx p -> at_voxel mask p = true <->
    exists q, in_cube nz ny nx q /\ (d = 0%nat \/ within d p q) /\ fltb (Fin (clip * noise (smooth nz ny nx data size))) (at_voxel (smooth nz ny nx data size) q) = true.
Proof.
  eexists. split; [reflexivity|]. intros p I. rewrite (binary_iff _ _ _ _ _ _ I). split; intros ([[z y] x] & H); exists (z, y, x); exact H.
Qed.
Lemma smooth_fin nz ny nx data size p : (forall q, in_cube nz ny nx q -> at_voxel data q <> PInf) -> in_cube nz ny nx p -> at_voxel (smooth nz ny nx data size) p <> PInf.
Proof. intros F I. destruct p as [[z y] x]. cbn [at_voxel]. unfold smooth. cbv zeta. destruct (Reqb _ 0); [exact (F (z, y, x) I)|discriminate]. Qed.
Lemma masking_far nz ny nx noise data size clip d mask p : (forall q, in_cube nz ny nx q -> at_voxel data q <> PInf) ->
  moment_masking nz ny nx (Some true) noise data size clip (S d) = Ok mask -> let threshold := clip * noise (smooth nz ny nx data size) in 0 <= threshold ->
  in_cube nz ny nx p -> at_voxel mask p = true -> exists q v, in_cube nz ny nx q /\ within (size + S d) p q /\ at_voxel data q = Fin v /\ threshold < v.
Proof.
  intros F H t T I M. injection H as <-. apply (binary_iff _ _ _ _ _ _ I) in M. destruct M as (q & J & [W|W] & A); [discriminate|].
  apply above_iff in A. destruct A as [(v & E & L)|E]; [|now apply smooth_fin in E].
  (* otherwise all values near q are at most the threshold *)
  assert (D : (exists q' v', in_cube nz ny nx q' /\ within size q q' /\ at_voxel data q' = Fin v' /\ t < v') \/
              (forall q' v', in_cube nz ny nx q' -> within size q q' -> at_voxel data q' = Fin v' -> v' <= t)).
  { assert (DEC : forall l : list voxel, (exists q' v', In q' l /\ in_cube nz ny nx q' /\ within size q q' /\ at_voxel data q' = Fin v' /\ t < v') \/
        (forall q' v', In q' l -> in_cube nz ny nx q' -> within size q q' -> at_voxel data q' = Fin v' -> v' <= t)).
    { induction l as [|r l IH]; [right; intros ? ? []|]. destruct IH as [(q' & v' & IN & X)|IH]; [left; exists q', v'; split; [now right|exact X]|].
      destruct (at_voxel data r) as [v'| | |] eqn:DR; try (right; intros q' v0 [<-|IN] J' W' E'; [congruence|now apply (IH q' v0)]).
      destruct (Rle_lt_dec v' t) as [LE|GT]; [right; intros q' v0 [<-|IN] J' W' E'; [congruence|now apply (IH q' v0)]|].
      assert (IC : {in_cube nz ny nx r} + {~ in_cube nz ny nx r}) by (destruct r as [[a b] c]; cbn; destruct (lt_dec a nz), (lt_dec b ny), (lt_dec c nx); [left|right..]; lia).
      assert (WI : {within size q r} + {~ within size q r}).
      { destruct q as [[a b] c], r as [[a' b'] c']; cbn. destruct (le_dec a (a' + size)), (le_dec a' (a + size)), (le_dec b (b' + size)), (le_dec b' (b + size)), (le_dec c (c' + size)), (le_dec c' (c + size)); [left|right..]; lia. }
      destruct IC as [IC|IC], WI as [WI|WI]; [left; exists r, v'; repeat split; auto; now left|right; intros q' v0 [<-|IN] J' W' E'; [contradiction|now apply (IH q' v0)]..]. }
    destruct (DEC (list_prod (list_prod (seq 0 nz) (seq 0 ny)) (seq 0 nx))) as [(q' & v' & _ & X)|N]; [left; now exists q', v'|right].
    intros [[a b] c] v' J' W' E'. apply (N (a, b, c) v'); auto. cbn in J'. apply in_prod; [apply in_prod|]; apply in_seq; lia. }
  destruct D as [(q' & v' & J' & W' & E' & G)|N].
  - exists q', v'. repeat split; auto. destruct p as [[? ?] ?], q as [[? ?] ?], q' as [[? ?] ?]. cbn in *. lia.
  - exfalso. pose proof (smooth_bounded nz ny nx data size q t J T N v E). fold t in L. lra.
Qed.

Lemma over_kernel_one size : over_kernel size (fun _ _ _ => 1) = 1.
Proof.
  etransitivity; [|exact (kern_sum size None None)]. unfold over_kernel. cbn [kern_size]. apply rsum_ext. intros i _. apply rsum_ext. intros j _. apply rsum_ext. intros k _. apply Rmult_1_r.
Qed.
Lemma over_kernel_ext size f g : (forall i j k, (i < 2 * size + 1)%nat -> (j < 2 * size + 1)%nat -> (k < 2 * size + 1)%nat -> f i j k = g i j k) -> over_kernel size f = over_kernel size g.
Proof. intros H. unfold over_kernel. apply rsum_ext. intros i Hi. apply rsum_ext. intros j Hj. apply rsum_ext. intros k Hk. now rewrite H. Qed.
Lemma over_kernel_gt size t f : (forall i j k, (i < 2 * size + 1)%nat -> (j < 2 * size + 1)%nat -> (k < 2 * size + 1)%nat -> t < f i j k) -> t < over_kernel size f.
Proof.
  intros H. assert (P : 0 < over_kernel size (fun i j k => f i j k - t)).
  { unfold over_kernel. apply rsum_pos; [lia|]. intros i Hi. apply rsum_pos; [lia|]. intros j Hj. apply rsum_pos; [lia|]. intros k Hk. apply Rmult_lt_0_compat; [apply kern_pos|]. specialize (H i j k Hi Hj Hk). lra. }
  assert (E : over_kernel size (fun i j k => f i j k - t) = over_kernel size f - t).
  { replace (over_kernel size f - t) with (over_kernel size f - over_kernel size (fun _ _ _ => t * 1)) by (rewrite (over_kernel_scal size t (fun _ _ _ => 1)), over_kernel_one; ring). unfold over_kernel. rewrite <- rsum_minus. apply rsum_ext. intros i _. rewrite <- rsum_minus. apply rsum_ext. intros j _. rewrite <- rsum_minus. apply rsum_ext. intros k _. ring. }
  lra.
Qed.
Lemma smooth_bright nz ny nx data size t z y x : (size <= z)%nat -> (z + size < nz)%nat -> (size <= y)%nat -> (y + size < ny)%nat -> (size <= x)%nat -> (x + size < nx)%nat ->
  (forall q, in_cube nz ny nx q -> within size (z, y, x) q -> exists v, at_voxel data q = Fin v /\ t < v) -> fltb (Fin t) (smooth nz ny nx data size z y x) = true.
Proof.
  intros Z1 Z2 Y1 Y2 X1 X2 H. unfold smooth. cbv zeta.
  assert (S : forall i j k, (i < 2 * size + 1)%nat -> (j < 2 * size + 1)%nat -> (k < 2 * size + 1)%nat -> exists v, sample nz ny nx data size z y x i j k = Some v /\ t < v).
  { intros i j k Hi Hj Hk. destruct (H (z + i - size, y + j - size, x + k - size)%nat) as (v & E & L); [cbn; lia|cbn; lia|]. exists v. split; [|exact L]. unfold sample. cbn [at_voxel] in E. rewrite E.
    match goal with |- (if ?c then _ else _) = _ => replace c with true; [reflexivity|symmetry] end. rewrite !andb_true_iff, !Nat.leb_le, !Nat.ltb_lt. lia. }
  rewrite (over_kernel_ext size (fun i j k => match sample nz ny nx data size z y x i j k with Some _ => 1 | None => 0 end) (fun _ _ _ => 1)) by (intros i j k Hi Hj Hk; destruct (S i j k Hi Hj Hk) as (v & -> & _); reflexivity).
  rewrite over_kernel_one. destruct (Reqb_spec 1 0); [lra|]. cbn [fltb]. unfold Rdiv; rewrite Rinv_1, Rmult_1_r. match goal with |- Rltb t ?s = true => destruct (Rltb_spec t s) as [L|L]; [reflexivity|exfalso; apply L] end.
  apply over_kernel_gt. intros i j k Hi Hj Hk. destruct (S i j k Hi Hj Hk) as (v & -> & L'). exact L'.
Qed.
Lemma masking_bright nz ny nx noise data size clip d mask z y x p : moment_masking nz ny nx (Some true) noise data size clip d = Ok mask ->
  let threshold := clip * noise (smooth nz ny nx data size) in
  (size <= z)%nat -> (z + size < nz)%nat -> (size <= y)%nat -> (y + size < ny)%nat -> (size <= x)%nat -> (x + size < nx)%nat ->
  (forall q, in_cube nz ny nx q -> within size (z, y, x) q -> exists v, at_voxel data q = Fin v /\ threshold < v) ->
  in_cube nz ny nx p -> within d p (z, y, x) -> at_voxel mask p = true.
Proof.
  intros H t Z1 Z2 Y1 Y2 X1 X2 B I W. destruct (masking_iff nz ny nx noise data size clip d) as (mask' & E & M). rewrite H in E. injection E as <-. apply (M p I).
  exists (z, y, x). split; [cbn; lia|]. split; [now right|]. now apply smooth_bright.
Qed.
