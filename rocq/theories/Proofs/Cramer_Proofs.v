(** Proofs about Model/Cramer.v (C21, C22). *)
From Coq Require Import Reals List ZArith Lia Lra Arith Bool Permutation.
From Coquelicot Require Import Coquelicot.
From Verif Require Import Lib.PyBase Lib.RSum Spec.Energy Model.Cramer.
Import ListNotations.
Local Open Scope R_scope.

Lemma root_dist_sym d x y : root_dist d x y = root_dist d y x.
Proof. unfold root_dist. do 2 f_equal. apply rsum_ext. intros; ring. Qed.

Lemma root_dist_self d x : root_dist d x x = 0.
Proof.
  unfold root_dist. rewrite rsum_zero by (intros; ring). now rewrite !sqrt_0.
Qed.

(** The value in closed form. *)
Definition energy (d m n : nat) (X Y : matrix) : R :=
  INR m * INR n / (INR m + INR n) *
  (rsum m (fun i => rsum n (fun j => root_dist d (X i) (Y j))) / (INR m * INR n)
   - rsum m (fun i => rsum m (fun j => root_dist d (X i) (X j))) / (2 * INR m ^ 2)
   - rsum n (fun i => rsum n (fun j => root_dist d (Y i) (Y j))) / (2 * INR n ^ 2)).

Lemma rsum_ltb m n f : (n <= m)%nat -> rsum m (fun i => if Nat.ltb i n then f i else 0) = rsum n f.
Proof.
  intros H. replace m with (n + (m - n))%nat by lia. rewrite rsum_split.
  rewrite (rsum_zero (m - n)).
  - rewrite Rplus_0_r. apply rsum_ext. intros i Hi. destruct (Nat.ltb_spec i n); [reflexivity|lia].
  - intros i Hi. destruct (Nat.ltb_spec (n + i) n); [lia|reflexivity].
Qed.

Lemma cramer_loops_energy d m n X Y : (n <= m)%nat -> cramer_loops d m n X Y = energy d m n X Y.
Proof.
  intros H. unfold cramer_loops, energy. cbv zeta.
  rewrite (rsum_ltb m n (fun i => rsum n (fun jj => root_dist d (Y i) (Y jj)))) by auto.
  unfold Rdiv. rewrite !Rmult_1_l. reflexivity.
Qed.

Lemma energy_sym d m n X Y : energy d m n X Y = energy d n m Y X.
Proof.
  unfold energy.
  assert (E : rsum m (fun i => rsum n (fun j => root_dist d (X i) (Y j))) =
              rsum n (fun i => rsum m (fun j => root_dist d (Y i) (X j)))).
  { rewrite rsum_exchange. apply rsum_ext. intros i Hi. apply rsum_ext. intros j Hj. apply root_dist_sym. }
  rewrite E. rewrite (Rplus_comm (INR m) (INR n)), (Rmult_comm (INR m) (INR n)).
  set (a := _ / (INR n * INR m)). set (b := _ / (2 * INR m ^ 2)). set (c := _ / (2 * INR n ^ 2)). f_equal. ring.
Qed.

Lemma cramer_value m1 m2 d X Y : (1 <= m1)%nat -> (1 <= m2)%nat ->
  cramer_statistic m1 d X m2 d Y = Ok (energy d m1 m2 X Y).
Proof.
  intros H1 H2. unfold cramer_statistic. rewrite Nat.eqb_refl.
  destruct (Nat.eqb_spec m1 0); [lia|]. destruct (Nat.eqb_spec m2 0); [lia|]. cbn [orb negb].
  destruct (Nat.leb_spec m2 m1).
  - now rewrite cramer_loops_energy.
  - rewrite cramer_loops_energy by lia. now rewrite energy_sym.
Qed.

Lemma cramer_sym m1 d1 X m2 d2 Y : cramer_statistic m1 d1 X m2 d2 Y = cramer_statistic m2 d2 Y m1 d1 X.
Proof.
  unfold cramer_statistic. rewrite (orb_comm (m1 =? 0)%nat), (Nat.eqb_sym d1 d2).
  destruct (_ || _ || negb (d2 =? d1)%nat) eqn:E; [reflexivity|].
  apply orb_false_elim in E. destruct E as [_ E]. apply negb_false_iff, Nat.eqb_eq in E. subst d2.
  destruct (Nat.leb_spec m2 m1); destruct (Nat.leb_spec m1 m2); try lia; try reflexivity.
  assert (m1 = m2) by lia. subst. rewrite !cramer_loops_energy by auto. now rewrite energy_sym.
Qed.

Lemma INR_ge1 m : (1 <= m)%nat -> 1 <= INR m.
Proof. intros H. apply (le_INR 1 m) in H. exact H. Qed.

Lemma cramer_self m d X : (1 <= m)%nat -> cramer_statistic m d X m d X = Ok 0.
Proof.
  intros H. rewrite cramer_value by auto. f_equal. unfold energy. assert (Hm := INR_ge1 m H). field. lra.
Qed.

(** Rows permuted, and a common vector added to all rows. *)
Lemma rsum_perm n (p : nat -> nat) f : (forall i, (i < n)%nat -> (p i < n)%nat) ->
  (forall i j, (i < n)%nat -> (j < n)%nat -> p i = p j -> i = j) ->
  rsum n (fun i => f (p i)) = rsum n f.
Proof. apply rsum_reindex. Qed.

Lemma cramer_permuted m1 d1 X m2 d2 Y (p q : nat -> nat) :
  (forall i, (i < m1)%nat -> (p i < m1)%nat) -> (forall i j, (i < m1)%nat -> (j < m1)%nat -> p i = p j -> i = j) ->
  (forall i, (i < m2)%nat -> (q i < m2)%nat) -> (forall i j, (i < m2)%nat -> (j < m2)%nat -> q i = q j -> i = j) ->
  cramer_statistic m1 d1 (fun i => X (p i)) m2 d2 (fun i => Y (q i)) = cramer_statistic m1 d1 X m2 d2 Y.
Proof.
  intros P1 P2 Q1 Q2. destruct (Nat.eq_dec d1 d2) as [->|N].
  2: { unfold cramer_statistic. apply Nat.eqb_neq in N. rewrite N. now rewrite !orb_true_r. }
  destruct m1 as [|m1]; [reflexivity|]. destruct m2 as [|m2]; [reflexivity|].
  rewrite !cramer_value by lia. f_equal. unfold energy.
  assert (E : forall a b (A B : matrix) (u v : nat -> nat),
    (forall i, (i < a)%nat -> (u i < a)%nat) -> (forall i j, (i < a)%nat -> (j < a)%nat -> u i = u j -> i = j) ->
    (forall i, (i < b)%nat -> (v i < b)%nat) -> (forall i j, (i < b)%nat -> (j < b)%nat -> v i = v j -> i = j) ->
    rsum a (fun i => rsum b (fun j => root_dist d2 (A (u i)) (B (v j)))) = rsum a (fun i => rsum b (fun j => root_dist d2 (A i) (B j)))).
  { intros a b A B u v U1 U2 V1 V2. rewrite (rsum_perm a u (fun i => rsum b (fun j => root_dist d2 (A i) (B (v j))))) by auto.
    apply rsum_ext. intros i Hi. apply (rsum_perm b v (fun j => root_dist d2 (A i) (B j))); auto. }
  rewrite (E (S m1) (S m2) X Y p q), (E (S m1) (S m1) X X p p), (E (S m2) (S m2) Y Y q q) by auto. reflexivity.
Qed.

Lemma cramer_translated m1 d1 X m2 d2 Y (v : nat -> R) :
  cramer_statistic m1 d1 (fun i k => X i k + v k) m2 d2 (fun i k => Y i k + v k) = cramer_statistic m1 d1 X m2 d2 Y.
Proof.
  destruct (Nat.eq_dec d1 d2) as [->|N].
  2: { unfold cramer_statistic. apply Nat.eqb_neq in N. rewrite N. now rewrite !orb_true_r. }
  destruct m1 as [|m1]; [reflexivity|]. destruct m2 as [|m2]; [reflexivity|].
  rewrite !cramer_value by lia. f_equal.
  assert (E : forall x y, root_dist d2 (fun k => x k + v k) (fun k => y k + v k) = root_dist d2 x y).
  { intros x y. unfold root_dist. do 2 f_equal. apply rsum_ext. intros; ring. }
  assert (F : forall a b (A B : matrix), rsum a (fun i => rsum b (fun j => root_dist d2 (fun k => A i k + v k) (fun k => B j k + v k)))
     = rsum a (fun i => rsum b (fun j => root_dist d2 (A i) (B j)))).
  { intros a b A B. apply rsum_ext. intros i Hi. apply rsum_ext. intros j Hj. apply E. }
  unfold energy. now rewrite (F (S m1) (S m2) X Y), (F (S m1) (S m1) X X), (F (S m2) (S m2) Y Y).
Qed.

(** ** Non-negativity: sqrt of the Euclidean distance is conditionally negative
    definite.  Kernels on N points; [psd] is positive semi-definiteness. *)

Section Kernels.
Variable N : nat.
Definition quad (c : nat -> R) (K : nat -> nat -> R) : R := rsum N (fun i => rsum N (fun j => c i * c j * K i j)).
Definition psd (K : nat -> nat -> R) : Prop := forall c, 0 <= quad c K.

Lemma quad_ext c K L : (forall i j, (i < N)%nat -> (j < N)%nat -> K i j = L i j) -> quad c K = quad c L.
Proof. intros H. apply rsum_ext. intros i Hi. apply rsum_ext. intros j Hj. now rewrite H. Qed.

Lemma quad_plus c K L : quad c (fun i j => K i j + L i j) = quad c K + quad c L.
Proof.
  unfold quad. rewrite <- rsum_plus. apply rsum_ext. intros i Hi. rewrite <- rsum_plus. apply rsum_ext. intros; ring.
Qed.

Lemma quad_scal c a K : quad c (fun i j => a * K i j) = a * quad c K.
Proof.
  unfold quad. rewrite <- rsum_scal. apply rsum_ext. intros i Hi. rewrite <- rsum_scal. apply rsum_ext. intros; ring.
Qed.

Lemma quad_one c : rsum N c = 0 -> quad c (fun _ _ => 1) = 0.
Proof.
  intros H. unfold quad.
  rewrite (rsum_ext N _ (fun i => c i * rsum N c)).
  - rewrite H. apply rsum_zero. intros; ring.
  - intros i Hi. rewrite <- rsum_scal. apply rsum_ext. intros; ring.
Qed.

(** Finite Gram kernels: closed under sums, products and positive scaling. *)
Definition gram (K : nat -> nat -> R) : Prop :=
  exists D (phi : nat -> nat -> R), forall i j, K i j = rsum D (fun k => phi k i * phi k j).

Lemma gram_psd K : gram K -> psd K.
Proof.
  intros [D [phi H]] c.
  assert (E : quad c K = rsum D (fun k => (rsum N (fun i => c i * phi k i)) * (rsum N (fun j => c j * phi k j)))).
  { unfold quad.
    rewrite (rsum_ext D _ (fun k => rsum N (fun i => rsum N (fun j => c i * phi k i * (c j * phi k j)))))
      by (intros; apply rsum_mult).
    rewrite (rsum_exchange D N). apply rsum_ext. intros i Hi. rewrite (rsum_exchange D N). apply rsum_ext. intros j Hj.
    rewrite H, <- rsum_scal. apply rsum_ext. intros; ring. }
  rewrite E. apply rsum_nonneg. intros k Hk. apply Rle_0_sqr.
Qed.

Lemma gram_plus K L : gram K -> gram L -> gram (fun i j => K i j + L i j).
Proof.
  intros [D [phi HK]] [E [psi HL]]. exists (D + E)%nat, (fun k i => if Nat.ltb k D then phi k i else psi (k - D)%nat i).
  intros i j. rewrite rsum_split, HK, HL. f_equal; apply rsum_ext; intros k Hk.
  - destruct (Nat.ltb_spec k D); [reflexivity|lia].
  - destruct (Nat.ltb_spec (D + k) D); [lia|]. now replace (D + k - D)%nat with k by lia.
Qed.

Lemma gram_scal a K : 0 <= a -> gram K -> gram (fun i j => a * K i j).
Proof.
  intros Ha [D [phi HK]]. exists D, (fun k i => sqrt a * phi k i). intros i j. rewrite HK, <- rsum_scal.
  apply rsum_ext. intros k Hk. rewrite <- (sqrt_sqrt a Ha) at 1. ring.
Qed.

Lemma gram_mult K L : gram K -> gram L -> gram (fun i j => K i j * L i j).
Proof.
  intros [D [phi HK]] [E [psi HL]].
  exists (D * E)%nat, (fun k i => phi (k / E)%nat i * psi (k mod E)%nat i). intros i j. rewrite HK, HL, rsum_mult.
  assert (F : forall n m (f : nat -> nat -> R), rsum n (fun i => rsum m (f i)) = rsum (n * m) (fun k => f (k / m)%nat (k mod m)%nat)).
  { clear. induction n as [|n IH]; intros m f; [reflexivity|]. cbn [rsum]. rewrite IH.
    replace (S n * m)%nat with (n * m + m)%nat by lia. rewrite rsum_split. f_equal.
    apply rsum_ext. intros j Hj. f_equal.
    - rewrite Nat.add_comm, Nat.div_add by lia. now rewrite Nat.div_small.
    - rewrite Nat.add_comm, Nat.mod_add by lia. now rewrite Nat.mod_small. }
  rewrite (F D E (fun a b => phi a i * phi a j * (psi b i * psi b j))). apply rsum_ext. intros; ring.
Qed.

Lemma gram_rank1 f : gram (fun i j => f i * f j).
Proof. exists 1%nat, (fun _ => f). intros i j. cbn. ring. Qed.

Lemma gram_zero : gram (fun _ _ => 0).
Proof. exists 0%nat, (fun _ _ => 0). reflexivity. Qed.

Lemma gram_ext K L : gram K -> (forall i j, K i j = L i j) -> gram L.
Proof. intros [D [phi H]] E. exists D, phi. intros i j. now rewrite <- E. Qed.

(** Polynomials with non-negative coefficients increasing to 1 - sqrt(1 - w). *)
Fixpoint poly (n : nat) (w : R) : R := match n with O => 0 | S m => (w + poly m w * poly m w) / 2 end.

Lemma gram_poly n K : gram K -> gram (fun i j => poly n (K i j)).
Proof.
  intros H. induction n as [|n IH]; [exact gram_zero|]. cbn [poly].
  eapply gram_ext; [apply (gram_scal (/ 2)); [lra|]; apply gram_plus; [exact H|]; apply gram_mult; exact IH|].
  intros i j. cbv beta. field.
Qed.

Definition root_gap (w : R) : R := 1 - sqrt (1 - w).

Lemma root_gap_spec w : 0 <= w <= 1 -> 0 <= root_gap w <= 1 /\ root_gap w = (w + root_gap w * root_gap w) / 2.
Proof.
  intros H. unfold root_gap. assert (S := sqrt_sqrt (1 - w) ltac:(lra)). assert (P := sqrt_pos (1 - w)).
  assert (sqrt (1 - w) <= 1) by nra. split; [lra|nra].
Qed.

Lemma poly_bounds n w : 0 <= w <= 1 -> 0 <= poly n w <= root_gap w.
Proof.
  intros H. destruct (root_gap_spec w H) as [B E]. induction n as [|n IH]; cbn [poly]; [lra|]. nra.
Qed.

Lemma poly_rate n w : 0 <= w <= 1 -> root_gap w - poly n w <= 2 / INR (n + 1).
Proof.
  intros H. destruct (root_gap_spec w H) as [B E]. induction n as [|n IH].
  - cbn. lra.
  - cbn [poly]. assert (Bn := poly_bounds n w H). set (r := root_gap w) in *. set (q := poly n w) in *.
    destruct n as [|n].
    + subst q. cbn [poly] in *. replace (INR (1 + 1)) with 2 by (cbn; ring). nra.
    + assert (Hn : 1 <= INR (S n)) by (rewrite S_INR; pose proof (pos_INR n); lra).
      set (x := INR (S n)) in *. rewrite plus_INR in IH. fold x in IH. cbn [INR] in IH.
      replace (INR (S (S n) + 1)) with (x + 2) by (unfold x; rewrite plus_INR, (S_INR (S n)); cbn [INR]; ring).
      set (e := r - q) in *. assert (He : 0 <= e) by (unfold e; lra).
      assert (Eq : r - (w + q * q) / 2 = e * (r + q) / 2) by (unfold e; rewrite E at 1; field).
      rewrite Eq. assert (Hb : e * (r + q) / 2 <= e * (1 - e / 2)) by (unfold e; nra).
      set (b := 2 / (x + 1)) in *.
      assert (Hb1 : b * (x + 1) = 2) by (unfold b; field; lra).
      assert (Hb2 : b <= 1) by nra.
      assert (Hm : e * (1 - e / 2) <= b * (1 - b / 2)) by nra.
      apply Rle_trans with (b * (1 - b / 2)); [lra|].
      apply Rmult_le_reg_r with (x + 2); [lra|]. replace (2 / (x + 2) * (x + 2)) with 2 by (field; lra).
      assert (b * (1 - b / 2) * ((x + 1) * (x + 1)) = 2 * x).
      { replace (b * (1 - b / 2) * ((x + 1) * (x + 1))) with ((b * (x + 1)) * ((x + 1) - (b * (x + 1)) / 2)) by field.
        rewrite Hb1. field. }
      assert (0 <= b * (1 - b / 2)) by nra. nra.
Qed.

Lemma poly_cv w : 0 <= w <= 1 -> Un_cv (fun n => poly n w) (root_gap w).
Proof.
  intros H eps He. assert (HM0 : exists M, 2 / eps < INR M).
  { exists (Z.to_nat (up (2 / eps))). destruct (archimed (2 / eps)) as [A _]. rewrite INR_IZR_INZ, Z2Nat.id; [lra|].
    apply le_IZR. assert (0 < 2 / eps) by (apply Rdiv_lt_0_compat; lra). lra. }
  destruct HM0 as [M HM]. exists M. intros n Hn.
  unfold R_dist. assert (B := poly_bounds n w H). assert (T := poly_rate n w H).
  rewrite Rabs_left1 by lra. apply Rle_lt_trans with (2 / INR (n + 1)); [lra|].
  assert (INR M <= INR n) by (apply le_INR; lia). assert (INR (n + 1) = INR n + 1) by (rewrite plus_INR; reflexivity).
  assert (0 < 2 / eps) by (apply Rdiv_lt_0_compat; lra).
  apply Rmult_lt_reg_r with (INR (n + 1)); [lra|]. replace (2 / INR (n + 1) * INR (n + 1)) with 2 by (field; lra).
  assert (2 / eps * eps = 2) by (field; lra). nra.
Qed.

Lemma poly_poly_cv m w : 0 <= w <= 1 -> Un_cv (fun n => poly m (poly n w)) (poly m (root_gap w)).
Proof.
  intros H. induction m as [|m IH]; cbn [poly].
  - intros eps He. exists 0%nat. intros. unfold R_dist. rewrite Rminus_0_r, Rabs_R0. lra.
  - unfold Rdiv. apply (CV_mult (fun n => poly n w + poly m (poly n w) * poly m (poly n w)) (fun _ => / 2)).
    + apply CV_plus; [now apply poly_cv|]. now apply CV_mult.
    + intros eps He. exists 0%nat. intros. unfold R_dist. rewrite Rminus_eq_0, Rabs_R0. lra.
Qed.

Lemma rsum_cv n (f : nat -> nat -> R) (l : nat -> R) :
  (forall i, (i < n)%nat -> Un_cv (fun k => f k i) (l i)) -> Un_cv (fun k => rsum n (f k)) (rsum n l).
Proof.
  intros H. induction n as [|n IH]; cbn [rsum].
  - intros eps He. exists 0%nat. intros. unfold R_dist. rewrite Rminus_0_r, Rabs_R0. lra.
  - apply CV_plus; [apply IH; auto|apply H; lia].
Qed.

Lemma const_cv a : Un_cv (fun _ => a) a.
Proof. intros eps He. exists 0%nat. intros. unfold R_dist. rewrite Rminus_eq_0, Rabs_R0. lra. Qed.

Lemma quad_cv c (Kn : nat -> nat -> nat -> R) K :
  (forall i j, (i < N)%nat -> (j < N)%nat -> Un_cv (fun n => Kn n i j) (K i j)) ->
  Un_cv (fun n => quad c (Kn n)) (quad c K).
Proof.
  intros H. unfold quad. apply rsum_cv. intros i Hi. apply rsum_cv. intros j Hj.
  apply (CV_mult (fun _ => c i * c j) (fun n => Kn n i j)); [apply const_cv|auto].
Qed.

Lemma cv_nonneg u l : Un_cv u l -> (forall n, 0 <= u n) -> 0 <= l.
Proof.
  intros H P. destruct (Rle_or_lt 0 l) as [|L]; auto. destruct (H (- l) ltac:(lra)) as [M HM].
  specialize (HM M (le_n M)). specialize (P M). unfold R_dist in HM. apply Rabs_def2 in HM. lra.
Qed.

(** 1 - (1 - w)^(1/4) is positive semi-definite for a Gram kernel w in [0, 1]. *)
Lemma fourth_root_psd K : gram K -> (forall i j, (i < N)%nat -> (j < N)%nat -> 0 <= K i j <= 1) ->
  forall c, 0 <= quad c (fun i j => 1 - sqrt (sqrt (1 - K i j))).
Proof.
  intros G B c.
  assert (P1 : forall m, 0 <= quad c (fun i j => poly m (root_gap (K i j)))).
  { intros m. apply (cv_nonneg (fun n => quad c (fun i j => poly m (poly n (K i j))))).
    - apply quad_cv. intros i j Hi Hj. apply poly_poly_cv. auto.
    - intros n. apply gram_psd. apply (gram_poly m (fun i j => poly n (K i j))). now apply gram_poly. }
  apply (cv_nonneg (fun m => quad c (fun i j => poly m (root_gap (K i j))))); [|exact P1].
  apply quad_cv. intros i j Hi Hj.
  assert (R := root_gap_spec (K i j) (B i j Hi Hj)).
  replace (1 - sqrt (sqrt (1 - K i j))) with (root_gap (root_gap (K i j))).
  - apply poly_cv. tauto.
  - unfold root_gap. do 2 f_equal. ring_simplify (1 - (1 - sqrt (1 - K i j))). reflexivity.
Qed.

(** The points and the normalised kernel. *)
Variable d : nat.
Variable z : nat -> nat -> R.
Definition dot (i j : nat) : R := rsum d (fun k => z i k * z j k).
Definition sqd (i j : nat) : R := rsum d (fun k => (z i k - z j k) * (z i k - z j k)).
Definition ker (t : R) (i j : nat) : R := (1 + t * dot i j) / (sqrt (1 + t * dot i i) * sqrt (1 + t * dot j j)).
Definition slope (t : R) (i j : nat) : R :=
  let AB := sqrt (1 + t * dot i i) * sqrt (1 + t * dot j j) in
  (sqd i j + t * (dot i i * dot j j - dot i j * dot i j)) / (AB * (AB + 1 + t * dot i j)).

Lemma dot_nonneg i : 0 <= dot i i.
Proof. apply rsum_nonneg. intros. apply Rle_0_sqr. Qed.

Lemma dot_cs i j : dot i j * dot i j <= dot i i * dot j j.
Proof.
  pose proof (rsum_cauchy_schwarz d (z i) (z j)) as H. unfold dot, Rsqr in *. exact H.
Qed.

Lemma sqd_dot i j : sqd i j = dot i i + dot j j - 2 * dot i j.
Proof.
  unfold sqd, dot. rewrite <- rsum_scal, <- rsum_plus, <- rsum_minus. apply rsum_ext. intros; ring.
Qed.

Lemma sqd_nonneg i j : 0 <= sqd i j.
Proof. apply rsum_nonneg. intros. apply Rle_0_sqr. Qed.

Lemma ker_gram t : 0 <= t -> gram (ker t).
Proof.
  intros Ht.
  set (f := fun i => / sqrt (1 + t * dot i i)).
  assert (G : gram (fun i j => f i * f j * (1 + t * dot i j))).
  { apply (gram_mult (fun i j => f i * f j) (fun i j => 1 + t * dot i j)); [apply gram_rank1|].
    apply (gram_plus (fun _ _ => 1) (fun i j => t * dot i j)).
    - exists 1%nat, (fun _ _ => 1). intros. cbn. ring.
    - apply (gram_scal t dot); auto. exists d, (fun k i => z i k). reflexivity. }
  eapply gram_ext; [exact G|]. intros i j. unfold ker, f. cbv beta.
  assert (P : forall i, 0 < sqrt (1 + t * dot i i)).
  { intros k. apply sqrt_lt_R0. pose proof (dot_nonneg k). nra. }
  pose proof (P i). pose proof (P j). field. lra.
Qed.

Section Small.
Variable t : R.
Hypothesis Ht : 0 < t.
Variables i j : nat.
Hypothesis Hp : 0 <= 1 + t * dot i j.
Let A := sqrt (1 + t * dot i i).
Let B := sqrt (1 + t * dot j j).

Lemma AB_facts : 1 <= A /\ 1 <= B /\ A * A = 1 + t * dot i i /\ B * B = 1 + t * dot j j.
Proof.
  pose proof (dot_nonneg i). pose proof (dot_nonneg j).
  assert (0 <= t * dot i i) by nra. assert (0 <= t * dot j j) by nra.
  repeat split.
  - unfold A. rewrite <- sqrt_1 at 1. apply sqrt_le_1_alt. lra.
  - unfold B. rewrite <- sqrt_1 at 1. apply sqrt_le_1_alt. lra.
  - apply sqrt_sqrt. lra.
  - apply sqrt_sqrt. lra.
Qed.

Lemma ker_slope : 1 - ker t i j = t * slope t i j.
Proof.
  destruct AB_facts as (HA & HB & EA & EB). unfold ker, slope. cbv zeta. fold A. fold B. rewrite sqd_dot.
  set (p := dot i j) in *. set (a := dot i i) in *. set (b := dot j j) in *.
  assert (AB : (A * B) * (A * B) = (1 + t * a) * (1 + t * b)) by (rewrite <- EA, <- EB; ring).
  assert (1 <= A * B) by nra.
  apply Rmult_eq_reg_r with (A * B * (A * B + 1 + t * p)); [|nra].
  replace ((1 - (1 + t * p) / (A * B)) * (A * B * (A * B + 1 + t * p))) with ((A * B) * (A * B) - (1 + t * p) * (1 + t * p)) by (field; lra).
  rewrite AB. field. split; [lra|split;lra].
Qed.

Lemma slope_nonneg : 0 <= slope t i j.
Proof.
  destruct AB_facts as (HA & HB & EA & EB). unfold slope. cbv zeta. fold A. fold B.
  pose proof (dot_cs i j). pose proof (sqd_nonneg i j). assert (1 <= A * B) by nra.
  unfold Rdiv. apply Rmult_le_pos; [nra|]. left. apply Rinv_0_lt_compat. nra.
Qed.

Lemma ker_range : 0 <= ker t i j <= 1.
Proof.
  split.
  - destruct AB_facts as (HA & HB & EA & EB). unfold ker. fold A. fold B. unfold Rdiv. apply Rmult_le_pos; auto.
    left. apply Rinv_0_lt_compat. nra.
  - pose proof ker_slope. pose proof slope_nonneg. nra.
Qed.
End Small.

Lemma slope_quad c t : rsum N c = 0 -> 0 < t -> (forall i j, (i < N)%nat -> (j < N)%nat -> 0 <= 1 + t * dot i j) ->
  quad c (fun i j => sqrt (sqrt (slope t i j))) <= 0.
Proof.
  intros Hc Ht Hp.
  assert (Q := fourth_root_psd (ker t) (ker_gram t (Rlt_le _ _ Ht)) (fun i j Hi Hj => ker_range t Ht i j (Hp i j Hi Hj)) c).
  rewrite (quad_ext c _ (fun i j => 1 + (- sqrt (sqrt t)) * sqrt (sqrt (slope t i j)))) in Q.
  - rewrite quad_plus, quad_scal, quad_one in Q by auto.
    assert (0 < sqrt (sqrt t)) by (apply sqrt_lt_R0, sqrt_lt_R0; auto). nra.
  - intros i j Hi Hj. rewrite (ker_slope t Ht i j (Hp i j Hi Hj)).
    rewrite sqrt_mult; [|lra|apply slope_nonneg; auto]. rewrite sqrt_mult by apply sqrt_pos. ring.
Qed.

Lemma rsum_continuous n (f : nat -> R -> R) x : (forall i, (i < n)%nat -> continuous (f i) x) ->
  continuous (fun t => rsum n (fun i => f i t)) x.
Proof.
  intros H. induction n as [|n IH]; cbn [rsum]; [apply continuous_const|].
  apply (continuous_plus (fun t => rsum n (fun i => f i t)) (f n)); auto.
Qed.

Lemma slope_continuous i j : continuous (fun t => slope t i j) 0.
Proof.
  apply (ex_derive_continuous (fun t => slope t i j)). unfold slope. cbv zeta. auto_derive.
  rewrite !Rmult_0_l, !Rplus_0_r, sqrt_1. repeat split; lra.
Qed.

Lemma slope_0 i j : slope 0 i j = sqd i j / 2.
Proof. unfold slope. cbv zeta. rewrite !Rmult_0_l, !Rplus_0_r, sqrt_1. field. Qed.

Lemma dot_small : exists delta, 0 < delta /\ forall t i j, 0 < t <= delta -> (i < N)%nat -> (j < N)%nat -> 0 <= 1 + t * dot i j.
Proof.
  set (M := rsum N (fun i => rsum N (fun j => Rabs (dot i j)))).
  assert (HM : 0 <= M) by (apply rsum_nonneg; intros; apply rsum_nonneg; intros; apply Rabs_pos).
  exists (/ (1 + M)). split; [apply Rinv_0_lt_compat; lra|]. intros t i j Ht Hi Hj.
  assert (L : Rabs (dot i j) <= M).
  { eapply Rle_trans; [|apply (rsum_term_le N (fun i => rsum N (fun j => Rabs (dot i j)))); [|exact Hi]].
    - apply (rsum_term_le N (fun j => Rabs (dot i j))); auto. intros. apply Rabs_pos.
    - intros. apply rsum_nonneg. intros. apply Rabs_pos. }
  assert (t * (1 + M) <= 1).
  { apply Rle_trans with (/ (1 + M) * (1 + M)); [apply Rmult_le_compat_r; lra|]. rewrite Rinv_l; lra. }
  assert (- Rabs (dot i j) <= dot i j) by (pose proof (Rle_abs (- dot i j)); rewrite Rabs_Ropp in *; lra). nra.
Qed.

Lemma root_distance_cnd c : rsum N c = 0 -> quad c (fun i j => sqrt (sqrt (sqd i j))) <= 0.
Proof.
  intros Hc.
  set (G := fun t => quad c (fun i j => sqrt (sqrt (slope t i j)))).
  assert (CG : continuous G 0).
  { unfold G, quad. apply (rsum_continuous N (fun i t => rsum N (fun j => c i * c j * sqrt (sqrt (slope t i j))))). intros i Hi.
    apply (rsum_continuous N (fun j t => c i * c j * sqrt (sqrt (slope t i j)))). intros j Hj.
    apply (continuous_mult (fun _ => c i * c j) (fun t => sqrt (sqrt (slope t i j)))); [apply continuous_const|].
    apply (continuous_comp (fun t => sqrt (slope t i j)) sqrt); [|apply continuous_sqrt].
    apply (continuous_comp (fun t => slope t i j) sqrt); [apply slope_continuous|apply continuous_sqrt]. }
  assert (G0 : G 0 <= 0).
  { destruct (Rle_or_lt (G 0) 0) as [|L]; auto. exfalso.
    destruct dot_small as [delta [Hd1 Hd2]].
    assert (O : locally (G 0) (fun y => 0 < y)).
    { exists (mkposreal _ L). intros y Hy. unfold ball in Hy. cbn in Hy. unfold AbsRing_ball in Hy. cbn in Hy.
      unfold abs, minus, plus, opp in Hy. cbn in Hy. apply Rabs_def2 in Hy. lra. }
    destruct (CG _ O) as [eps He].
    set (t := Rmin (eps / 2) delta).
    assert (Heps : 0 < eps) by apply cond_pos.
    assert (Ht : 0 < t) by (unfold t; apply Rmin_pos; lra).
    assert (Ht2 : t <= delta) by apply Rmin_r. assert (Ht3 : t <= eps / 2) by apply Rmin_l.
    assert (P : 0 < G t).
    { apply He. unfold ball. cbn. unfold AbsRing_ball, abs, minus, plus, opp. cbn.
      rewrite Ropp_0, Rplus_0_r, Rabs_pos_eq by lra. lra. }
    assert (Q := slope_quad c t Hc Ht (fun i j Hi Hj => Hd2 t i j (conj Ht Ht2) Hi Hj)). unfold G in P. lra. }
  unfold G in G0.
  rewrite (quad_ext c _ (fun i j => / sqrt (sqrt 2) * sqrt (sqrt (sqd i j)))) in G0.
  - rewrite quad_scal in G0. assert (0 < / sqrt (sqrt 2)) by (apply Rinv_0_lt_compat, sqrt_lt_R0, sqrt_lt_R0; lra). nra.
  - intros i j Hi Hj. rewrite slope_0. rewrite sqrt_div_alt by lra. rewrite sqrt_div_alt by (apply sqrt_lt_R0; lra).
    unfold Rdiv. ring.
Qed.

End Kernels.

Lemma energy_nonneg d m n X Y : (1 <= m)%nat -> (1 <= n)%nat -> 0 <= energy d m n X Y.
Proof.
  intros Hm Hn. assert (Im := INR_ge1 m Hm). assert (In := INR_ge1 n Hn).
  set (zz := fun i => if Nat.ltb i m then X i else Y (i - m)%nat).
  set (c := fun i => if Nat.ltb i m then / INR m else - / INR n).
  assert (Z1 : forall i, (i < m)%nat -> zz i = X i) by (intros i Hi; unfold zz; destruct (Nat.ltb_spec i m); [reflexivity|lia]).
  assert (Z2 : forall i, zz (m + i)%nat = Y i).
  { intros i. unfold zz. destruct (Nat.ltb_spec (m + i) m); [lia|]. now replace (m + i - m)%nat with i by lia. }
  assert (C1 : forall i, (i < m)%nat -> c i = / INR m) by (intros i Hi; unfold c; destruct (Nat.ltb_spec i m); [reflexivity|lia]).
  assert (C2 : forall i, c (m + i)%nat = - / INR n) by (intros i; unfold c; destruct (Nat.ltb_spec (m + i) m); [lia|reflexivity]).
  assert (Hc : rsum (m + n) c = 0).
  { rewrite rsum_split, (rsum_ext m _ (fun _ => / INR m)), (rsum_ext n _ (fun _ => - / INR n)) by auto.
    rewrite !rsum_const. field. lra. }
  assert (Q := root_distance_cnd (m + n) d zz c Hc).
  set (S12 := rsum m (fun i => rsum n (fun j => root_dist d (X i) (Y j)))).
  set (S11 := rsum m (fun i => rsum m (fun j => root_dist d (X i) (X j)))).
  set (S22 := rsum n (fun i => rsum n (fun j => root_dist d (Y i) (Y j)))).
  assert (E : quad (m + n) c (fun i j => sqrt (sqrt (sqd d zz i j))) =
    / INR m * / INR m * S11 - 2 * (/ INR m * / INR n) * S12 + / INR n * / INR n * S22).
  { unfold quad. rewrite rsum_split.
    rewrite (rsum_ext m _ (fun i => / INR m * / INR m * rsum m (fun j => root_dist d (X i) (X j)) +
                                 - (/ INR m * / INR n) * rsum n (fun j => root_dist d (X i) (Y j)))).
    2: { intros i Hi. rewrite rsum_split, <- !rsum_scal. f_equal; apply rsum_ext; intros j Hj; unfold sqd, root_dist.
         - rewrite !C1, !Z1 by auto. reflexivity.
         - rewrite C1, C2, Z1, Z2 by auto. ring. }
    rewrite (rsum_ext n _ (fun i => - (/ INR m * / INR n) * rsum m (fun j => root_dist d (Y i) (X j)) +
                                 / INR n * / INR n * rsum n (fun j => root_dist d (Y i) (Y j)))).
    2: { intros i Hi. rewrite rsum_split, <- !rsum_scal. f_equal; apply rsum_ext; intros j Hj; unfold sqd, root_dist.
         - rewrite C2, (C1 j), Z2, (Z1 j) by auto. ring.
         - rewrite !C2, !Z2 by auto. ring. }
    rewrite !rsum_plus, !rsum_scal. fold S11. fold S12. fold S22.
    assert (X12 : rsum n (fun i => rsum m (fun j => root_dist d (Y i) (X j))) = S12).
    { unfold S12. rewrite rsum_exchange. apply rsum_ext. intros i Hi. apply rsum_ext. intros j Hj. apply root_dist_sym. }
    rewrite X12. ring. }
  rewrite E in Q. unfold energy. fold S11 S12 S22.
  replace (S12 / (INR m * INR n) - S11 / (2 * INR m ^ 2) - S22 / (2 * INR n ^ 2)) with
    (- / 2 * (/ INR m * / INR m * S11 - 2 * (/ INR m * / INR n) * S12 + / INR n * / INR n * S22)) by (field; lra).
  apply Rmult_le_pos; [|lra]. unfold Rdiv. apply Rmult_le_pos; [nra|]. left. apply Rinv_0_lt_compat. lra.
Qed.

Lemma cramer_nonneg m1 d1 X m2 d2 Y r : cramer_statistic m1 d1 X m2 d2 Y = Ok r -> 0 <= r.
Proof.
  intros E. unfold cramer_statistic in E.
  destruct (Nat.eqb_spec m1 0); [discriminate|]. destruct (Nat.eqb_spec m2 0); [discriminate|].
  destruct (Nat.eqb_spec d1 d2); [|discriminate]. cbn [orb negb] in E.
  destruct (Nat.leb_spec m2 m1); injection E as <-; rewrite cramer_loops_energy by lia; apply energy_nonneg; lia.
Qed.

(** ** In the vocabulary of Spec/Energy.v *)
Lemma root_dist_euclid d x y : root_dist d x y = sqrt (euclid d x y).
Proof. unfold root_dist, euclid. do 2 f_equal. apply rsum_ext. intros; ring. Qed.

Lemma energy_spec d m n X Y : (1 <= m)%nat -> (1 <= n)%nat -> energy d m n X Y = energy_statistic d m n X Y.
Proof.
  intros Hm Hn. assert (Im := INR_ge1 m Hm). assert (In := INR_ge1 n Hn).
  unfold energy, energy_statistic, mean_root_distance.
  assert (E : forall a b (A B : matrix), rsum a (fun i => rsum b (fun j => sqrt (euclid d (A i) (B j)))) =
     rsum a (fun i => rsum b (fun j => root_dist d (A i) (B j)))).
  { intros. apply rsum_ext. intros. apply rsum_ext. intros. now rewrite root_dist_euclid. }
  rewrite !E. field. lra.
Qed.

Lemma cramer_formula m n d X Y : (1 <= m)%nat -> (1 <= n)%nat ->
  cramer_statistic m d X n d Y = Ok (energy_statistic d m n X Y).
Proof. intros. rewrite cramer_value by auto. now rewrite energy_spec. Qed.

Lemma cramer_rejects m1 d1 X m2 d2 Y : cramer_statistic m1 d1 X m2 d2 Y = Err ValueError <-> m1 = 0%nat \/ m2 = 0%nat \/ d1 <> d2.
Proof.
  unfold cramer_statistic. destruct (Nat.eqb_spec m1 0); destruct (Nat.eqb_spec m2 0); destruct (Nat.eqb_spec d1 d2); cbn [orb negb];
    split; intros H; try tauto; try reflexivity; try lia; destruct (Nat.leb m2 m1); discriminate.
Qed.

Lemma cramer_rows m1 d1 X m2 d2 Y p q : rearranges m1 p -> rearranges m2 q ->
  cramer_statistic m1 d1 (fun i => X (p i)) m2 d2 (fun i => Y (q i)) = cramer_statistic m1 d1 X m2 d2 Y.
Proof. intros [P1 P2] [Q1 Q2]. now apply cramer_permuted. Qed.

(** Two matrices with different row counts: one column, rows 0, 1 against 16. *)
Definition ex_larger : matrix := fun i _ => match i with O => 0 | _ => 1 end.
Definition ex_smaller : matrix := fun _ _ => 16.

Lemma sqrt_sqr_of x y : 0 <= y -> x = y * y -> sqrt x = y.
Proof. intros H ->. now apply sqrt_square. Qed.

Lemma ex_cramer : exists r, cramer_statistic 2 1 ex_larger 1 1 ex_smaller = Ok r /\ 2 < r.
Proof.
  eexists. split; [unfold cramer_statistic; cbn [Nat.eqb orb negb Nat.leb]; reflexivity|].
  rewrite cramer_loops_energy by lia. unfold energy, ex_larger, ex_smaller, root_dist.
  assert (R0 : sqrt (sqrt (rsum 1 (fun _ => (0 - 16) * (0 - 16)))) = 4).
  { apply sqrt_sqr_of; [lra|]. apply sqrt_sqr_of; [lra|]. cbn. ring. }
  assert (R1 : 3 < sqrt (sqrt (rsum 1 (fun _ => (1 - 16) * (1 - 16))))).
  { replace (sqrt (rsum 1 (fun _ => (1 - 16) * (1 - 16)))) with 15 by (symmetry; apply sqrt_sqr_of; [lra|cbn; ring]).
    replace 3 with (sqrt 9) by (apply sqrt_sqr_of; lra). apply sqrt_lt_1_alt. lra. }
  assert (R2 : sqrt (sqrt (rsum 1 (fun _ => (0 - 1) * (0 - 1)))) = 1).
  { apply sqrt_sqr_of; [lra|]. apply sqrt_sqr_of; [lra|]. cbn. ring. }
  assert (R3 : sqrt (sqrt (rsum 1 (fun _ => (1 - 0) * (1 - 0)))) = 1).
  { apply sqrt_sqr_of; [lra|]. apply sqrt_sqr_of; [lra|]. cbn. ring. }
  assert (Z : forall a, sqrt (sqrt (rsum 1 (fun _ => (a - a) * (a - a)))) = 0).
  { intros a. apply sqrt_sqr_of; [lra|]. apply sqrt_sqr_of; [lra|]. cbn. ring. }
  set (u := sqrt (sqrt (rsum 1 (fun _ => (1 - 16) * (1 - 16))))) in *.
  change (rsum 2 (fun i => rsum 1 (fun _ => sqrt (sqrt (rsum 1 (fun _ => (match i with 0%nat => 0 | _ => 1 end - 16) * (match i with 0%nat => 0 | _ => 1 end - 16)))))))
    with (0 + (0 + sqrt (sqrt (rsum 1 (fun _ => (0 - 16) * (0 - 16))))) + (0 + u)).
  set (g := fun a b : R => sqrt (sqrt (rsum 1 (fun _ => (a - b) * (a - b))))).
  change (rsum 2 (fun i => rsum 2 (fun j => sqrt (sqrt (rsum 1 (fun _ => (match i with 0%nat => 0 | _ => 1 end - match j with 0%nat => 0 | _ => 1 end) * (match i with 0%nat => 0 | _ => 1 end - match j with 0%nat => 0 | _ => 1 end)))))))
    with (0 + (0 + g 0 0 + g 0 1) + (0 + g 1 0 + g 1 1)).
  change (rsum 1 (fun _ => rsum 1 (fun _ => sqrt (sqrt (rsum 1 (fun _ => (16 - 16) * (16 - 16))))))) with (0 + (0 + g 16 16)).
  unfold g. rewrite !Z, R0, R2, R3. cbn [INR]. lra.
Qed.
