(** Proofs about Model/Scf.v (C16-C20). *)
From Coq Require Import String Reals List ZArith Lia Lra Arith Bool Permutation.
From Coquelicot Require Import Complex.
From Verif Require Import Lib.PyBase Lib.PySlice Lib.Arr Lib.DFT Lib.Fl Lib.RSum
  Spec.Blank Spec.Bins Spec.Correlation
  Model.StatsUtils Model.Psds Model.Scf
  Proofs.Fl_Proofs Proofs.StatsUtils_Proofs Proofs.Psds_Proofs.
Import ListNotations.
Local Open Scope R_scope.

(** ** One pixel *)

Lemma blankable_cases v : blankable v -> v = NaN \/ exists r, v = Fin r.
Proof. destruct v; cbn; intros H; try contradiction; eauto. Qed.

Lemma sq_diff_blankable a b : blankable a -> blankable b -> blankable (fsqr (fsub a b)).
Proof.
  intros Ha Hb. destruct (blankable_cases a Ha) as [->|[r ->]]; destruct (blankable_cases b Hb) as [->|[s ->]]; cbn; exact I.
Qed.
Lemma sq_blankable a : blankable a -> blankable (fsqr a).
Proof. intros Ha. destruct (blankable_cases a Ha) as [->|[r ->]]; cbn; exact I. Qed.

(** A blank contributes 0 to a nansum. *)
Definition rval (v : fl) : R := match v with Fin r => r | _ => 0 end.

Lemma nansum_tab n (f : nat -> fl) : (forall i, (i < n)%nat -> blankable (f i)) ->
  nansum (tab1 n f) = Fin (rsum n (fun i => rval (f i))).
Proof.
  intros H. rewrite nansum_fins.
  - f_equal. rewrite rsum_lsum. unfold tab1. generalize dependent H. generalize (seq_length n 0).
    assert (G : forall l, (forall i, In i l -> blankable (f i)) -> lsum (fins (map f l)) = lsum (map (fun i => rval (f i)) l)).
    { induction l as [|a l IH]; intros H; [reflexivity|]. cbn [map]. rewrite lsum_cons.
      rewrite <- IH by (intros; apply H; now right).
      destruct (blankable_cases (f a) (H a (or_introl eq_refl))) as [E|[r E]]; rewrite E.
      - rewrite fins_cons_NaN. cbn. lra.
      - rewrite fins_cons_Fin, lsum_cons. reflexivity. }
    intros _ H. apply G. intros i Hi. apply H. apply in_seq in Hi. lia.
  - apply Forall_forall. intros v Hv. unfold tab1 in Hv. apply in_map_iff in Hv. destruct Hv as [i [<- Hi]].
    apply H. apply in_seq in Hi. lia.
Qed.

Definition num (nz : nat) (d t : nat -> fl) : R := rsum nz (fun z => rval (fsqr (fsub (d z) (t z)))).
Definition den (nz : nat) (d t : nat -> fl) : R :=
  rsum nz (fun z => rval (fsqr (d z))) + rsum nz (fun z => rval (fsqr (t z))).

Lemma num_bounds nz d t : (forall z, (z < nz)%nat -> blankable (d z)) -> (forall z, (z < nz)%nat -> blankable (t z)) ->
  0 <= num nz d t <= 2 * den nz d t.
Proof.
  intros Hd Ht. unfold num, den. rewrite <- rsum_plus, <- rsum_scal. split.
  - apply rsum_nonneg. intros z Hz.
    destruct (blankable_cases _ (Hd z Hz)) as [->|[r ->]]; destruct (blankable_cases _ (Ht z Hz)) as [->|[s ->]]; cbn; try lra; apply Rle_0_sqr.
  - apply rsum_le. intros z Hz.
    destruct (blankable_cases _ (Hd z Hz)) as [->|[r ->]]; destruct (blankable_cases _ (Ht z Hz)) as [->|[s ->]]; cbn.
    + lra.
    + pose proof (Rle_0_sqr s) as R1; unfold Rsqr in R1; lra.
    + pose proof (Rle_0_sqr r) as R1; unfold Rsqr in R1; lra.
    + pose proof (Rle_0_sqr (r + s)) as R1; unfold Rsqr in R1; lra.
Qed.

Lemma pair_value_eq nz d t : (forall z, (z < nz)%nat -> blankable (d z)) -> (forall z, (z < nz)%nat -> blankable (t z)) ->
  pair_value nz d t = if Reqb (den nz d t) 0 then NaN else Fin (num nz d t / den nz d t).
Proof.
  intros Hd Ht. unfold pair_value.
  rewrite !nansum_tab by (intros; first [apply sq_diff_blankable | apply sq_blankable]; auto).
  fold (num nz d t). cbn [fadd]. fold (den nz d t).
  pose proof (num_bounds nz d t Hd Ht) as B.
  cbn [fdiv]. destruct (Reqb_spec (den nz d t) 0) as [E|E]; [|reflexivity].
  assert (En : num nz d t = 0) by lra. rewrite En. unfold sinf.
  destruct (Rltb_spec 0 0); [lra|]. reflexivity.
Qed.

Definition value_ok (v : fl) : Prop := v = NaN \/ exists r, v = Fin r /\ 0 <= r <= 2.

Lemma pair_value_ok nz d t : (forall z, (z < nz)%nat -> blankable (d z)) -> (forall z, (z < nz)%nat -> blankable (t z)) ->
  value_ok (pair_value nz d t).
Proof.
  intros Hd Ht. rewrite pair_value_eq by auto. pose proof (num_bounds nz d t Hd Ht) as B.
  destruct (Reqb_spec (den nz d t) 0) as [E|E]; [now left|]. right. eexists. split; [reflexivity|].
  assert (0 < den nz d t) by lra. split.
  - unfold Rdiv. apply Rmult_le_pos; [lra|]. left. now apply Rinv_0_lt_compat.
  - apply Rmult_le_reg_r with (den nz d t); auto. unfold Rdiv. rewrite Rmult_assoc, Rinv_l by lra. lra.
Qed.

Lemma num_sym nz d t : (forall z, (z < nz)%nat -> blankable (d z)) -> (forall z, (z < nz)%nat -> blankable (t z)) ->
  num nz d t = num nz t d.
Proof.
  intros Hd Ht. apply rsum_ext. intros z Hz.
  destruct (blankable_cases _ (Hd z Hz)) as [->|[r ->]]; destruct (blankable_cases _ (Ht z Hz)) as [->|[s ->]]; cbn; try reflexivity. ring.
Qed.

Lemma pair_value_sym nz d t : (forall z, (z < nz)%nat -> blankable (d z)) -> (forall z, (z < nz)%nat -> blankable (t z)) ->
  pair_value nz d t = pair_value nz t d.
Proof.
  intros Hd Ht. rewrite !pair_value_eq by auto. rewrite (num_sym nz d t) by auto.
  assert (E : den nz d t = den nz t d) by (unfold den; ring). now rewrite E.
Qed.

Lemma pair_value_ext nz d t d' t' : (forall z, (z < nz)%nat -> d z = d' z) -> (forall z, (z < nz)%nat -> t z = t' z) ->
  pair_value nz d t = pair_value nz d' t'.
Proof.
  intros Hd Ht. unfold pair_value.
  rewrite (tab1_ext nz (fun z => fsqr (fsub (d z) (t z))) (fun z => fsqr (fsub (d' z) (t' z)))) by (intros; now rewrite Hd, Ht).
  rewrite (tab1_ext nz (fun z => fsqr (d z)) (fun z => fsqr (d' z))) by (intros; now rewrite Hd).
  rewrite (tab1_ext nz (fun z => fsqr (t z)) (fun z => fsqr (t' z))) by (intros; now rewrite Ht). reflexivity.
Qed.

(** ** The mean over pixels *)

Lemma value_ok_blankable v : value_ok v -> blankable v.
Proof. intros [->|[r [-> _]]]; exact I. Qed.

Lemma fin_count_fins l : Forall blankable l -> length (filter is_fin l) = length (fins l).
Proof.
  induction 1 as [|v l Hv Hl IH]; [reflexivity|].
  destruct (blankable_cases v Hv) as [->|[r ->]].
  - rewrite fins_cons_NaN. exact IH.
  - rewrite fins_cons_Fin. cbn. now rewrite IH.
Qed.

Lemma scf_of_values_eq l : Forall blankable l -> (forall r, In r (fins l) -> 0 <= r) ->
  scf_of_values l = match fins l with [] => NaN | _ => Fin (1 - sqrt (rmean (fins l))) end.
Proof.
  intros Hb Hp. unfold scf_of_values. rewrite nansum_fins by auto. rewrite fin_count_fins by auto.
  destruct (fins l) as [|a m] eqn:E.
  - cbn. destruct (Reqb_spec 0 0); [|lra]. unfold sinf. destruct (Rltb_spec 0 0); [lra|]. reflexivity.
  - assert (0 < INR (length (a :: m))) by (apply lt_0_INR; cbn; lia).
    rewrite fdiv_fin by lra. rewrite fsqrt_fin; [reflexivity|].
    apply (rmean_nonneg (a :: m)). auto.
Qed.

Lemma scf_of_values_bounds l : Forall value_ok l ->
  (fins l = [] /\ scf_of_values l = NaN) \/
  (exists r, scf_of_values l = Fin r /\ 1 - sqrt 2 <= r <= 1).
Proof.
  intros H. assert (Hb : Forall blankable l) by (eapply Forall_impl; [|exact H]; apply value_ok_blankable).
  assert (Hr : forall r, In r (fins l) -> 0 <= r <= 2).
  { intros r Hr. apply in_fins in Hr. rewrite Forall_forall in H. destruct (H _ Hr) as [E|[s [E Hs]]]; [discriminate|].
    injection E as ->. auto. }
  rewrite scf_of_values_eq by (auto; intros; apply Hr; auto).
  destruct (fins l) as [|a m] eqn:E; [left; auto|right].
  exists (1 - sqrt (rmean (a :: m))). split; [reflexivity|].
  assert (0 <= rmean (a :: m)) by (apply rmean_nonneg; intros; apply Hr; auto).
  assert (rmean (a :: m) <= 2).
  { unfold rmean. assert (Hn : 0 < INR (length (a :: m))) by (apply lt_0_INR; cbn; lia).
    apply Rmult_le_reg_r with (INR (length (a :: m))); auto. unfold Rdiv. rewrite Rmult_assoc, Rinv_l, Rmult_1_r by lra.
    clear -Hr. induction (a :: m) as [|b l IH]; [cbn; lra|]. cbn [length]. rewrite S_INR, lsum_cons.
    assert (B := Hr b (or_introl eq_refl)). assert (J := IH (fun r Hr' => Hr r (or_intror Hr'))). lra. }
  assert (sqrt (rmean (a :: m)) <= sqrt 2) by (apply sqrt_le_1_alt; auto).
  pose proof (sqrt_pos (rmean (a :: m))). lra.
Qed.

Lemma scf_of_values_perm l l' : Permutation l l' -> Forall value_ok l -> scf_of_values l = scf_of_values l'.
Proof.
  intros P H. assert (H' : Forall value_ok l') by (eapply Permutation_Forall; eauto).
  assert (B : forall m, Forall value_ok m -> Forall blankable m) by (intros m Hm; eapply Forall_impl; [|exact Hm]; apply value_ok_blankable).
  assert (Nn : forall m, Forall value_ok m -> forall r, In r (fins m) -> 0 <= r).
  { intros m Hm r Hr. apply in_fins in Hr. rewrite Forall_forall in Hm. destruct (Hm _ Hr) as [E|[s [E Hs]]]; [discriminate|].
    injection E as ->. lra. }
  assert (Pf : Permutation (fins l) (fins l')).
  { clear -P. unfold fins. now apply Permutation_flat_map. }
  rewrite (scf_of_values_eq l), (scf_of_values_eq l') by first [now apply B | now apply Nn].
  destruct (fins l) as [|a m] eqn:E1; destruct (fins l') as [|b m'] eqn:E2.
  - reflexivity.
  - apply Permutation_nil in Pf. discriminate.
  - symmetry in Pf. apply Permutation_nil in Pf. discriminate.
  - f_equal. f_equal. f_equal. unfold rmean. now rewrite (lsum_perm _ _ Pf), (Permutation_length Pf).
Qed.

(** ** Shifts *)

Lemma shift_axis_blankable n f lag i : (forall k, (k < n)%nat -> blankable (f k)) -> (i < n)%nat ->
  blankable (shift_axis n f lag i).
Proof.
  intros H Hi. unfold shift_axis. destruct (Reqb lag 0); [auto|]. destruct (is_integer lag).
  - assert (Hin : In (nth i (pixel_shift (tab1 n f) (ShiftFloat lag)) NaN) (pixel_shift (tab1 n f) (ShiftFloat lag))).
    { apply nth_In. rewrite (Permutation_length (pixel_shift_perm _ _)), tab1_length. auto. }
    apply (Permutation_in _ (pixel_shift_perm _ _)) in Hin. unfold tab1 at 2 in Hin. apply in_map_iff in Hin.
    destruct Hin as [k [<- Hk]]. apply H. apply in_seq in Hk. lia.
  - unfold fourier_shift. cbv zeta. rewrite tab1_nth by now rewrite tab1_length. destruct (Rltb _ _); exact I.
Qed.

Lemma shifted_blankable ny nx cube sx sy z y x :
  (forall y x, (y < ny)%nat -> (x < nx)%nat -> blankable (cube z y x)) -> (y < ny)%nat -> (x < nx)%nat ->
  blankable (shifted ny nx cube sx sy z y x).
Proof.
  intros H Hy Hx. unfold shifted. apply shift_axis_blankable; auto. intros k Hk.
  apply shift_axis_blankable; auto.
Qed.

Lemma Int_part_IZR (s : Z) : Int_part (IZR s) = s.
Proof.
  destruct (base_Int_part (IZR s)) as [B1 B2].
  assert ((Int_part (IZR s) <= s)%Z) by now apply le_IZR.
  assert (IZR s - 1 < IZR (Int_part (IZR s))) by lra. rewrite <- minus_IZR in H0. apply lt_IZR in H0. lia.
Qed.

Lemma is_integer_IZR s : is_integer (IZR s) = true.
Proof. unfold is_integer. rewrite Int_part_IZR. destruct (Reqb_spec (IZR s) (IZR s)); auto. Qed.

Lemma Rtrunc_IZR s : Rtrunc (IZR s) = s.
Proof.
  unfold Rtrunc. destruct (Rltb_spec (IZR s) 0); [|apply Int_part_IZR].
  rewrite <- opp_IZR, Int_part_IZR. lia.
Qed.

(** A shift by a whole number of pixels along an axis. *)
Definition from (n : nat) (s : Z) (i : nat) : nat := Z.to_nat ((Z.of_nat i - s) mod Z.of_nat n).

Lemma from_lt n s i : (i < n)%nat -> (from n s i < n)%nat.
Proof.
  intros H. unfold from. pose proof (Z.mod_pos_bound (Z.of_nat i - s) (Z.of_nat n)). lia.
Qed.

Lemma from_inv n s i : (i < n)%nat -> from n s (from n (- s) i) = i.
Proof.
  intros H. unfold from. rewrite Z2Nat.id by (apply Z.mod_pos_bound; lia).
  rewrite Zminus_mod_idemp_l. replace (Z.of_nat i - - s - s)%Z with (Z.of_nat i) by lia.
  rewrite Z.mod_small by lia. lia.
Qed.

Lemma shift_axis_int n f s i : (i < n)%nat -> shift_axis n f (IZR s) i = f (from n s i).
Proof.
  intros Hi. unfold shift_axis. destruct (Reqb_spec (IZR s) 0) as [E|E].
  - apply (eq_IZR s 0) in E. subst s. unfold from. rewrite Z.sub_0_r, Z.mod_small, Nat2Z.id by lia. reflexivity.
  - rewrite is_integer_IZR. cbn [pixel_shift]. rewrite Rtrunc_IZR.
    rewrite roll_nth by now rewrite tab1_length. rewrite tab1_length. fold (from n s i).
    apply tab1_nth. now apply from_lt.
Qed.

Lemma shifted_int ny nx cube sx sy z y x : (y < ny)%nat -> (x < nx)%nat ->
  shifted ny nx cube (IZR sx) (IZR sy) z y x = cube z (from ny sx y) (from nx sy x).
Proof.
  intros Hy Hx. unfold shifted. rewrite shift_axis_int by auto. now rewrite shift_axis_int.
Qed.

(** ** The SCF at one lag, continuous boundary *)

Definition cont_values (nz ny nx : nat) (cube : nat -> nat -> nat -> fl) (sx sy : R) : list fl :=
  map (fun p => pair_value nz (fun z => cube z (fst p) (snd p)) (fun z => shifted ny nx cube sx sy z (fst p) (snd p)))
      (pixels ny nx).

Lemma combine_same {A} (l : list A) : combine l l = map (fun a => (a, a)) l.
Proof. induction l; cbn; congruence. Qed.

Lemma cont_values_ok nz ny nx cube sx sy : cube_ok nz ny nx cube -> Forall value_ok (cont_values nz ny nx cube sx sy).
Proof.
  intros H. apply Forall_forall. intros v Hv. unfold cont_values in Hv. apply in_map_iff in Hv.
  destruct Hv as [[y x] [<- Hp]]. apply in_pixels in Hp. cbn [fst snd]. apply pair_value_ok.
  - intros. apply H; tauto.
  - intros z Hz. apply shifted_blankable; try tauto. intros. apply H; auto.
Qed.

Lemma fltb_1_false v : (exists r, v = Fin r /\ r <= 1) \/ v = NaN -> fltb (Fin 1) v = false.
Proof. intros [[r [-> H]]| ->]; cbn; [|reflexivity]. destruct (Rltb_spec 1 r); [lra|reflexivity]. Qed.

Lemma scf_value_cont nz ny nx cube sx sy : cube_ok nz ny nx cube ->
  scf_value nz ny nx cube "continuous" sx sy = Ok (scf_of_values (cont_values nz ny nx cube sx sy)).
Proof.
  intros H. unfold scf_value. cbn [String.eqb Ascii.eqb Bool.eqb]. rewrite !Nat.eqb_refl. cbn [andb negb].
  fold (pixels ny nx). rewrite combine_same, map_map.
  assert (E : map (fun x : nat * nat => let '(yd, xd, (yt, xt)) := (x, x) in
        pair_value nz (fun z => cube z yd xd) (fun z => shifted ny nx cube sx sy z yt xt)) (pixels ny nx) = cont_values nz ny nx cube sx sy).
  { apply map_ext. intros [y x]. reflexivity. }
  rewrite E. rewrite fltb_1_false; [reflexivity|].
  destruct (scf_of_values_bounds _ (cont_values_ok nz ny nx cube sx sy H)) as [[_ ->]|[r [-> B]]]; [now right|left].
  exists r. split; [auto|lra].
Qed.

Lemma scf_bounded nz ny nx cube sx sy : cube_ok nz ny nx cube ->
  exists v, scf_value nz ny nx cube "continuous" sx sy = Ok v /\
            (v = NaN \/ exists r, v = Fin r /\ 1 - sqrt 2 <= r <= 1).
Proof.
  intros H. eexists. split; [now apply scf_value_cont|].
  destruct (scf_of_values_bounds _ (cont_values_ok nz ny nx cube sx sy H)) as [[_ ->]|[r [-> B]]]; eauto.
Qed.

(** Zero lag. *)
Lemma shifted_zero ny nx cube z y x : shifted ny nx cube 0 0 z y x = cube z y x.
Proof.
  unfold shifted, shift_axis. destruct (Reqb_spec 0 0); [reflexivity|congruence].
Qed.

Lemma num_self nz d : (forall z, (z < nz)%nat -> blankable (d z)) -> num nz d d = 0.
Proof.
  intros H. unfold num. apply rsum_zero. intros z Hz. destruct (blankable_cases _ (H z Hz)) as [->|[r ->]]; cbn; ring.
Qed.

Lemma scf_zero_lag nz ny nx cube : cube_ok nz ny nx cube ->
  (exists z y x r, (z < nz)%nat /\ (y < ny)%nat /\ (x < nx)%nat /\ cube z y x = Fin r /\ r <> 0) ->
  scf_value nz ny nx cube "continuous" 0 0 = Ok (Fin 1).
Proof.
  intros H (z0 & y0 & x0 & r0 & Hz0 & Hy0 & Hx0 & E0 & Hr0). rewrite scf_value_cont by auto. f_equal.
  assert (Hv : forall p, In p (pixels ny nx) ->
    pair_value nz (fun z => cube z (fst p) (snd p)) (fun z => shifted ny nx cube 0 0 z (fst p) (snd p)) =
    if Reqb (den nz (fun z => cube z (fst p) (snd p)) (fun z => cube z (fst p) (snd p))) 0 then NaN else Fin 0).
  { intros [y x] Hp. apply in_pixels in Hp. cbn [fst snd].
    rewrite (pair_value_ext nz _ _ (fun z => cube z y x) (fun z => cube z y x)) by (intros; auto using shifted_zero).
    rewrite pair_value_eq, num_self by (intros; apply H; tauto).
    destruct (Reqb _ 0) eqn:E; [reflexivity|]. f_equal. unfold Rdiv. ring. }
  assert (Hz : forall r, In r (fins (cont_values nz ny nx cube 0 0)) -> r = 0).
  { intros r Hr. apply in_fins in Hr. unfold cont_values in Hr. apply in_map_iff in Hr. destruct Hr as [p [Ep Hp]].
    rewrite Hv in Ep by auto. destruct (Reqb _ 0); [discriminate|]. now injection Ep. }
  assert (Hne : In 0 (fins (cont_values nz ny nx cube 0 0))).
  { apply in_fins. unfold cont_values. apply in_map_iff. exists (y0, x0).
    split; [|now apply in_pixels]. rewrite Hv by now apply in_pixels. cbn [fst snd].
    destruct (Reqb_spec (den nz (fun z => cube z y0 x0) (fun z => cube z y0 x0)) 0) as [E|E]; [|reflexivity].
    exfalso. unfold den in E.
    assert (G : rval (fsqr (cube z0 y0 x0)) <= rsum nz (fun z => rval (fsqr (cube z y0 x0)))).
    { apply (rsum_term_le nz (fun z => rval (fsqr (cube z y0 x0)))); auto.
      intros z Hz'. destruct (blankable_cases _ (H z y0 x0 Hz' Hy0 Hx0)) as [->|[r ->]]; cbn; nra. }
    rewrite E0 in G. cbn in G. nra. }
  rewrite scf_of_values_eq.
  - destruct (fins (cont_values nz ny nx cube 0 0)) as [|a m] eqn:E; [destruct Hne|].
    assert (Em : rmean (a :: m) = 0).
    { unfold rmean. assert (lsum (a :: m) = 0) as ->; [|unfold Rdiv; ring].
      clear -Hz. induction (a :: m) as [|b l IH]; [reflexivity|]. rewrite lsum_cons, IH by (intros; apply Hz; now right).
      rewrite (Hz b) by now left. ring. }
    rewrite Em, sqrt_0. f_equal. ring.
  - eapply Forall_impl; [|apply cont_values_ok; auto]. apply value_ok_blankable.
  - intros r Hr. rewrite (Hz r Hr). lra.
Qed.

(** ** Point symmetry *)

Lemma pixels_perm ny nx (g : nat -> nat) (h : nat -> nat) :
  (forall y, (y < ny)%nat -> (g y < ny)%nat) -> (forall x, (x < nx)%nat -> (h x < nx)%nat) ->
  (forall y y', (y < ny)%nat -> (y' < ny)%nat -> g y = g y' -> y = y') ->
  (forall x x', (x < nx)%nat -> (x' < nx)%nat -> h x = h x' -> x = x') ->
  Permutation (map (fun p => (g (fst p), h (snd p))) (pixels ny nx)) (pixels ny nx).
Proof.
  intros G1 H1 G2 H2.
  assert (ND : NoDup (map (fun p => (g (fst p), h (snd p))) (pixels ny nx))).
  { assert (Hin : forall p, In p (pixels ny nx) -> (fst p < ny)%nat /\ (snd p < nx)%nat).
    { intros [y x] Hp. now apply in_pixels. }
    revert Hin. generalize (NoDup_pixels ny nx). induction (pixels ny nx) as [|p l IH]; intros Hnd Hin; [constructor|].
    inversion Hnd as [|? ? Hp Hl]; subst. cbn. constructor.
    - intros Hq. apply in_map_iff in Hq. destruct Hq as [q [E Hq]]. injection E as E1 E2.
      assert (q = p); [|congruence].
      destruct (Hin q) as [A1 A2]; [now right|]. destruct (Hin p) as [B1 B2]; [now left|].
      destruct q as [qy qx], p as [py px]; cbn in *. f_equal; [now apply G2|now apply H2].
    - apply IH; auto. intros; apply Hin; now right. }
  apply NoDup_Permutation_bis; auto.
  - now rewrite map_length.
  - intros p Hp. apply in_map_iff in Hp. destruct Hp as [[y x] [<- Hp]]. apply in_pixels in Hp. cbn [fst snd].
    apply in_pixels. split; [apply G1|apply H1]; tauto.
Qed.

Lemma from_inj n s i j : (i < n)%nat -> (j < n)%nat -> from n s i = from n s j -> i = j.
Proof.
  intros Hi Hj E. rewrite <- (from_inv n (- s) i Hi), <- (from_inv n (- s) j Hj). rewrite Z.opp_involutive. now rewrite E.
Qed.

Lemma scf_point_symmetric nz ny nx cube (dx dy : Z) : cube_ok nz ny nx cube ->
  scf_value nz ny nx cube "continuous" (IZR (- dx)) (IZR (- dy)) =
  scf_value nz ny nx cube "continuous" (IZR dx) (IZR dy).
Proof.
  intros H. rewrite !scf_value_cont by auto. apply (f_equal Ok). apply scf_of_values_perm; [|now apply cont_values_ok].
  set (val := fun p : nat * nat => pair_value nz (fun z => cube z (fst p) (snd p))
                (fun z => shifted ny nx cube (IZR dx) (IZR dy) z (fst p) (snd p))).
  assert (E : cont_values nz ny nx cube (IZR (- dx)) (IZR (- dy)) =
              map val (map (fun p => (from ny (- dx) (fst p), from nx (- dy) (snd p))) (pixels ny nx))).
  { rewrite map_map. apply map_ext_in. intros [y x] Hp. apply in_pixels in Hp. destruct Hp as [Hy Hx]. unfold val. cbn [fst snd].
    assert (Fy := from_lt ny (- dx) y Hy). assert (Fx := from_lt nx (- dy) x Hx).
    rewrite (pair_value_ext nz (fun z => cube z (from ny (- dx) y) (from nx (- dy) x)) _
               (fun z => cube z (from ny (- dx) y) (from nx (- dy) x)) (fun z => cube z y x)).
    - symmetry. rewrite pair_value_sym by (intros; apply H; auto).
      apply pair_value_ext; auto. intros z Hz. now rewrite shifted_int.
    - reflexivity.
    - intros z Hz. rewrite shifted_int by auto. now rewrite !from_inv. }
  rewrite E. apply Permutation_map. apply pixels_perm; intros; eauto using from_lt, from_inj.
Qed.
