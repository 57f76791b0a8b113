(** Proofs about the bispectrum (C60, C61). *)
From Coq Require Import Reals List ZArith Arith Bool Lia Lra.
From Coquelicot Require Import Complex.
From Verif Require Import Lib.PyBase Lib.Arr Lib.DFT Lib.Fl Lib.RSum Model.Bispec Spec.Waves.
Import ListNotations.
Local Open Scope R_scope.

(** ** Truncation *)
Lemma trunc_truncates x : truncates x (trunc x).
Proof.
  unfold trunc, truncates. destruct (Rleb_spec 0 x) as [H | H].
  - destruct (base_Int_part x) as [A B]. assert (Z : (0 <= Int_part x)%Z).
    { assert (L : (-1 < Int_part x)%Z) by (apply lt_IZR; lra). lia. }
    apply IZR_le in Z. rewrite !Rabs_right by lra. split; [lra |]. apply Rmult_le_pos; lra.
  - destruct (base_Int_part (- x)) as [A B]. assert (Z : (0 <= Int_part (- x))%Z).
    { assert (L : (-1 < Int_part (- x))%Z) by (apply lt_IZR; lra). lia. }
    apply IZR_le in Z. rewrite opp_IZR, Rabs_Ropp. rewrite (Rabs_left x) by lra. rewrite Rabs_right by lra. split; [lra |]. nra.
Qed.

Lemma truncates_unique x a b : truncates x a -> truncates x b -> a = b.
Proof.
  unfold truncates. rewrite <- !abs_IZR. intros [A1 A2] [B1 B2].
  assert (E : Z.abs a = Z.abs b).
  { assert (IZR (Z.abs a) < IZR (Z.abs b + 1)) by (rewrite plus_IZR; lra). assert (IZR (Z.abs b) < IZR (Z.abs a + 1)) by (rewrite plus_IZR; lra).
    apply lt_IZR in H. apply lt_IZR in H0. lia. }
  destruct (Z.eq_dec a b) as [| N]; [assumption |]. assert (a = - b)%Z by lia. subst a. rewrite opp_IZR in A2.
  assert (Z0 : x * IZR b = 0) by lra. apply Rmult_integral in Z0. destruct Z0 as [-> | Z0].
  - rewrite Rabs_R0 in *. assert (IZR (Z.abs b) <= 0) by lra. apply le_IZR in H. lia.
  - apply eq_IZR in Z0. lia.
Qed.

Lemma truncates_bound x z m : truncates x z -> Rabs x <= IZR m -> (- m <= z <= m)%Z.
Proof. unfold truncates. rewrite <- abs_IZR. intros [A _] B. assert (L : IZR (Z.abs z) <= IZR m) by lra. apply le_IZR in L. lia. Qed.

(** ** Indices *)
Lemma np_index_ok n z : (- Z.of_nat n <= z < Z.of_nat n)%Z -> np_index n z = Ok (Z.to_nat (z mod Z.of_nat n)).
Proof.
  intro H. unfold np_index. destruct (0 <=? z)%Z eqn:A.
  - apply Z.leb_le in A. replace (z <? Z.of_nat n)%Z with true by (symmetry; apply Z.ltb_lt; lia). cbn [andb]. now rewrite Z.mod_small by lia.
  - apply Z.leb_gt in A. cbn [andb]. replace (- Z.of_nat n <=? z)%Z with true by (symmetry; apply Z.leb_le; lia).
    replace (z <? 0)%Z with true by (symmetry; apply Z.ltb_lt; lia). cbn [andb]. apply f_equal, f_equal. apply (Z.mod_unique _ _ (-1)); lia.
Qed.
Lemma np_index_err n z : (Z.of_nat n <= z)%Z -> np_index n z = Err IndexError.
Proof.
  intro H. unfold np_index. replace (z <? Z.of_nat n)%Z with false by (symmetry; apply Z.ltb_ge; lia). rewrite andb_false_r.
  replace (z <? 0)%Z with false by (symmetry; apply Z.ltb_ge; lia). now rewrite andb_false_r.
Qed.

Definition widx (n : nat) (z : Z) : nat := Z.to_nat (z mod Z.of_nat n).
Definition pidx (ny nx : nat) (k : Z * Z) : nat * nat := (widx ny (fst k), widx nx (snd k)).
Definition inside (n : nat) (z : Z) : Prop := (- Z.of_nat n <= z < Z.of_nat n)%Z.

Lemma at_wave_ok ny nx k : inside ny (fst k) -> inside nx (snd k) -> at_wave ny nx k = Ok (pidx ny nx k).
Proof. intros A B. unfold at_wave. rewrite !np_index_ok by assumption. reflexivity. Qed.

(** ** Modes *)
Lemma cis_2PI_Z (k : Z) : cis (2 * PI * IZR k) = RtoC 1.
Proof.
  destruct k as [| p | p].
  - rewrite Rmult_0_r. apply cis_0.
  - rewrite <- (cis_2PI (Pos.to_nat p)). f_equal. f_equal. rewrite INR_IZR_INZ. now rewrite positive_nat_Z.
  - rewrite <- (Cconj_conj (cis (2 * PI * IZR (Z.neg p)))). rewrite <- cis_opp. replace (- (2 * PI * IZR (Z.neg p))) with (2 * PI * INR (Pos.to_nat p)).
    + rewrite cis_2PI. apply Ceq; cbn; ring.
    + rewrite INR_IZR_INZ, positive_nat_Z. change (Z.neg p) with (- Z.pos p)%Z. rewrite opp_IZR. ring.
Qed.

Lemma tw_Z n j z : (0 < n)%nat -> tw n j (widx n z) = cis (- (2 * PI * (IZR z * INR j / INR n))).
Proof.
  intro N. unfold tw, widx. set (m := (z mod Z.of_nat n)%Z). assert (M : (0 <= m < Z.of_nat n)%Z) by (apply Z.mod_pos_bound; lia).
  rewrite mult_INR. rewrite (INR_IZR_INZ (Z.to_nat m)), Z2Nat.id by lia.
  assert (E : IZR z = INR n * IZR (z / Z.of_nat n) + IZR m).
  { rewrite INR_IZR_INZ, <- mult_IZR, <- plus_IZR. apply f_equal. apply Z.div_mod. lia. }
  rewrite E. assert (P : 0 < INR n) by (apply lt_0_INR; lia).
  replace (- (2 * PI * (INR j * IZR m) / INR n)) with (- (2 * PI * ((INR n * IZR (z / Z.of_nat n) + IZR m) * INR j / INR n)) + 2 * PI * IZR (z / Z.of_nat n * Z.of_nat j)).
  - rewrite cis_plus, cis_2PI_Z, Cmult_1_r. reflexivity.
  - rewrite mult_IZR, <- (INR_IZR_INZ j). field. lra.
Qed.

Lemma mode_dft ny nx data k : (0 < ny)%nat -> (0 < nx)%nat ->
  dft2 ny nx (fun i j => RtoC (data i j)) (fst (pidx ny nx k)) (snd (pidx ny nx k)) = mode ny nx data k.
Proof.
  intros Y X. unfold dft2, mode, pidx. cbn [fst snd]. apply csum_ext. intros i I. apply csum_ext. intros j J. rewrite !tw_Z by assumption. rewrite <- cis_plus. apply f_equal, f_equal. field.
  split; apply not_0_INR; lia.
Qed.

(** ** each *)
Lemma each_map {A B} (f : A -> result B) (g : A -> B) l : (forall a, In a l -> f a = Ok (g a)) -> each f l = Ok (map g l).
Proof. induction l as [| a l IH]; intro H; [reflexivity |]. cbn [each map]. rewrite (H a) by now left. cbn [bind]. rewrite IH by (intros; apply H; now right). reflexivity. Qed.
Lemma each_err {A B} (f : A -> result B) a l : In a l -> is_ok (f a) = false -> is_ok (each f l) = false.
Proof.
  induction l as [| b l IH]; intros []; intro E; cbn [each].
  - subst. destruct (f a); [discriminate | reflexivity].
  - destruct (f b); cbn [bind]; [| reflexivity]. specialize (IH H E). destruct (each f l); [discriminate | reflexivity].
Qed.

Lemma combine_map3 {A B D E} (f : A -> B) (g : A -> D) (h : A -> E) l :
  combine (combine (map f l) (map g l)) (map h l) = map (fun a => ((f a, g a), h a)) l.
Proof. induction l as [| a l IH]; [reflexivity |]. cbn [map combine]. now rewrite IH. Qed.

(** ** Validity of the sampled wave vectors *)
Definition waves_inside (ny nx k1 k2 : nat) (phi : R * R) : Prop :=
  forall w, In w [wave1 k1 k2 phi; wave2 k1 k2 phi; wave3 k1 k2 phi] -> inside ny (fst w) /\ inside nx (snd w).

Lemma cos_abs a : Rabs (cos a) <= 1.
Proof. apply Rabs_le. pose proof (COS_bound a). lra. Qed.
Lemma sin_abs a : Rabs (sin a) <= 1.
Proof. apply Rabs_le. pose proof (SIN_bound a). lra. Qed.
Lemma amp k c : Rabs c <= 1 -> Rabs (INR k * c) <= INR k.
Proof. intro H. rewrite Rabs_mult. rewrite (Rabs_right (INR k)) by (apply Rle_ge, pos_INR). pose proof (pos_INR k). pose proof (Rabs_pos c). nra. Qed.
Lemma amp2 k l c d : Rabs c <= 1 -> Rabs d <= 1 -> Rabs (INR k * c + INR l * d) <= INR (k + l).
Proof. intros H K. eapply Rle_trans; [apply Rabs_triang |]. rewrite plus_INR. pose proof (amp k c H). pose proof (amp l d K). lra. Qed.
Lemma trunc_inside n m x : (m < n)%nat -> Rabs x <= INR m -> inside n (trunc x).
Proof. intros H B. rewrite INR_IZR_INZ in B. pose proof (truncates_bound _ _ _ (trunc_truncates x) B). unfold inside. lia. Qed.

Lemma all_inside ny nx k1 k2 phi : (k1 + k2 < ny)%nat -> (k1 + k2 < nx)%nat -> waves_inside ny nx k1 k2 phi.
Proof.
  intros Y X w [<- | [<- | [<- | []]]]; cbn [wave1 wave2 wave3 fst snd].
  - split; (apply (trunc_inside _ k1); [lia |]; apply amp; auto using cos_abs, sin_abs).
  - split; (apply (trunc_inside _ k2); [lia |]; apply amp; auto using cos_abs, sin_abs).
  - split; (apply (trunc_inside _ (k1 + k2)); [lia |]; apply amp2; auto using cos_abs, sin_abs).
Qed.

Lemma cell_ok ny nx fft k1 k2 angles : angles <> [] -> (forall phi, In phi angles -> waves_inside ny nx k1 k2 phi) ->
  let val k := fft (fst (pidx ny nx k)) (snd (pidx ny nx k)) in
  let samps := map (fun phi => triple val (wave1 k1 k2 phi) (wave2 k1 k2 phi) (wave3 k1 k2 phi)) angles in
  cell ny nx fft k1 k2 angles = Ok (map (fun phi => pidx ny nx (wave1 k1 k2 phi)) angles, map (fun phi => pidx ny nx (wave2 k1 k2 phi)) angles,
     map (fun phi => pidx ny nx (wave3 k1 k2 phi)) angles, (csum_list samps, lsum (map Cmod samps))).
Proof.
  intros N H val samps. unfold cell. destruct angles as [| p l]; [now destruct N |]. set (ang := p :: l) in *.
  change (Nat.eqb (length ang) 0) with false. cbv iota.
  rewrite (each_map _ (pidx ny nx)); [| intros w W; apply in_map_iff in W; destruct W as [phi [<- I]]; destruct (H phi I (wave1 k1 k2 phi)); [cbn; tauto |]; now apply at_wave_ok].
  cbn [bind].
  rewrite (each_map _ (pidx ny nx)); [| intros w W; apply in_map_iff in W; destruct W as [phi [<- I]]; destruct (H phi I (wave2 k1 k2 phi)); [cbn; tauto |]; now apply at_wave_ok].
  cbn [bind].
  rewrite (each_map _ (pidx ny nx)); [| intros w W; apply in_map_iff in W; destruct W as [phi [<- I]]; destruct (H phi I (wave3 k1 k2 phi)); [cbn; tauto |]; now apply at_wave_ok].
  cbn [bind]. cbv zeta. rewrite !(map_map _ (pidx ny nx)). rewrite combine_map3.
  rewrite (map_map (fun a => (pidx ny nx (wave1 k1 k2 a), pidx ny nx (wave2 k1 k2 a), pidx ny nx (wave3 k1 k2 a)))). reflexivity.
Qed.

(** ** The whole surface *)
Lemma nth_grid {A} (f : nat * nat -> A) d h w k1 k2 : (k1 < h)%nat -> (k2 < w)%nat ->
  nth (k1 * w + k2) (map f (list_prod (seq 0 h) (seq 0 w))) d = f (k1, k2).
Proof.
  intros H W. assert (G : forall s h k1, (k1 < h)%nat -> nth (k1 * w + k2) (map f (list_prod (seq s h) (seq 0 w))) d = f (s + k1, k2)%nat).
  { clear h k1 H. intros s h. revert s. induction h as [| h IH]; intros s k1 K; [lia |]. cbn [seq list_prod]. rewrite map_app, map_map.
    assert (L : length (map (fun y => f (s, y)) (seq 0 w)) = w) by now rewrite map_length, seq_length.
    destruct k1 as [| k1].
    - rewrite app_nth1 by (rewrite L; lia). cbn [Nat.mul Nat.add]. rewrite Nat.add_0_r. rewrite (nth_indep _ d (f (s, 0%nat))) by lia.
      rewrite (map_nth (fun y => f (s, y))). now rewrite seq_nth by lia.
    - rewrite app_nth2 by (rewrite L; lia). rewrite L. replace (S k1 * w + k2 - w)%nat with (k1 * w + k2)%nat by lia. rewrite IH by lia. f_equal. f_equal. lia. }
  rewrite G by assumption. reflexivity.
Qed.

Section Surface.
Variables (ny nx : nat) (img : nat -> nat -> option R) (ms : bool) (angles : nat -> nat -> list (R * R)).
Definition pix_data (i j : nat) : R := fill (img i j).
Definition used_data (i j : nat) : R := if ms then pix_data i j - rsum ny (fun i => rsum nx (fun j => pix_data i j)) / INR (ny * nx) else pix_data i j.
Definition samples (k1 k2 : nat) : list C := map (fun phi => triple (mode ny nx used_data) (wave1 k1 k2 phi) (wave2 k1 k2 phi) (wave3 k1 k2 phi)) (angles k1 k2).
Definition hit_cell (k : nat * nat) : list (nat * nat) * list (nat * nat) * list (nat * nat) * (C * R) :=
  (map (fun phi => pidx ny nx (wave1 (fst k) (snd k) phi)) (angles (fst k) (snd k)), map (fun phi => pidx ny nx (wave2 (fst k) (snd k) phi)) (angles (fst k) (snd k)),
   map (fun phi => pidx ny nx (wave3 (fst k) (snd k) phi)) (angles (fst k) (snd k)), (csum_list (samples (fst k) (snd k)), lsum (map Cmod (samples (fst k) (snd k))))).
Definition grid : list (nat * nat) := list_prod (seq 0 (ny / 2)) (seq 0 (nx / 2)).

Lemma in_grid k : In k grid <-> (fst k < ny / 2 /\ snd k < nx / 2)%nat.
Proof. destruct k as [a b]. unfold grid. rewrite in_prod_iff, !in_seq. cbn [fst snd]. lia. Qed.

Theorem compute_value : (forall k1 k2 phi, (k1 < ny / 2)%nat -> (k2 < nx / 2)%nat -> In phi (angles k1 k2) -> waves_inside ny nx k1 k2 phi) ->
  (forall k1 k2, (k1 < ny / 2)%nat -> (k2 < nx / 2)%nat -> angles k1 k2 <> []) ->
  exists r, compute_bispectrum ny nx img ms angles = Ok r /\ s_tracker r = fold_left tally (map hit_cell grid) (fun _ => 0%Z) /\
    forall k1 k2, (k1 < ny / 2)%nat -> (k2 < nx / 2)%nat ->
      s_bispectrum r k1 k2 = csum_list (samples k1 k2) /\
      s_bicoherence r k1 k2 = fdiv (Fin (Cmod (csum_list (samples k1 k2)))) (Fin (lsum (map Cmod (samples k1 k2)))) /\
      s_logamp r k1 k2 = flog10 (Cmod (csum_list (samples k1 k2))).
Proof.
  intros W N. unfold compute_bispectrum. cbv zeta. fold grid.
  rewrite (each_map _ hit_cell).
  - cbn [bind]. eexists. split; [reflexivity |]. cbn [s_tracker s_bispectrum s_bicoherence s_logamp]. split; [reflexivity |].
    intros k1 k2 H1 H2. unfold grid. rewrite nth_grid by assumption. cbn [hit_cell fst snd]. auto.
  - intros k K. apply in_grid in K. destruct K as [K1 K2]. rewrite cell_ok; [| now apply N | intros phi P; now apply W].
    unfold hit_cell. assert (Y : (0 < ny)%nat) by (destruct ny; [cbn in K1; lia | lia]). assert (X : (0 < nx)%nat) by (destruct nx; [cbn in K2; lia | lia]).
    assert (E : map (fun phi => triple (fun k => dft2 ny nx (fun i j => RtoC (if ms then fill (img i j) - rsum ny (fun i => rsum nx (fun j => fill (img i j))) / INR (ny * nx) else fill (img i j)))
        (fst (pidx ny nx k)) (snd (pidx ny nx k))) (wave1 (fst k) (snd k) phi) (wave2 (fst k) (snd k) phi) (wave3 (fst k) (snd k) phi)) (angles (fst k) (snd k)) = samples (fst k) (snd k)).
    { apply map_ext. intro phi. unfold triple. rewrite !(mode_dft ny nx used_data) by assumption. reflexivity. }
    rewrite E. reflexivity.
Qed.
End Surface.

Lemma sum_bound l : Cmod (csum_list l) <= lsum (map Cmod l).
Proof.
  induction l as [| a l IH]; cbn [csum_list fold_right map].
  - rewrite Cmod_0. cbn. lra.
  - rewrite lsum_cons. eapply Rle_trans; [apply Cmod_triangle |]. unfold csum_list in IH. lra.
Qed.
Lemma sum_mod_nonneg l : 0 <= lsum (map Cmod l).
Proof. apply lsum_nonneg. intros x I. apply in_map_iff in I. destruct I as [c [<- _]]. apply Cmod_ge_0. Qed.

Lemma ratio_value l : let b := fdiv (Fin (Cmod (csum_list l))) (Fin (lsum (map Cmod l))) in
  ((forall c, In c l -> c = RtoC 0) -> b = NaN) /\
  ((exists c, In c l /\ c <> RtoC 0) -> exists v, b = Fin v /\ 0 <= v <= 1 /\ v * lsum (map Cmod l) = Cmod (csum_list l)).
Proof.
  intro b. pose proof (sum_bound l) as B. pose proof (sum_mod_nonneg l) as P. split.
  - intro Z. assert (E : lsum (map Cmod l) = 0).
    { clear b B P. induction l as [| a l IH]; [reflexivity |]. cbn [map]. rewrite lsum_cons. rewrite (Z a) by now left. rewrite Cmod_0, IH; [lra |]. intros; apply Z; now right. }
    unfold b. rewrite E. assert (M : Cmod (csum_list l) = 0) by (pose proof (Cmod_ge_0 (csum_list l)); lra). rewrite M. cbn. destruct (Reqb_spec 0 0); [| lra]. unfold sinf. destruct (Rltb_spec 0 0); [lra |]. reflexivity.
  - intros [c [I N]]. assert (Q : 0 < lsum (map Cmod l)).
    { assert (Cmod c <= lsum (map Cmod l)).
      { clear b B. induction l as [| a l IH]; [destruct I |]. cbn [map] in *. rewrite lsum_cons in *. destruct I as [-> | I].
        - pose proof (sum_mod_nonneg l). lra.
        - pose proof (Cmod_ge_0 a). pose proof (IH (sum_mod_nonneg l) I). lra. }
      assert (0 < Cmod c) by now apply Cmod_gt_0. lra. }
    exists (Cmod (csum_list l) / lsum (map Cmod l)). unfold b. cbn. destruct (Reqb_spec (lsum (map Cmod l)) 0); [lra |]. split; [reflexivity |]. split.
    + split; [unfold Rdiv; apply Rmult_le_pos; [apply Cmod_ge_0 | left; apply Rinv_0_lt_compat; lra] |]. apply Rmult_le_reg_r with (lsum (map Cmod l)); [lra |]. unfold Rdiv. rewrite Rmult_assoc, Rinv_l by lra. lra.
    + field. lra.
Qed.

(** ** C60, C61 *)
Lemma draws_unique k1 k2 phi w1 w2 w3 : draws k1 k2 phi w1 w2 w3 -> w1 = wave1 k1 k2 phi /\ w2 = wave2 k1 k2 phi /\ w3 = wave3 k1 k2 phi.
Proof.
  intros [A [B [D [E [F G]]]]]. destruct w1, w2, w3. unfold wave1, wave2, wave3. cbn [fst snd] in *.
  repeat split; apply f_equal2; (eapply truncates_unique; [eassumption | apply trunc_truncates]).
Qed.
Lemma draws_waves k1 k2 phi : draws k1 k2 phi (wave1 k1 k2 phi) (wave2 k1 k2 phi) (wave3 k1 k2 phi).
Proof. repeat split; apply trunc_truncates. Qed.


Lemma fits_inside ny nx k1 k2 phi : fits ny nx -> (k1 < ny / 2)%nat -> (k2 < nx / 2)%nat -> waves_inside ny nx k1 k2 phi.
Proof. unfold fits. intros F A B. apply all_inside; lia. Qed.

Theorem bispectrum_value ny nx img ms angles : fits ny nx -> (forall k1 k2, (k1 < ny / 2)%nat -> (k2 < nx / 2)%nat -> angles k1 k2 <> []) ->
  exists r, compute_bispectrum ny nx img ms angles = Ok r /\
    forall k1 k2 w1 w2 w3 data, (k1 < ny / 2)%nat -> (k2 < nx / 2)%nat ->
      (forall phi, In phi (angles k1 k2) -> draws k1 k2 phi (w1 phi) (w2 phi) (w3 phi)) ->
      (forall i j, data i j = if ms then pix_data img i j - rsum ny (fun i => rsum nx (pix_data img i)) / INR (ny * nx) else pix_data img i j) ->
      let samps := map (fun phi => triple (mode ny nx data) (w1 phi) (w2 phi) (w3 phi)) (angles k1 k2) in
      s_bispectrum r k1 k2 = csum_list samps /\
      ((forall c, In c samps -> c = RtoC 0) -> s_bicoherence r k1 k2 = NaN) /\
      ((exists c, In c samps /\ c <> RtoC 0) -> exists v, s_bicoherence r k1 k2 = Fin v /\ 0 <= v <= 1 /\ v * lsum (map Cmod samps) = Cmod (csum_list samps)).
Proof.
  intros F N. destruct (compute_value ny nx img ms angles) as [r [E [_ V]]]; [intros; now apply fits_inside | assumption |].
  exists r. split; [exact E |]. intros k1 k2 w1 w2 w3 data K1 K2 D U samps. destruct (V k1 k2 K1 K2) as [V1 [V2 _]].
  assert (S : samps = samples ny nx img ms angles k1 k2).
  { unfold samps, samples. apply map_ext_in. intros phi I. destruct (draws_unique _ _ _ _ _ _ (D phi I)) as [-> [-> ->]].
    assert (M : forall k, mode ny nx data k = mode ny nx (used_data ny nx img ms) k).
    { intro k. unfold mode. apply csum_ext. intros i _. apply csum_ext. intros j _. rewrite U. reflexivity. }
    unfold triple. now rewrite !M. }
  rewrite S. split; [exact V1 |]. rewrite V2. apply ratio_value.
Qed.

(** the sampling is valid for every set of angles exactly when it fits *)
Lemma trunc_Z z : trunc (IZR z) = z.
Proof.
  apply (truncates_unique (IZR z)); [apply trunc_truncates |]. unfold truncates. split; [lra |]. pose proof (Rle_0_sqr (IZR z)). unfold Rsqr in *. lra.
Qed.
Lemma trunc_nat n : trunc (INR n) = Z.of_nat n.
Proof. rewrite INR_IZR_INZ. apply trunc_Z. Qed.

Lemma cell_bad ny nx fft k1 k2 a : is_ok (at_wave ny nx (wave3 k1 k2 a)) = false -> is_ok (cell ny nx fft k1 k2 [a]) = false.
Proof.
  intro H. unfold cell. cbn [length Nat.eqb]. destruct (each _ (map (wave1 k1 k2) [a])); [| reflexivity]. cbn [bind]. destruct (each _ (map (wave2 k1 k2) [a])); [| reflexivity]. cbn [bind].
  assert (B : is_ok (each (at_wave ny nx) (map (wave3 k1 k2) [a])) = false) by (apply (each_err _ (wave3 k1 k2 a)); [now left | assumption]).
  destruct (each (at_wave ny nx) (map (wave3 k1 k2) [a])); [discriminate | reflexivity].
Qed.

Theorem sampling_fails ny nx img ms : (2 <= ny)%nat -> (2 <= nx)%nat -> ~ fits ny nx ->
  exists angles, (forall k1 k2, angles k1 k2 <> []) /\ is_ok (compute_bispectrum ny nx img ms angles) = false.
Proof.
  unfold fits. intros Y X G. apply Nat.nle_gt in G.
  assert (HY : (1 <= ny / 2)%nat) by (apply Nat.div_le_lower_bound; lia). assert (HX : (1 <= nx / 2)%nat) by (apply Nat.div_le_lower_bound; lia).
  set (a := if Nat.leb ny nx then 0 else PI / 2). exists (fun _ _ => [(a, a)]). split; [discriminate |].
  unfold compute_bispectrum. cbv zeta.
  match goal with |- is_ok (bind ?e _) = false => assert (B : is_ok e = false) end.
  { apply (each_err _ (ny / 2 - 1, nx / 2 - 1)%nat); [apply in_prod; apply in_seq; lia |]. cbn [fst snd]. apply cell_bad.
    unfold wave3, at_wave. cbn [fst snd]. unfold a. destruct (Nat.leb_spec ny nx) as [L | L].
    - rewrite cos_0, !Rmult_1_r, <- plus_INR, trunc_nat. rewrite (np_index_err ny) by lia. reflexivity.
    - destruct (np_index ny _); [| reflexivity]. cbn [bind]. rewrite sin_PI2, !Rmult_1_r, <- plus_INR, trunc_nat. rewrite (np_index_err nx) by lia. reflexivity. }
  match goal with |- is_ok (bind ?e _) = false => destruct e; [discriminate | reflexivity] end.
Qed.

Theorem sampling_valid ny nx img ms : (2 <= ny)%nat -> (2 <= nx)%nat ->
  ((forall angles, (forall k1 k2, (k1 < ny / 2)%nat -> (k2 < nx / 2)%nat -> angles k1 k2 <> []) -> is_ok (compute_bispectrum ny nx img ms angles) = true)
   <-> fits ny nx).
Proof.
  intros Y X. split.
  - intro H. destruct (Nat.le_gt_cases (ny / 2 + nx / 2) (Nat.min ny nx + 1)) as [| G]; [assumption | exfalso].
    destruct (sampling_fails ny nx img ms Y X) as [angles [N E]]; [unfold fits; lia |]. rewrite H in E; [discriminate | auto].
  - intros F angles N. destruct (bispectrum_value ny nx img ms angles F N) as [r [-> _]]. reflexivity.
Qed.

Lemma fits_square n : fits n n.
Proof. unfold fits. rewrite Nat.min_id. pose proof (Nat.div_mod n 2). lia. Qed.
Theorem sampling_square n img ms angles : (forall k1 k2, (k1 < n / 2)%nat -> (k2 < n / 2)%nat -> angles k1 k2 <> []) -> is_ok (compute_bispectrum n n img ms angles) = true.
Proof. intro N. destruct (bispectrum_value n n img ms angles (fits_square n) N) as [r [-> _]]. reflexivity. Qed.
Theorem sampling_rectangle img ms : exists angles, (forall k1 k2, angles k1 k2 <> []) /\ is_ok (compute_bispectrum 32 64 img ms angles) = false.
Proof. apply sampling_fails; [lia | lia |]. unfold fits. cbn. lia. Qed.
