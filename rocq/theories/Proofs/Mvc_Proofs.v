From Coq Require Import Reals List ZArith Arith Bool Lia Lra.
From Coquelicot Require Import Complex.
From Verif Require Import Lib.PyBase Lib.PySlice Lib.Arr Lib.RSum Lib.Fl Lib.DFT Spec.Blank Spec.Freq Spec.Velocity Model.RfftToFft Model.Psds
  Model.Beam Model.Mvc Proofs.RfftToFft_Proofs Proofs.Psds_Proofs Proofs.ThreeD_Proofs Proofs.Beam_Proofs Proofs.Fl_Proofs Proofs.Bispec3_Proofs.
Import ListNotations.
Local Open Scope R_scope.

Definition t2 (k : option (nat -> nat -> R)) (c l : fl) (y x : nat) : fl :=
  match k with Some k => fadd (fsqr l) (fmul (fsqr c) (Fin (k y x))) | None => fadd (fsqr l) (fsqr c) end.
Definition q_of (ny nx : nat) (k : option (nat -> nat -> R)) (c l : nat -> nat -> fl) : fl :=
  nanmean (map (fun p => t2 k (c (fst p) (snd p)) (l (fst p) (snd p)) (fst p) (snd p)) (pixels ny nx)).

Lemma compute_fin ny nx d k rc rm : (1 <= ny)%nat -> (1 <= nx)%nat -> mvc_rows d = ny -> mvc_cols d = nx ->
  (forall y x, (y < ny)%nat -> (x < nx)%nat -> centroid d y x = Fin (rc y x)) ->
  (forall y x, (y < ny)%nat -> (x < nx)%nat -> moment0 d y x = Fin (rm y x)) ->
  mvc_compute d k false None = Ok (tab2 ny nx (fun i j =>
    fsqr (fabs (fsub (Fin (ft_abs ny nx (tapered k (fun y x => rc y x * rm y x)) (unshift ny i) (unshift nx j)))
                     (fmul (q_of ny nx k (centroid d) (linewidth d)) (Fin (ft_abs ny nx (tapered k rm) (unshift ny i) (unshift nx j)))))))).
Proof.
  intros Y X Ey Ex C M. unfold mvc_compute, beam_divide. rewrite Ey, Ex. cbv zeta.
  rewrite (abs_fft_fin ny nx _ (tapered k (fun y x => rc y x * rm y x))); [|assumption|assumption|].
  2:{ intros y x Hy Hx. rewrite C, M by assumption. destruct k; reflexivity. }
  rewrite (abs_fft_fin ny nx _ (tapered k rm)); [|assumption|assumption|].
  2:{ intros y x Hy Hx. rewrite M by assumption. destruct k; reflexivity. }
  rewrite map2_tab2, fftshift2_tab, map_tab2. apply (f_equal Ok). apply tab2_ext. intros i j _ _.
  unfold q_of, t2. destruct k; reflexivity.
Qed.

Lemma compute_nan ny nx d k y x : (y < ny)%nat -> (x < nx)%nat -> mvc_rows d = ny -> mvc_cols d = nx ->
  centroid d y x = NaN \/ moment0 d y x = NaN ->
  exists f, mvc_compute d k false None = Ok (tab2 ny nx f) /\ forall i j, (i < ny)%nat -> (j < nx)%nat -> f i j = NaN.
Proof.
  intros Y X Ey Ex H. unfold mvc_compute, beam_divide. rewrite Ey, Ex. cbv zeta.
  match goal with |- context [abs_fft ny nx ?g] => rewrite (abs_fft_nan ny nx g y x) end; [|assumption|assumption|].
  2:{ assert (P : fmul (centroid d y x) (moment0 d y x) = NaN).
      { destruct H as [-> | ->]; [destruct (moment0 d y x)|destruct (centroid d y x)]; reflexivity. }
      destruct k; rewrite P; reflexivity. }
  match goal with |- context [map2 _ _ (abs_fft ny nx ?g)] =>
    assert (T : exists h, abs_fft ny nx g = tab2 ny nx h); [|destruct T as [h T]; rewrite T] end.
  { unfold abs_fft. destruct (forallb _ _); [|eauto]. rewrite rfft_2d by lia. rewrite map_tab2. eauto. }
  rewrite map2_tab2, fftshift2_tab, map_tab2. eexists. split; [reflexivity|]. intros i j _ _. reflexivity.
Qed.

(** the mean of the second term *)
Lemma t2_blankable k c l y x : blankable c -> blankable l -> blankable (t2 k c l y x).
Proof. destruct k, c, l; cbn; tauto. Qed.
Lemma t2_nan k c l y x : blankable c -> blankable l -> (t2 k c l y x <> NaN <-> c <> NaN /\ l <> NaN).
Proof. destruct k, c, l; cbn; intros A B; try contradiction; split; try tauto; try discriminate; intros _; split; discriminate. Qed.

Lemma q_of_fin ny nx k c l : numbers_map ny nx c -> numbers_map ny nx l ->
  (exists y x, (y < ny)%nat /\ (x < nx)%nat /\ c y x <> NaN /\ l y x <> NaN) -> exists q, q_of ny nx k c l = Fin q.
Proof.
  intros C L (y & x & Y & X & Hc & Hl). unfold q_of.
  set (ts := map _ (pixels ny nx)).
  assert (B : Forall blankable ts).
  { apply Forall_forall. intros v V. apply in_map_iff in V. destruct V as ([y' x'] & <- & P). apply in_pixels in P. destruct P.
    apply t2_blankable; auto. }
  exists (rmean (fins ts)). apply nanmean_rmean; [exact B|].
  assert (N : In (t2 k (c y x) (l y x) y x) ts).
  { apply in_map_iff. exists (y, x). split; [reflexivity|]. apply in_pixels. tauto. }
  assert (Q : t2 k (c y x) (l y x) y x <> NaN) by (apply t2_nan; auto).
  rewrite Forall_forall in B. specialize (B _ N).
  destruct (t2 k (c y x) (l y x) y x) as [r| | |]; cbn in B; try contradiction.
  apply in_fins in N. intros E. rewrite E in N. contradiction.
Qed.

Lemma nonnan_nil l : (forall v, In v l -> v = NaN) -> nonnan l = [].
Proof.
  induction l as [|v l IH]; intros H; [reflexivity|]. unfold nonnan. cbn [filter]. rewrite (H v) by now left. cbn.
  apply IH. intros; apply H; now right.
Qed.

Lemma q_of_nan ny nx k c l : numbers_map ny nx c -> numbers_map ny nx l ->
  (forall y x, (y < ny)%nat -> (x < nx)%nat -> ~ (c y x <> NaN /\ l y x <> NaN)) -> q_of ny nx k c l = NaN.
Proof.
  intros C L H. unfold q_of, nanmean, nansum, nancount. rewrite nonnan_nil.
  - cbn. destruct (Reqb_spec 0 0); [|lra]. apply FlAlg_Proofs.sinf_zero.
  - intros v V. apply in_map_iff in V. destruct V as ([y x] & <- & P). apply in_pixels in P. destruct P as [Y X]. cbn [fst snd].
    specialize (H y x Y X). rewrite <- t2_nan with (k := k) (y := y) (x := x) in H by auto.
    destruct (t2 k (c y x) (l y x) y x); auto; exfalso; apply H; discriminate.
Qed.

Lemma init_ok ny nx c m l :
  mvc_init (map_of ny nx c) (map_of ny nx m) (map_of ny nx l) =
  Ok {| centroid := fun y x => if is_nan (c y x) && is_nan (m y x) && is_nan (l y x) then Fin 0 else c y x;
        moment0 := fun y x => if is_nan (c y x) && is_nan (m y x) && is_nan (l y x) then Fin 0 else m y x;
        linewidth := fun y x => if is_nan (c y x) && is_nan (m y x) && is_nan (l y x) then Fin 0 else l y x;
        mvc_rows := ny; mvc_cols := nx |}.
Proof. unfold mvc_init, map_of. cbn. rewrite !Nat.eqb_refl. reflexivity. Qed.

Lemma is_nan_iff v : is_nan v = true <-> v = NaN.
Proof. destruct v; cbn; split; intros; try discriminate; reflexivity. Qed.

Lemma all_nan a b c : is_nan a && is_nan b && is_nan c = true <-> a = NaN /\ b = NaN /\ c = NaN.
Proof. rewrite !andb_true_iff, !is_nan_iff. tauto. Qed.

Theorem blank_rule ny nx c m l k : (1 <= ny)%nat -> (1 <= nx)%nat ->
  numbers_map ny nx c -> numbers_map ny nx m -> numbers_map ny nx l ->
  exists ps, mvc_ps2D (map_of ny nx c) (map_of ny nx m) (map_of ny nx l) k false None = Ok ps /\
  (usable ny nx c m l -> forall i j, (i < ny)%nat -> (j < nx)%nat -> exists v, at2 NaN ps i j = Fin v) /\
  (~ usable ny nx c m l -> forall i j, (i < ny)%nat -> (j < nx)%nat -> at2 NaN ps i j = NaN).
Proof.
  intros Y X C M L. unfold mvc_ps2D. rewrite init_ok. cbn [bind].
  set (d := {| centroid := _ |}).
  assert (Cd : numbers_map ny nx (centroid d)) by (intros y x Hy Hx; cbn; destruct (_ && _); [exact I|now apply C]).
  assert (Ld : numbers_map ny nx (linewidth d)) by (intros y x Hy Hx; cbn; destruct (_ && _); [exact I|now apply L]).
  destruct (existsb (fun p => is_nan (centroid d (fst p) (snd p)) || is_nan (moment0 d (fst p) (snd p))) (pixels ny nx)) eqn:B.
  - apply existsb_exists in B. destruct B as ([y x] & P & B). apply in_pixels in P. destruct P as [Hy Hx]. cbn [fst snd] in B.
    assert (B' : centroid d y x = NaN \/ moment0 d y x = NaN).
    { apply orb_true_iff in B. rewrite !is_nan_iff in B. exact B. }
    destruct (compute_nan ny nx d k y x Hy Hx eq_refl eq_refl B') as (f & -> & F). cbn [bind].
    rewrite flip2_tab. eexists. split; [reflexivity|]. split.
    + intros [U _]. exfalso. cbn in B'. destruct (is_nan (c y x) && is_nan (m y x) && is_nan (l y x)) eqn:E.
      * destruct B'; discriminate.
      * specialize (U y x Hy Hx B'). apply all_nan in U. congruence.
    + intros _ i j Hi Hj. rewrite at2_tab by assumption. apply F; lia.
  - assert (N : forall y x, (y < ny)%nat -> (x < nx)%nat -> centroid d y x <> NaN /\ moment0 d y x <> NaN).
    { intros y x Hy Hx. split; intros E.
      - assert (existsb (fun p => is_nan (centroid d (fst p) (snd p)) || is_nan (moment0 d (fst p) (snd p))) (pixels ny nx) = true); [|congruence].
        apply existsb_exists. exists (y, x). split; [apply in_pixels; tauto|]. cbn [fst snd]. now rewrite E.
      - assert (existsb (fun p => is_nan (centroid d (fst p) (snd p)) || is_nan (moment0 d (fst p) (snd p))) (pixels ny nx) = true); [|congruence].
        apply existsb_exists. exists (y, x). split; [apply in_pixels; tauto|]. cbn [fst snd]. rewrite E. apply orb_true_r. }
    rewrite (compute_fin ny nx d k (fun y x => real_of (centroid d y x)) (fun y x => real_of (moment0 d y x))); auto.
    2:{ intros y x Hy Hx. destruct (N y x Hy Hx) as [A _]. specialize (Cd y x Hy Hx). destruct (centroid d y x); cbn in *; tauto. }
    2:{ intros y x Hy Hx. destruct (N y x Hy Hx) as [_ A].
        assert (Md : blankable (moment0 d y x)) by (cbn; destruct (_ && _); [exact I|now apply M]). destruct (moment0 d y x); cbn in *; tauto. }
    cbn [bind]. rewrite flip2_tab. eexists. split; [reflexivity|].
    assert (First : forall y x, (y < ny)%nat -> (x < nx)%nat -> c y x = NaN \/ m y x = NaN -> c y x = NaN /\ m y x = NaN /\ l y x = NaN).
    { intros y x Hy Hx H. apply all_nan. destruct (is_nan (c y x) && is_nan (m y x) && is_nan (l y x)) eqn:E; [reflexivity|].
      destruct (N y x Hy Hx) as [A A']. cbn in A, A'. rewrite E in A, A'. tauto. }
    assert (Second : (exists y x, (y < ny)%nat /\ (x < nx)%nat /\
              ((c y x <> NaN /\ l y x <> NaN) \/ (c y x = NaN /\ m y x = NaN /\ l y x = NaN))) <->
            exists y x, (y < ny)%nat /\ (x < nx)%nat /\ centroid d y x <> NaN /\ linewidth d y x <> NaN).
    { split; intros (y & x & Hy & Hx & H); exists y, x; split; auto; split; auto.
      - cbn. destruct (is_nan (c y x) && is_nan (m y x) && is_nan (l y x)) eqn:E; [split; discriminate|].
        destruct H as [H|H]; [exact H|]. apply all_nan in H. congruence.
      - cbn in H. destruct (is_nan (c y x) && is_nan (m y x) && is_nan (l y x)) eqn:E; [right; now apply all_nan|now left]. }
    split.
    + intros [_ U]. apply Second in U. destruct (q_of_fin ny nx k _ _ Cd Ld U) as [q Q].
      intros i j Hi Hj. rewrite at2_tab by assumption. rewrite Q. cbn. eauto.
    + intros U i j Hi Hj. rewrite at2_tab by assumption.
      rewrite (q_of_nan ny nx k _ _ Cd Ld).
      * reflexivity.
      * intros y x Hy Hx A. apply U. split; [exact First|]. apply Second. exists y, x. tauto.
Qed.

Lemma with_pixel_same y x v a : with_pixel y x v a y x = v.
Proof. unfold with_pixel. now rewrite !Nat.eqb_refl. Qed.

Theorem one_blank ny nx (c m l : nat -> nat -> R) k y0 x0 : (y0 < ny)%nat -> (x0 < nx)%nat ->
  let blank a := map_of ny nx (with_pixel y0 x0 NaN (fun y x => Fin (a y x))) in
  (exists ps, mvc_ps2D (blank c) (full ny nx m) (full ny nx l) k false None = Ok ps /\
     forall i j, (i < ny)%nat -> (j < nx)%nat -> at2 NaN ps i j = NaN) /\
  (exists ps, mvc_ps2D (full ny nx c) (blank m) (full ny nx l) k false None = Ok ps /\
     forall i j, (i < ny)%nat -> (j < nx)%nat -> at2 NaN ps i j = NaN).
Proof.
  intros Y X blank.
  assert (NF : forall a : nat -> nat -> R, numbers_map ny nx (fun y x => Fin (a y x))) by (intros a y x _ _; exact I).
  assert (NB : forall a : nat -> nat -> R, numbers_map ny nx (with_pixel y0 x0 NaN (fun y x => Fin (a y x)))).
  { intros a y x _ _. unfold with_pixel. destruct (_ && _); exact I. }
  split.
  - destruct (blank_rule ny nx _ _ _ k ltac:(lia) ltac:(lia) (NB c) (NF m) (NF l)) as (ps & E & _ & N).
    exists ps. split; [exact E|]. apply N. intros [U _]. destruct (U y0 x0 Y X) as (_ & A & _); [left; apply with_pixel_same|discriminate].
  - destruct (blank_rule ny nx _ _ _ k ltac:(lia) ltac:(lia) (NF c) (NB m) (NF l)) as (ps & E & _ & N).
    exists ps. split; [exact E|]. apply N. intros [U _]. destruct (U y0 x0 Y X) as (A & _ & _); [right; apply with_pixel_same|discriminate].
Qed.

Lemma abs_fft_ext ny nx a b : (forall y x, (y < ny)%nat -> (x < nx)%nat -> a y x = b y x) -> abs_fft ny nx a = abs_fft ny nx b.
Proof.
  intros H. destruct (Nat.eq_dec ny 0) as [->|NY]; [|destruct (Nat.eq_dec nx 0) as [->|NX]].
  - unfold abs_fft, pixels. cbn [seq list_prod forallb]. reflexivity.
  - assert (P : pixels ny 0 = []).
    { unfold pixels. clear. induction (seq 0 ny) as [|s l IH]; [reflexivity|]. cbn. exact IH. }
    unfold abs_fft. rewrite P. cbn [forallb]. 
    assert (R : rfft2_abs ny 0 (fun y x => real_of (a y x)) = rfft2_abs ny 0 (fun y x => real_of (b y x))).
    { unfold rfft2_abs. apply tab2_ext. intros ky kx _ _. reflexivity. }
    unfold rfft_to_fft. cbv zeta. rewrite R. reflexivity.
  - destruct (forallb (fun p => is_fin (a (fst p) (snd p))) (pixels ny nx)) eqn:E.
    + rewrite forallb_forall in E.
      assert (F : forall y x, (y < ny)%nat -> (x < nx)%nat -> a y x = Fin (real_of (a y x))).
      { intros y x Y X. specialize (E (y, x)). cbn [fst snd] in E. rewrite in_pixels in E. specialize (E (conj Y X)). destruct (a y x); try discriminate; reflexivity. }
      rewrite (abs_fft_fin ny nx a (fun y x => real_of (a y x))) by (auto; lia).
      rewrite (abs_fft_fin ny nx b (fun y x => real_of (a y x))); [reflexivity|lia|lia|]. intros y x Y X. rewrite <- H by assumption. auto.
    + assert (E' : exists p, In p (pixels ny nx) /\ is_fin (a (fst p) (snd p)) = false).
      { clear -E. induction (pixels ny nx) as [|p l IH]; [discriminate|]. cbn in E. destruct (is_fin (a (fst p) (snd p))) eqn:Q.
        - destruct (IH E) as (p' & A & B). exists p'. split; [now right|assumption].
        - exists p. split; [now left|assumption]. }
      destruct E' as ([y x] & P & Q). apply in_pixels in P. destruct P as [Y X]. cbn [fst snd] in Q.
      rewrite (abs_fft_nan ny nx a y x) by assumption. rewrite (abs_fft_nan ny nx b y x); [reflexivity|assumption|assumption|]. now rewrite <- H.
Qed.

Lemma compute_ext d d' k bc beam : mvc_rows d = mvc_rows d' -> mvc_cols d = mvc_cols d' ->
  (forall y x, (y < mvc_rows d)%nat -> (x < mvc_cols d)%nat -> centroid d y x = centroid d' y x /\ moment0 d y x = moment0 d' y x /\ linewidth d y x = linewidth d' y x) ->
  mvc_compute d k bc beam = mvc_compute d' k bc beam.
Proof.
  intros R C H. unfold mvc_compute. rewrite <- R, <- C. cbv zeta.
  match goal with |- context [map2 _ (abs_fft ?ny ?nx ?g) (abs_fft _ _ ?h)] =>
    rewrite (abs_fft_ext ny nx g (fun y x => match k with Some k => fmul (fmul (centroid d' y x) (moment0 d' y x)) (Fin (k y x)) | None => fmul (centroid d' y x) (moment0 d' y x) end));
    [rewrite (abs_fft_ext ny nx h (fun y x => match k with Some k => fmul (moment0 d' y x) (Fin (k y x)) | None => moment0 d' y x end))|] end.
  2,3: intros y x Y X; destruct (H y x Y X) as (A & B & _); cbv beta; try rewrite A; try rewrite B; reflexivity.
  assert (Q : forall ps, map (fun p => match k with
     | Some k0 => fadd (fsqr (linewidth d (fst p) (snd p))) (fmul (fsqr (centroid d (fst p) (snd p))) (Fin (k0 (fst p) (snd p))))
     | None => fadd (fsqr (linewidth d (fst p) (snd p))) (fsqr (centroid d (fst p) (snd p))) end) (ps) =
     map (fun p => match k with
     | Some k0 => fadd (fsqr (linewidth d' (fst p) (snd p))) (fmul (fsqr (centroid d' (fst p) (snd p))) (Fin (k0 (fst p) (snd p))))
     | None => fadd (fsqr (linewidth d' (fst p) (snd p))) (fsqr (centroid d' (fst p) (snd p))) end) (ps) \/ ~ incl ps (pixels (mvc_rows d) (mvc_cols d))).
  { induction ps as [|p ps IH]; [now left|]. destruct IH as [IH|IH].
    - destruct (in_dec (fun a b : nat * nat => ltac:(decide equality; apply Nat.eq_dec)) p (pixels (mvc_rows d) (mvc_cols d))) as [I|I].
      + left. cbn [map]. rewrite IH. f_equal. destruct p as [y x]. apply in_pixels in I. destruct I as [Y X]. cbn [fst snd].
        destruct (H y x Y X) as (-> & _ & ->). reflexivity.
      + right. intros J. apply I. apply J. now left.
    - right. intros J. apply IH. intros q Hq. apply J. now right. }
  destruct (Q (pixels (mvc_rows d) (mvc_cols d))) as [->|N]; [reflexivity|]. exfalso. apply N. intros q; auto.
Qed.

Theorem common_blanks ny nx c m l k bc beam :
  (forall y x, (y < ny)%nat -> (x < nx)%nat -> (c y x = NaN <-> m y x = NaN) /\ (c y x = NaN <-> l y x = NaN)) ->
  mvc_ps2D (map_of ny nx c) (map_of ny nx m) (map_of ny nx l) k bc beam =
  mvc_ps2D (map_of ny nx (zero_filled c)) (map_of ny nx (zero_filled m)) (map_of ny nx (zero_filled l)) k bc beam.
Proof.
  intros H. unfold mvc_ps2D. rewrite !init_ok. cbn [bind].
  match goal with |- bind (mvc_compute ?d _ _ _) _ = bind (mvc_compute ?d' _ _ _) _ => rewrite (compute_ext d d' k bc beam) end; [reflexivity| | |]; try reflexivity.
  cbn. intros y x Y X. destruct (H y x Y X) as [A B]. unfold zero_filled.
  destruct (c y x), (m y x), (l y x); cbn; try (repeat split; reflexivity); exfalso; clear -A B; intuition discriminate.
Qed.
