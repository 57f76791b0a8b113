(** Proofs about Model/BispecRun.v. *)
From Coq Require Import Reals String List ZArith Arith Bool Lia Lra.
From Coquelicot Require Import Complex.
From Verif Require Import Lib.PyBase Lib.Arr Lib.DFT Lib.Fl Lib.RSum Lib.Bins Spec.Bins Spec.Waves Model.StatsUtils Model.Psds Model.Units Model.Bispec Model.BispecRun
  Proofs.Bispec_Proofs Proofs.Bispec2_Proofs Proofs.Bispec3_Proofs.
Import ListNotations.
Local Open Scope R_scope.

Lemma until_each {A B} (f : A -> result B) l : match each f l with
  | Ok bs => until_raised f l = (bs, None)
  | Err e => exists done, until_raised f l = (done, Some e)
  end.
Proof.
  induction l as [|a l IH]; [reflexivity|]. cbn [each until_raised]. destruct (f a) as [b|e]; cbn [bind]; [|now exists []].
  destruct (each f l) as [bs|e]; cbn [bind].
  - rewrite IH. reflexivity.
  - destruct IH as [done IH]. rewrite IH. now exists (b :: done).
Qed.

(** The angles drawn for a cell of an image *)
Definition drawn (rng : Z -> nat -> nat -> list (R * R)) (im : image) (a : bargs) (k1 k2 : nat) : list (R * R) := rng (a_seed a) (a_nsamples a) (k1 * (i_nx im / 2) + k2)%nat.
Lemma run_value rng im o a : match compute_bispectrum (i_ny im) (i_nx im) (i_pix im) (a_mean a) (drawn rng im a) with
  | Ok r => run rng im o a = (mk_b (Some (s_bispectrum r)) (Some (s_bicoherence r)) (Some (s_logamp r)) (Some (s_tracker r)), None)
  | Err e => exists B T, run rng im o a = (mk_b (Some B) (Some (fun _ _ => Fin 0)) (b_logamp o) (Some T), Some e)
  end.
Proof.
  unfold compute_bispectrum, run, compute, drawn. cbv zeta.
  set (f := fun k : nat * nat => cell _ _ _ (fst k) (snd k) _). pose proof (until_each f (list_prod (seq 0 (i_ny im / 2)) (seq 0 (i_nx im / 2)))) as U.
  destruct (each f _) as [bs|e]; cbn [bind].
  - rewrite U. cbn [fst snd s_bispectrum s_bicoherence s_logamp s_tracker]. reflexivity.
  - destruct U as [done U]. rewrite U. cbn [fst snd]. eexists. eexists. reflexivity.
Qed.

Definition all_drawn (rng : Z -> nat -> nat -> list (R * R)) (im : image) (a : bargs) : Prop :=
  forall n, (n < (i_ny im / 2) * (i_nx im / 2))%nat -> rng (a_seed a) (a_nsamples a) n <> [].
Lemma all_drawn_cells rng im a : all_drawn rng im a -> forall k1 k2, (k1 < i_ny im / 2)%nat -> (k2 < i_nx im / 2)%nat -> drawn rng im a k1 k2 <> [].
Proof. intros H k1 k2 H1 H2. apply H. nia. Qed.

Theorem run_surfaces : forall rng im l a, fits (i_ny im) (i_nx im) -> (forall n, (n < (i_ny im / 2) * (i_nx im / 2))%nat -> rng (a_seed a) (a_nsamples a) n <> []) ->
  exists o B K, run rng im (history rng im fresh l) a = (o, None) /\ b_bispectrum o = Some B /\ b_bicoherence o = Some K /\
    forall k1 k2 w1 w2 w3 data, (k1 < i_ny im / 2)%nat -> (k2 < i_nx im / 2)%nat ->
      let angles := rng (a_seed a) (a_nsamples a) (k1 * (i_nx im / 2) + k2)%nat in
      (forall phi, In phi angles -> draws k1 k2 phi (w1 phi) (w2 phi) (w3 phi)) ->
      (forall i j, data i j = analysed (i_ny im) (i_nx im) (a_mean a) (i_pix im) i j) ->
      let samps := map (fun phi => triple (mode (i_ny im) (i_nx im) data) (w1 phi) (w2 phi) (w3 phi)) angles in
      B k1 k2 = csum_list samps /\
      ((forall c, In c samps -> c = RtoC 0) -> K k1 k2 = NaN) /\
      ((exists c, In c samps /\ c <> RtoC 0) -> exists v, K k1 k2 = Fin v /\ 0 <= v <= 1 /\ v * lsum (map Cmod samps) = Cmod (csum_list samps)).
Proof.
  intros rng im l a F D. pose proof (all_drawn_cells rng im a D) as D'.
  destruct (bispectrum_value (i_ny im) (i_nx im) (i_pix im) (a_mean a) (drawn rng im a) F D') as [r [E V]].
  pose proof (run_value rng im (history rng im fresh l) a) as RV. rewrite E in RV. rewrite RV.
  exists (mk_b (Some (s_bispectrum r)) (Some (s_bicoherence r)) (Some (s_logamp r)) (Some (s_tracker r))), (s_bispectrum r), (s_bicoherence r).
  split; [reflexivity|]. split; [reflexivity|]. split; [reflexivity|]. intros k1 k2 w1 w2 w3 data H1 H2 angles DR DA. exact (V k1 k2 w1 w2 w3 data H1 H2 DR DA).
Qed.

Theorem run_forgets : forall rng im o1 o2 a o, run rng im o1 a = (o, None) -> run rng im o2 a = (o, None).
Proof.
  intros rng im o1 o2 a o H. pose proof (run_value rng im o1 a) as V1. pose proof (run_value rng im o2 a) as V2.
  destruct (compute_bispectrum _ _ _ _ _) as [r|e]; [congruence|]. destruct V1 as (B&T&V1). congruence.
Qed.

Theorem run_failed : forall rng im o1 a o e, run rng im o1 a = (o, Some e) -> b_bicoherence o = Some (fun _ _ => Fin 0) /\ b_logamp o = b_logamp o1.
Proof.
  intros rng im o1 a o e H. pose proof (run_value rng im o1 a) as V1. destruct (compute_bispectrum _ _ _ _ _) as [r|e']; [congruence|].
  destruct V1 as (B&T&V1). rewrite V1 in H. injection H as <- _. now split.
Qed.
Lemma norm_neg hy hx s : grid_norm hy hx (fun i j => 0 - s i j) = grid_norm hy hx s.
Proof. unfold grid_norm. f_equal. apply rsum_ext. intros i Hi. apply rsum_ext. intros j Hj. ring. Qed.
Lemma zero_sum n : rsum n (fun _ => 0) = 0.
Proof. induction n as [|n IH]; cbn [rsum]; lra. Qed.

(** An object whose run raised is taken as it is, with a bicoherence of zeros. *)
Theorem failed_distance : forall rng im1 o1 im2 o2 a o e s v kw, run rng im1 o1 a = (o, Some e) ->
  i_ny im2 = i_ny im1 -> i_nx im2 = i_nx im1 -> (2 <= i_ny im1)%nat -> (2 <= i_nx im1)%nat ->
  b_bicoherence o2 = Some s -> (forall i j, (i < i_ny im1 / 2)%nat -> (j < i_nx im1 / 2)%nat -> s i j = Fin (v i j)) ->
  distance rng (Object im1 o) (Object im2 o2) kw = Ok (o, o2, Fin (grid_norm (i_ny im1 / 2) (i_nx im1 / 2) v),
    Fin (Rabs (rsum (i_ny im1 / 2) (fun i => rsum (i_nx im1 / 2) (fun j => v i j))) / INR (i_ny im1 / 2 * (i_nx im1 / 2)))).
Proof.
  intros rng im1 o1 im2 o2 a o e s v kw H E1 E2 G1 G2 B V. destruct (run_failed _ _ _ _ _ _ H) as [Z _]. unfold distance, prepared. rewrite Z, B. rewrite Z, B. cbn [image_of]. rewrite E1, E2.
  assert (P1 : (0 < i_ny im1 / 2)%nat) by (apply Nat.div_str_pos; lia). assert (P2 : (0 < i_nx im1 / 2)%nat) by (apply Nat.div_str_pos; lia).
  rewrite (surface_value _ _ (fun _ _ => Fin 0) s (fun _ _ => 0) v) by auto. rewrite (mean_value _ _ (fun _ _ => Fin 0) s (fun _ _ => 0) v) by auto.
  rewrite norm_neg. rewrite (rsum_ext _ (fun i => rsum (i_nx im1 / 2) (fun j => 0)) (fun _ => 0)) by (intros; apply zero_sum). rewrite zero_sum. rewrite Rminus_0_l, Rabs_Ropp. reflexivity.
Qed.

(** Data are run with the options; objects with surfaces are not. *)
Theorem distance_value : forall rng g1 g2 kw o1 o2 ds dm s1 s2 v1 v2, prepared rng g1 kw = (o1, None) -> prepared rng g2 kw = (o2, None) ->
  b_bicoherence o1 = Some s1 -> b_bicoherence o2 = Some s2 ->
  distance rng g1 g2 kw = Ok (o1, o2, ds, dm) ->
  i_ny (image_of g2) = i_ny (image_of g1) -> i_nx (image_of g2) = i_nx (image_of g1) -> (2 <= i_ny (image_of g1))%nat -> (2 <= i_nx (image_of g1))%nat ->
  let hy := (i_ny (image_of g1) / 2)%nat in let hx := (i_nx (image_of g1) / 2)%nat in
  (forall i j, (i < hy)%nat -> (j < hx)%nat -> s1 i j = Fin (v1 i j)) -> (forall i j, (i < hy)%nat -> (j < hx)%nat -> s2 i j = Fin (v2 i j)) ->
  ds = Fin (grid_norm hy hx (fun i j => v1 i j - v2 i j)) /\
  dm = Fin (Rabs (rsum hy (fun i => rsum hx (fun j => v1 i j)) - rsum hy (fun i => rsum hx (fun j => v2 i j))) / INR (hy * hx)).
Proof.
  intros rng g1 g2 kw o1 o2 ds dm s1 s2 v1 v2 P1 P2 B1 B2 H E1 E2 G1 G2 hy hx V1 V2. unfold distance in H. rewrite P1, P2, B1, B2, E1, E2 in H. injection H as <- <-.
  assert (Q1 : (0 < hy)%nat) by (apply Nat.div_str_pos; lia). assert (Q2 : (0 < hx)%nat) by (apply Nat.div_str_pos; lia).
  split; [exact (surface_value hy hx s1 s2 v1 v2 V1 V2)|exact (mean_value hy hx s1 s2 v1 v2 Q1 Q2 V1 V2)].
Qed.

(** From data: each image gets the surfaces of its own run with the same options, and a run object
    gives the same distances as its data, whatever was called on it before. *)
Theorem distance_objects : forall rng im1 im2 kw l1 l2, fits (i_ny im1) (i_nx im1) -> fits (i_ny im2) (i_nx im2) ->
  (forall im, im = im1 \/ im = im2 -> forall n, (n < (i_ny im / 2) * (i_nx im / 2))%nat -> rng (a_seed kw) (a_nsamples kw) n <> []) ->
  exists o1 o2 ds dm, distance rng (Data im1) (Data im2) kw = Ok (o1, o2, ds, dm) /\
    run rng im1 (history rng im1 fresh l1) kw = (o1, None) /\ run rng im2 (history rng im2 fresh l2) kw = (o2, None) /\
    forall kw', distance rng (Object im1 o1) (Object im2 o2) kw' = Ok (o1, o2, ds, dm) /\ distance rng (Data im1) (Object im2 o2) kw = Ok (o1, o2, ds, dm) /\
                distance rng (Object im1 o1) (Data im2) kw = Ok (o1, o2, ds, dm).
Proof.
  intros rng im1 im2 kw l1 l2 F1 F2 D.
  destruct (run_surfaces rng im1 l1 kw F1 (D im1 (or_introl eq_refl))) as (o1&B1&K1&E1&_&KB1&_).
  destruct (run_surfaces rng im2 l2 kw F2 (D im2 (or_intror eq_refl))) as (o2&B2&K2&E2&_&KB2&_).
  pose proof (run_forgets rng im1 _ fresh kw o1 E1) as R1. pose proof (run_forgets rng im2 _ fresh kw o2 E2) as R2.
  exists o1, o2. eexists. eexists. unfold distance, prepared. rewrite R1, R2, KB1, KB2. rewrite KB1, KB2. cbn [image_of].
  split; [reflexivity|]. split; [exact E1|]. split; [exact E2|]. intros kw'. repeat split; reflexivity.
Qed.

(** An image whose runs can raise *)
Definition rng_of (angles : nat -> nat -> list (R * R)) (w : nat) : Z -> nat -> nat -> list (R * R) := fun _ _ n => angles (n / w)%nat (n mod w)%nat.
Theorem rectangle_fails : forall pix a, exists rng o e, (forall s m n, rng s m n <> []) /\ run rng (mk_im 32 64 pix) fresh a = (o, Some e).
Proof.
  intros pix a. destruct (sampling_rectangle pix (a_mean a)) as [angles [NE F]]. exists (rng_of angles 32).
  pose proof (run_value (rng_of angles 32) (mk_im 32 64 pix) fresh a) as V. cbn [i_ny i_nx i_pix] in V.
  assert (X : compute_bispectrum 32 64 pix (a_mean a) (drawn (rng_of angles 32) (mk_im 32 64 pix) a) = compute_bispectrum 32 64 pix (a_mean a) angles).
  { unfold compute_bispectrum. cbv zeta. set (g := list_prod _ _).
    assert (E : forall (f1 f2 : nat * nat -> result _) l, (forall k, In k l -> f1 k = f2 k) -> each (B := list (nat * nat) * list (nat * nat) * list (nat * nat) * (C * R)) f1 l = each f2 l).
    { intros f1 f2 l. induction l as [|k l IH]; intros Hk; [reflexivity|]. cbn [each]. rewrite (Hk k (or_introl eq_refl)), IH by (intros; apply Hk; now right). reflexivity. }
    rewrite (E _ (fun k => cell 32 64 (dft2 32 64 (fun i j => RtoC (if a_mean a then fill (pix i j) - rsum 32 (fun i => rsum 64 (fun j => fill (pix i j))) / INR (32 * 64) else fill (pix i j)))) (fst k) (snd k) (angles (fst k) (snd k)))); [reflexivity|].
    intros [k1 k2] Hk. apply in_prod_iff in Hk. destruct Hk as [Hk1 Hk2]. apply in_seq in Hk2. cbn [fst snd]. unfold drawn, rng_of. cbn [i_nx]. change (64 / 2)%nat with 32%nat in *.
    rewrite Nat.div_add_l, (Nat.add_comm (k1 * 32)), Nat.mod_add, Nat.div_small, Nat.mod_small, Nat.add_0_r by lia. reflexivity. }
  rewrite X in V. destruct (compute_bispectrum 32 64 pix (a_mean a) angles) as [r|e]; [discriminate|]. destruct V as (B&T&V). rewrite V. eexists. eexists. split; [|reflexivity].
  intros s m n. apply NE.
Qed.
