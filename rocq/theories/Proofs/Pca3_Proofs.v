(** Proofs about Model/Pca.v: widths, beam correction and covariance (C27, C28, C81, C82). *)
From Coq Require Import Reals List ZArith Lia Lra Arith Bool.
From Verif Require Import Lib.PyBase Lib.RSum Lib.Fl Lib.Arr Lib.ListMore Spec.Blank Spec.Components
  Model.StatsUtils Model.Psds Model.Pca Proofs.Fl_Proofs Proofs.StatsUtils_Proofs Proofs.Psds_Proofs Proofs.Pca_Proofs.
Import ListNotations.
Local Open Scope R_scope.

(** ** walk-down *)
Lemma fold_Rmax_le m l d : d <= m -> (forall v, In v l -> v <= m) -> fold_right Rmax d l <= m.
Proof.
  intros Hd H. induction l as [|a l IH]; cbn; auto. apply Rmax_lub; [apply H; now left|]. apply IH. intros; apply H; now right.
Qed.
Lemma fold_Rmax_ge d l : d <= fold_right Rmax d l.
Proof. induction l; cbn; [lra|]. eapply Rle_trans; [exact IHl|apply Rmax_r]. Qed.
Lemma fmax_first y : (forall v, In v y -> v <= nth 0 y 0) -> fmax_list y = nth 0 y 0.
Proof.
  intros H. unfold fmax_list. replace (hd 0 y) with (nth 0 y 0) by (destruct y; reflexivity).
  apply Rle_antisym; [apply fold_Rmax_le; [lra|exact H]|apply fold_Rmax_ge].
Qed.

Lemma walk_loop_spec z : forall zr pre, z = pre ++ zr -> zr <> [] ->
  let n := length z in
  let r := walk_loop n (map Fin z) (length pre) (map Fin zr) in
  ((forall v, In v zr -> exp (-1) <= v) /\ r = (NaN, NaN)) \/
  exists k, (k < length zr)%nat /\ (forall j, (j < k)%nat -> exp (-1) <= nth j zr 0) /\ nth k zr 0 < exp (-1) /\
    let i := (length pre + k)%nat in
    let prev := if Nat.eqb i 0 then (n - 1)%nat else (i - 1)%nat in
    r = (fadd (Fin (fftfreq n prev * INR n))
          (fdiv (fsub (Fin (exp (-1))) (nth prev (map Fin z) NaN)) (fsub (Fin (nth k zr 0)) (nth prev (map Fin z) NaN))), Fin (1 / 2)).
Proof.
  induction zr as [|a zr IH]; intros pre Ez Hne; [congruence|]. cbv zeta.
  cbn [map walk_loop]. cbn [fltb]. destruct (Rltb_spec a (exp (-1))) as [H|H].
  - right. exists 0%nat. cbn [length nth]. split; [lia|]. split; [intros; lia|]. split; [exact H|]. rewrite Nat.add_0_r. reflexivity.
  - assert (L : length z = (length pre + S (length zr))%nat) by (rewrite Ez, app_length; reflexivity).
    destruct (Nat.eqb_spec (length pre) (length z - 1)) as [E|E].
    + left. destruct zr; [|cbn in L; lia]. split; [|reflexivity]. intros v [<-|[]]. lra.
    + assert (Hz : zr <> []) by (intros ->; cbn in L; lia).
      specialize (IH (pre ++ [a])). rewrite <- app_assoc in IH. specialize (IH Ez Hz). cbv zeta in IH.
      rewrite app_length in IH. cbn [length] in IH. rewrite Nat.add_1_r in IH.
      destruct IH as [[A B]|[k [Hk [A [B C]]]]].
      * left. split; [|exact B]. intros v [<-|Hv]; [lra|auto].
      * right. exists (S k). cbn [length nth]. split; [lia|]. split.
        { intros [|j] Hj; [lra|]. apply A. lia. }
        split; [exact B|]. replace (length pre + S k)%nat with (S (length pre) + k)%nat by lia. exact C.
Qed.

Lemma fftfreq_low n i : (2 * i < n)%nat -> fftfreq n i * INR n = INR i.
Proof.
  intros H. unfold fftfreq. assert (INR n <> 0) by (apply not_0_INR; lia).
  match goal with |- context [Nat.leb ?a ?b] => destruct (Nat.leb_spec a b) as [C|C] | |- context [Nat.ltb ?a ?b] => destruct (Nat.ltb_spec a b) as [C|C] end.
  - field. auto.
  - assert (i <= (n - 1) / 2)%nat by (apply Nat.div_le_lower_bound; lia). lia.
Qed.

Lemma walk_down_width y : y <> [] -> 0 < nth 0 y 0 -> (forall v, In v y -> v <= nth 0 y 0) ->
  (forall k, (1 <= k < length y)%nat -> nth k y 0 = nth (length y - k) y 0) ->
  let g i := nth i y 0 / nth 0 y 0 in
  ((forall i, (i < length y)%nat -> exp (-1) <= g i) /\ snd (walk_down y) = (NaN, NaN)) \/
  exists i w, (1 <= i < length y)%nat /\ g i < exp (-1) /\ (forall j, (j < i)%nat -> exp (-1) <= g j) /\
    snd (walk_down y) = (Fin w, Fin (1 / 2)) /\
    INR i - 1 <= w < INR i /\ g (i - 1)%nat + (w - (INR i - 1)) * (g i - g (i - 1)%nat) = exp (-1).
Proof.
  intros Hne Hpos Hmax Hsym g.
  set (z := map (fun v => v / nth 0 y 0) y).
  assert (Ez : map (fun v => fdiv (Fin v) (Fin (fmax_list y))) y = map Fin z).
  { unfold z. rewrite map_map, fmax_first by auto. apply map_ext. intros. apply fdiv_fin. lra. }
  assert (Lz : length z = length y) by (apply map_length).
  assert (Gz : forall i, nth i z 0 = g i).
  { intros i. unfold z, g. rewrite <- (map_nth (fun v => v / nth 0 y 0)). f_equal. unfold Rdiv. ring. }
  assert (Zne : z <> []) by (unfold z; destruct y; [congruence|discriminate]).
  assert (e1 : exp (-1) < 1) by (rewrite <- exp_0; apply exp_increasing; lra).
  assert (W : snd (walk_down y) = walk_loop (length z) (map Fin z) (length (@nil R)) (map Fin z)).
  { unfold walk_down. cbv zeta. rewrite Ez, map_length. reflexivity. }
  rewrite W.
  destruct (walk_loop_spec z z [] eq_refl Zne) as [[A B]|[k [Hk [A [B C]]]]].
  - left. split; [|exact B]. intros i Hi. rewrite <- Gz. apply A. apply nth_In. lia.
  - right. rewrite Gz in B. cbn [length Nat.add] in C. cbv zeta in C.
    assert (G0 : g 0%nat = 1) by (unfold g; field; lra).
    assert (Hk1 : (1 <= k)%nat) by (destruct k; [lra|lia]).
    assert (Hkn : (2 * k <= length y)%nat).
    { destruct (Nat.le_gt_cases (2 * k) (length y)); auto. exfalso.
      specialize (A (length y - k)%nat ltac:(lia)). rewrite Gz in A. unfold g in A, B. rewrite <- Hsym in A by lia. lra. }
    destruct (Nat.eqb_spec k 0); [lia|].
    assert (P : nth (k - 1) (map Fin z) NaN = Fin (g (k - 1)%nat)).
    { rewrite nth_indep with (d' := Fin 0) by (rewrite map_length; lia). now rewrite map_nth, Gz. }
    assert (Gp : exp (-1) <= g (k - 1)%nat) by (rewrite <- Gz; apply A; lia).
    rewrite P, Gz, Lz, fftfreq_low in C by lia. cbn [fsub fadd fneg] in C.
    rewrite fdiv_fin in C by lra. cbn [fadd] in C.
    exists k, (INR (k - 1) + (exp (-1) + - g (k - 1)%nat) / (g k + - g (k - 1)%nat)).
    rewrite Lz in Hk. split; [lia|]. split; [exact B|]. split.
    { intros j Hj. rewrite <- Gz. apply A. lia. }
    split; [rewrite Lz; exact C|].
    assert (I : INR (k - 1) = INR k - 1) by (rewrite minus_INR by lia; reflexivity). rewrite I.
    set (t := (exp (-1) + - g (k - 1)%nat) / (g k + - g (k - 1)%nat)).
    assert (T : t * (g (k - 1)%nat - g k) = g (k - 1)%nat - exp (-1)) by (unfold t; field; lra).
    split; [split|].
    + assert (0 <= t); [|lra]. destruct (Rle_lt_dec 0 t); auto. exfalso.
      assert (t * (g (k - 1)%nat - g k) < 0); [|lra]. apply Ropp_lt_cancel. rewrite Ropp_0, <- Ropp_mult_distr_l_reverse. apply Rmult_lt_0_compat; lra.
    + assert (t < 1); [|lra]. destruct (Rle_lt_dec 1 t); auto. exfalso.
      assert (1 * (g (k - 1)%nat - g k) <= t * (g (k - 1)%nat - g k)) by (apply Rmult_le_compat_r; lra). lra.
    + replace (INR k - 1 + t - (INR k - 1)) with t by ring. lra.
Qed.

Lemma walk_down_input y : y <> [] -> 0 < nth 0 y 0 -> (forall v, In v y -> v <= nth 0 y 0) ->
  fst (walk_down y) = map (fun v => Fin (v / nth 0 y 0)) y.
Proof.
  intros Hne Hpos Hmax. unfold walk_down. cbv zeta. cbn [fst]. rewrite fmax_first by auto.
  apply map_ext. intros. apply fdiv_fin. lra.
Qed.

Lemma walk_down_input_refuted : exists y, 0 < nth 0 y 0 /\ (forall v, In v y -> v <= nth 0 y 0) /\ fst (walk_down y) <> map Fin y.
Proof.
  exists [2; 0]. cbn [nth]. split; [lra|]. split; [intros v [<-|[<-|[]]]; lra|].
  rewrite walk_down_input; [|discriminate|cbn; lra|intros v [<-|[<-|[]]]; cbn; lra].
  cbn [map nth]. intros E. injection E as E _. lra.
Qed.

Lemma ex_walk_down : snd (walk_down [1; 0; 0]) = (Fin (1 - exp (-1)), Fin (1 / 2)).
Proof.
  destruct (walk_down_width [1; 0; 0]) as [[A _]|[i [w [Hi [B [Hj [E [[W1 W2] L]]]]]]]]; cbn [nth] in *; try lra.
  - discriminate.
  - intros v [<-|[<-|[<-|[]]]]; lra.
  - intros k [H1 H2]. cbn [length] in *. destruct k as [|[|[|k]]]; [lia|reflexivity|reflexivity|lia].
  - specialize (A 1%nat ltac:(cbn; lia)). cbn in A. pose proof (exp_pos (-1)). lra.
  - rewrite E. f_equal. f_equal. pose proof (exp_pos (-1)).
    destruct i as [|[|i]]; [lia| |].
    + cbn in L. replace (1 - 1) with 0 in L by ring. lra.
    + specialize (Hj 1%nat ltac:(lia)). cbn in Hj. lra.
Qed.

(** ** Beam correction *)
Lemma term2_pos beam cdelt : 0 < beam -> cdelt <> 0 -> 0 < brunt_term2 beam cdelt.
Proof.
  intros Hb Hc. unfold brunt_term2. cbv zeta. assert (0 < Rabs cdelt) by (now apply Rabs_pos_lt).
  assert (0 < ln 2) by (rewrite <- ln_1; apply ln_increasing; lra).
  assert (0 < sqrt (8 * ln 2)) by (apply sqrt_lt_R0; lra). assert (0 < sqrt 2) by (apply sqrt_lt_R0; lra).
  apply Rmult_lt_0_compat; [lra|]. repeat apply Rdiv_lt_0_compat; auto.
Qed.

Lemma scale_monotone beam cdelt y x y' x' : let t := brunt_term2 beam cdelt in
  t <= y <= y' -> t <= x <= x' ->
  exists r r', beam_corrected_scale true (Some beam) (Some cdelt) y x = Ok r /\
    beam_corrected_scale true (Some beam) (Some cdelt) y' x' = Ok r' /\ r <= r'.
Proof.
  intros t Hy Hx. unfold beam_corrected_scale. fold t. cbv zeta. do 2 eexists. split; [reflexivity|]. split; [reflexivity|].
  apply sqrt_le_1_alt. apply Rplus_le_compat; apply Rmult_le_compat; lra.
Qed.
Lemma scale_zero beam cdelt : beam_corrected_scale true (Some beam) (Some cdelt) (brunt_term2 beam cdelt) (brunt_term2 beam cdelt) = Ok 0.
Proof. unfold beam_corrected_scale. cbv zeta. rewrite Rminus_diag_eq by reflexivity. rewrite Rmult_0_l, Rplus_0_l, sqrt_0. reflexivity. Qed.
Lemma scale_not_monotone : exists beam cdelt y y', 0 < beam /\ 0 < cdelt /\ 0 <= y < y' /\
  exists r r', beam_corrected_scale true (Some beam) (Some cdelt) y y = Ok r /\
    beam_corrected_scale true (Some beam) (Some cdelt) y' y' = Ok r' /\ r' < r.
Proof.
  set (t := brunt_term2 1 1). assert (T : 0 < t) by (apply term2_pos; lra).
  exists 1, 1, 0, t. split; [lra|]. split; [lra|]. split; [lra|]. exists (sqrt (2 * (t * t))), 0. split; [|split].
  - unfold beam_corrected_scale. fold t. cbv zeta. f_equal. f_equal. ring.
  - apply scale_zero.
  - apply sqrt_lt_R0. assert (0 < t * t) by (now apply Rmult_lt_0_compat). lra.
Qed.
Lemma scale_needs_beam beam cdelt y x : beam = None \/ cdelt = None -> beam_corrected_scale true beam cdelt y x = Err ValueError.
Proof. intros [->| ->]; [reflexivity|]. destruct beam; reflexivity. Qed.
Lemma scale_uncorrected beam cdelt y x : beam_corrected_scale false beam cdelt y x = Ok (sqrt (y * y + x * x)).
Proof. reflexivity. Qed.
