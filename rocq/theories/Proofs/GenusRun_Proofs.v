From Coq Require Import Reals List Bool ZArith Arith Lia Lra FunctionalExtensionality.
From Verif Require Import Lib.PyBase Lib.Fl Lib.RSum Spec.Regions Spec.GenusSpec Spec.Blank Model.Units Model.StatsUtils Model.Distances Model.Genus Model.GenusRun Spec.GenusRun
  Proofs.Fl_Proofs Proofs.StatsUtils_Proofs Proofs.Tsallis3_Proofs Proofs.PdfDistance2_Proofs Proofs.Genus_Proofs.
Import ListNotations.
Local Open Scope R_scope.

(** ** Objects *)
Lemma raised_ok {A B} (f : A -> result B) l : snd (until_raised f l) = None -> Forall2 (fun a b => f a = Ok b) l (fst (until_raised f l)).
Proof.
  induction l as [|a r IH]; cbn; intros H; [constructor|]. destruct (f a) as [b|e] eqn:E; cbn in *; [|discriminate]. constructor; [exact E|]. apply IH, H.
Qed.
Lemma F2_len {A B} (P : A -> B -> Prop) l l' : Forall2 P l l' -> length l = length l'.
Proof. induction 1; cbn; congruence. Qed.
Lemma genus_value_at s t rm m c : genus_value s t rm m c (Fin (IZR (genus_at (i_n0 s) (i_n1 s) (i_pix s) (Fin t) rm m c))).
Proof.
  destruct (counts_exist (i_n0 s) (i_n1 s) (i_pix s) t rm m c) as (kh & kl & H & L & E). exists kh, kl. split; [exact H|]. split; [exact L|].
  rewrite E, minus_IZR, <- !INR_IZR_INZ. reflexivity.
Qed.
Lemma kept_fields smooth memory l : forall o, g_image (history smooth memory o l) = g_image o /\ g_stat (history smooth memory o l) = g_stat o /\ g_beam (history smooth memory o l) = g_beam o /\
  g_smoothing (history smooth memory o l) = g_smoothing o /\ g_thresholds (history smooth memory o l) = g_thresholds o.
Proof.
  induction l as [|c r IH]; intros o; [repeat split|]. cbn [history fold_left]. fold (history smooth memory (fst (do_call smooth memory o c)) r).
  destruct (IH (fst (do_call smooth memory o c))) as (H1 & H2 & H3 & H4 & H5). rewrite H1, H2, H3, H4, H5.
  destruct c as [k|a]; cbn [do_call].
  - unfold make_curve. destruct (min_size_of _ _ _ _); [destruct (g_radii o)|]; destruct (k_keep k); repeat split.
  - unfold set_radii. destruct (radii_of _ _ _ _); repeat split.
Qed.
Lemma nth_F2 {A B} (P : A -> B -> Prop) l l' j a : Forall2 P l l' -> nth_error l j = Some a -> exists b, nth_error l' j = Some b /\ P a b.
Proof. intros F. revert j. induction F as [|x y l l' H F IH]; intros [|j] E; cbn in E; [discriminate|discriminate| |]. - injection E as <-. exists y. now split. - now apply IH. Qed.

Lemma run_shows smooth memory o k o' : make_curve smooth memory o k = (o', None) ->
  g_image o' = g_image o /\ g_radii o' = g_radii o /\ g_thresholds o' = g_thresholds o /\
  exists m rows means stds,
    min_size_of (g_stat o) (g_beam o) (k_beam k) (k_size k) = Ok m /\
    g_stats o' = Some rows /\ g_means o' = Some means /\ g_stds o' = Some stds /\
    length rows = length (widths (g_radii o)) /\ length means = length (widths (g_radii o)) /\ length stds = length (widths (g_radii o)) /\
    (k_keep k = true -> exists imgs, g_images o' = Some imgs /\ length imgs = length (widths (g_radii o))) /\
    forall j w, nth_error (widths (g_radii o)) j = Some w ->
      exists s row, smoothed smooth (g_image o) k w = Ok s /\ nth_error rows j = Some row /\
        nth_error means j = Some (nanmean (values s)) /\ nth_error stds j = Some (nanstd (values s)) /\
        (k_keep k = true -> forall imgs, g_images o' = Some imgs -> nth_error imgs j = Some s) /\
        length row = length (g_thresholds o) /\
        forall i t, nth_error (g_thresholds o) i = Some (Fin t) -> exists g, nth_error row i = Some g /\ genus_value s t (k_removal k) m (k_connectivity k) g.
Proof.
  unfold make_curve. destruct (min_size_of _ _ _ _) as [m|e]; [|discriminate].
  assert (D : forall r, g_radii o = r -> (forall x, r <> OneRadius x) ->
    (let loop := until_raised (at_radius smooth o k m) (widths r) in
     let o1 := if k_keep k then with_images o (Some []) else o in
     let o2 := with_curves o1 (map (fun d => fst (fst d)) (fst loop) ++ repeat (map (fun _ => memory) (g_thresholds o)) (length (widths r) - length (fst loop)))
                                (map (fun d => fst (snd (fst d))) (fst loop) ++ repeat memory (length (widths r) - length (fst loop)))
                                (map (fun d => snd (snd (fst d))) (fst loop) ++ repeat memory (length (widths r) - length (fst loop))) in
     (if k_keep k then with_images o2 (Some (map snd (fst loop))) else o2, snd loop)) = (o', None) -> 
     g_image o' = g_image o /\ g_radii o' = g_radii o /\ g_thresholds o' = g_thresholds o /\
  exists m0 rows means stds,
    Ok m = Ok m0 /\
    g_stats o' = Some rows /\ g_means o' = Some means /\ g_stds o' = Some stds /\
    length rows = length (widths r) /\ length means = length (widths r) /\ length stds = length (widths r) /\
    (k_keep k = true -> exists imgs, g_images o' = Some imgs /\ length imgs = length (widths r)) /\
    forall j w, nth_error (widths r) j = Some w ->
      exists s row, smoothed smooth (g_image o) k w = Ok s /\ nth_error rows j = Some row /\
        nth_error means j = Some (nanmean (values s)) /\ nth_error stds j = Some (nanstd (values s)) /\
        (k_keep k = true -> forall imgs, g_images o' = Some imgs -> nth_error imgs j = Some s) /\
        length row = length (g_thresholds o) /\
        forall i t, nth_error (g_thresholds o) i = Some (Fin t) -> exists g, nth_error row i = Some g /\ genus_value s t (k_removal k) m0 (k_connectivity k) g).
  { intros r Hr _. cbv zeta. intros H. injection H as Ho Hn. pose proof (raised_ok _ _ Hn) as F. pose proof (F2_len _ _ _ F) as L.
    set (loop := until_raised (at_radius smooth o k m) (widths r)) in *. rewrite <- L, Nat.sub_diag in Ho. cbn [repeat] in Ho. rewrite !app_nil_r in Ho.
    assert (E : g_image o' = g_image o /\ g_radii o' = g_radii o /\ g_thresholds o' = g_thresholds o /\ g_stats o' = Some (map (fun d => fst (fst d)) (fst loop)) /\
      g_means o' = Some (map (fun d => fst (snd (fst d))) (fst loop)) /\ g_stds o' = Some (map (fun d => snd (snd (fst d))) (fst loop)) /\
      (k_keep k = true -> g_images o' = Some (map snd (fst loop)))).
    { rewrite <- Ho. destruct (k_keep k); repeat split; try reflexivity. intros; discriminate. }
    destruct E as (E1 & E2 & E3 & E4 & E5 & E6 & E7). rewrite E1, E2, E3. split; [reflexivity|]. split; [reflexivity|]. split; [reflexivity|].
    do 4 eexists. split; [reflexivity|]. split; [exact E4|]. split; [exact E5|]. split; [exact E6|]. rewrite !map_length, <- L. do 3 (split; [reflexivity|]).
    split. { intros K. eexists. split; [exact (E7 K)|]. rewrite map_length. now rewrite <- L. }
    intros j w Hj. destruct (nth_F2 _ _ _ _ _ F Hj) as (d & Hd & P). unfold at_radius in P. destruct (smoothed smooth (g_image o) k w) as [s|e] eqn:Es; [|discriminate]. cbn [bind] in P. injection P as <-.
    exists s. eexists. split; [reflexivity|]. split; [exact (map_nth_error _ _ _ Hd)|]. split; [exact (map_nth_error (fun d => fst (snd (fst d))) _ _ Hd)|]. split; [exact (map_nth_error (fun d => snd (snd (fst d))) _ _ Hd)|].
    split. { intros K imgs Hi. rewrite (E7 K) in Hi. injection Hi as <-. exact (map_nth_error snd _ _ Hd). }
    cbn [fst snd]. rewrite map_length. split; [reflexivity|]. intros i t Ht. eexists. split; [exact (map_nth_error _ _ _ Ht)|]. apply genus_value_at. }
  destruct (g_radii o) as [|l|x] eqn:Er; cbv zeta; intros H.
  - refine (D NoSmoothing eq_refl _ H). discriminate.
  - refine (D (Radii l) eq_refl _ H). discriminate.
  - destruct (k_keep k); discriminate.
Qed.

Lemma radii_now smooth memory o h a : (forall r, radii_of (g_smoothing o) (i_n0 (g_image o)) (i_n1 (g_image o)) a = Ok r -> 
  g_radii (fst (set_radii (history smooth memory o h) a)) = r /\ snd (set_radii (history smooth memory o h) a) = None).
Proof.
  intros r H. destruct (kept_fields smooth memory h o) as (H1 & _ & _ & H4 & _). unfold set_radii. rewrite H1, H4, H. split; reflexivity.
Qed.
(** A run depends on the object only through its data, thresholds, header and radii. *)
Lemma run_forgets smooth memory o1 o2 k : g_image o1 = g_image o2 -> g_stat o1 = g_stat o2 -> g_beam o1 = g_beam o2 -> g_thresholds o1 = g_thresholds o2 -> g_radii o1 = g_radii o2 ->
  snd (make_curve smooth memory o1 k) = snd (make_curve smooth memory o2 k) /\
  (snd (make_curve smooth memory o2 k) = None -> results (fst (make_curve smooth memory o1 k)) = results (fst (make_curve smooth memory o2 k)) /\
    (k_keep k = true -> g_images (fst (make_curve smooth memory o1 k)) = g_images (fst (make_curve smooth memory o2 k)))).
Proof.
  intros H1 H2 H3 H4 H5. unfold make_curve. rewrite H2, H3, H4, H5. destruct (min_size_of _ _ _ _) as [m|e]; [|split; [reflexivity|discriminate]].
  assert (A : at_radius smooth o1 k m = at_radius smooth o2 k m) by (unfold at_radius; rewrite H1, H4; reflexivity). rewrite A.
  destruct (g_radii o2); cbv zeta; cbn [fst snd]; (split; [reflexivity|]); intros HH; try discriminate HH; destruct (k_keep k); split; try reflexivity; intros KK; discriminate KK.
Qed.
Lemma history_forgets smooth memory o h a k : 
  snd (set_radii (history smooth memory o h) a) = None ->
  let later := make_curve smooth memory (fst (set_radii (history smooth memory o h) a)) k in
  let first := make_curve smooth memory (fst (set_radii o a)) k in
  snd later = snd first /\ (snd first = None -> results (fst later) = results (fst first) /\ (k_keep k = true -> smoothed_images (fst later) = smoothed_images (fst first))).
Proof.
  intros H. destruct (kept_fields smooth memory h o) as (H1 & H2 & H3 & H4 & H5). cbv zeta.
  unfold set_radii in *. rewrite H1, H4 in *. destruct (radii_of _ _ _ a) as [r|e]; cbn [fst snd] in *; [|discriminate].
  destruct (run_forgets smooth memory (with_radii (history smooth memory o h) r) (with_radii o r) k H1 H2 H3 H5 eq_refl) as [E F]. split; [exact E|].
  intros S. destruct (F S) as [F1 F2]. split; [exact F1|]. intros K. unfold smoothed_images. now rewrite (F2 K).
Qed.

(** ** The distance *)
Lemma recal_values a b im : values (recalibrated a b im) = map (fun v => match v with Fin r => Fin (a * r + b) | v => v end) (values im).
Proof. unfold values, recalibrated. cbn [i_n0 i_n1 i_pix]. rewrite map_map. apply map_ext. intros p. now destruct (i_pix im p). Qed.
Lemma readable_blankable im : readable im -> Forall blankable (values im).
Proof. intros H. apply Forall_forall. intros v I. apply in_map_iff in I. destruct I as (p & <- & _). destruct (H p) as [->|[r ->]]; exact I. Qed.
Lemma nan_mean x : Forall blankable x -> fins x = [] -> nanmean x = NaN.
Proof.
  intros B F. assert (N : nonnan x = []).
  { unfold nonnan. induction x as [|v x IH]; [reflexivity|]. inversion B; subst. destruct v; try contradiction; cbn in F; [discriminate|]. cbn. now apply IH. }
  unfold nanmean, nansum, nancount. rewrite N. cbn [fsum fold_right length INR]. unfold fdiv. destruct (Reqb_spec 0 0); [|lra]. unfold sinf. destruct (Rltb_spec 0 0); [lra|]. reflexivity.
Qed.
Lemma recalibrated_same a b im : 0 < a -> readable im -> standardized (recalibrated a b im) = standardized im.
Proof.
  intros A H. unfold standardized. cbn [recalibrated i_n0 i_n1 i_pix]. f_equal. apply functional_extensionality. intros p.
  pose proof (readable_blankable im H) as B. rewrite recal_values. set (x := values im) in *. set (f := fun v => match v with Fin r => Fin (a * r + b) | v => v end).
  assert (Bf : Forall blankable (map f x)) by (apply (blankable_map f (fun r => a * r + b)); auto).
  assert (Ff : fins (map f x) = map (fun r => a * r + b) (fins x)) by (apply fins_map; auto).
  destruct (H p) as [->|[r ->]]; [reflexivity|].
  destruct (list_eq_dec Req_EM_T (fins x) []) as [E|N].
  - rewrite (nan_mean x B E), (nan_mean (map f x) Bf) by (rewrite Ff, E; reflexivity). reflexivity.
  - assert (Nf : fins (map f x) <> []) by (rewrite Ff; intros C; apply map_eq_nil in C; contradiction).
    rewrite !nanmean_rmean, !nanstd_rvar by assumption. rewrite Ff, rmean_affine, rvar_affine by exact N.
    rewrite sqrt_mult by (apply Rle_0_sqr || apply rvar_nonneg). rewrite sqrt_square by lra. set (m := rmean (fins x)). set (s := sqrt (rvar (fins x))).
    cbn [fsub fadd fneg]. replace (a * r + b + - (a * m + b)) with (a * (r + - m)) by ring. assert (P : 0 <= s) by apply sqrt_pos. clearbody m s.
    unfold fdiv. destruct (Reqb_spec (a * s) 0) as [Z|Z], (Reqb_spec s 0) as [Z'|Z'].
    + unfold sinf. destruct (Rltb_spec 0 (a * (r + - m))), (Rltb_spec 0 (r + - m)), (Rltb_spec (a * (r + - m)) 0), (Rltb_spec (r + - m) 0); try reflexivity; exfalso; nra.
    + exfalso. apply Rmult_integral in Z. destruct Z; lra.
    + exfalso. apply Z. rewrite Z'. ring.
    + f_equal. field. lra.
Qed.
Lemma one_same pc sm mem d i a b im : 0 < a -> readable im -> one_genus pc sm mem d i (recalibrated a b im) = one_genus pc sm mem d i im.
Proof. intros. unfold one_genus. now rewrite recalibrated_same. Qed.
Lemma distance_units pc sm mem interp tol d im1 im2 h1 h2 a1 b1 a2 b2 : 0 < a1 -> 0 < a2 -> readable im1 -> readable im2 ->
  genus_distance_of pc sm mem interp tol d (recalibrated a1 b1 im1) (recalibrated a2 b2 im2) h1 h2 = genus_distance_of pc sm mem interp tol d im1 im2 h1 h2.
Proof. intros. unfold genus_distance_of, genus_pair. now rewrite !one_same. Qed.

Lemma bind_ok {A B} (x : result A) (f : A -> result B) b : bind x f = Ok b -> exists a, x = Ok a /\ f a = Ok b.
Proof. destruct x as [a|e]; cbn; intros H; [exists a; now split|discriminate]. Qed.
Lemma distance_self pc sm mem interp tol im h d r : 0 < scale0 h -> d_kwargs2 d = None ->
  (exists mn, d_min d = Both mn) -> (exists mx, d_max d = Both mx) -> (exists lo, d_low d = Both lo) -> (exists hi, d_high d = Both hi) ->
  genus_distance_of pc sm mem interp tol d im im h h = Ok r -> r = 0.
Proof.
  intros S0 K [mn M1] [mx M2] [lo M3] [hi M4] H. unfold genus_distance_of, genus_pair in H.
  assert (E : one_genus pc sm mem d 1 im = one_genus pc sm mem d 0 im) by (unfold one_genus; rewrite M1, M2, M3, M4, K; reflexivity). rewrite E in H.
  destruct (one_genus pc sm mem d 0 im) as [o|e]; cbn [bind] in H; [|discriminate].
  apply bind_ok in H. destruct H as (q & Hq & H). apply bind_ok in Hq. destruct Hq as (s & Hs & Hq). injection Hq as <-.
  unfold distance_metric in H. destruct (first_curve o) as [c|]; cbn [bind] in H; [|discriminate]. destruct (finite_thresholds (g_thresholds o)) as [t|]; cbn [bind] in H; [|discriminate]. injection H as <-.
  assert (s = 1) as ->. { unfold common_scale in Hs. destruct (distorted h); [discriminate|]. cbv zeta in Hs. destruct (Rltb _ _); [discriminate|]. injection Hs as <-. rewrite Rabs_pos_eq by lra. field. lra. }
  unfold genus_distance. rewrite <- sqrt_0. f_equal. 
  assert (Z : forall l, lsum (map (fun p => (interp t (map (fun g => g / (INR (i_n0 (g_image o) * i_n1 (g_image o)) / 1)) c) p - interp t (map (fun g => g / INR (i_n0 (g_image o) * i_n1 (g_image o))) c) p) ^ 2) l) = 0).
  { intros l. assert (Q : map (fun g => g / (INR (i_n0 (g_image o) * i_n1 (g_image o)) / 1)) c = map (fun g => g / INR (i_n0 (g_image o) * i_n1 (g_image o))) c) by (apply map_ext; intros g; unfold Rdiv; now rewrite Rinv_1, Rmult_1_r). rewrite Q. induction l as [|p l IH]; cbn [map lsum fold_right]; [reflexivity|].
    unfold lsum in *. cbn [fold_right]. rewrite IH. ring. }
  apply Z.
Qed.
