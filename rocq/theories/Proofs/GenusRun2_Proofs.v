From Coq Require Import Reals List Bool ZArith Arith Lia Lra.
From Verif Require Import Lib.PyBase Lib.Fl Lib.RSum Lib.Arr Spec.Regions Spec.GenusSpec Spec.Blank Model.Units Model.StatsUtils Model.Distances Model.Genus Model.GenusRun Spec.GenusRun
  Proofs.Fl_Proofs Proofs.Tsallis3_Proofs Proofs.GenusRun_Proofs.
Import ListNotations.
Local Open Scope R_scope.

(** ** Options *)
Lemma pick_ok {A} (o : option_of A) i x : pick o i = Ok x <-> for_image o i x.
Proof.
  destruct o as [a|l]; cbn; [split; [intros H; injection H as <-; reflexivity|intros ->; reflexivity]|].
  destruct (nth_error l i) as [b|]; split; intros H; try discriminate; injection H as <-; reflexivity.
Qed.
Lemma one_ok pc sm mem d i im o : one_genus pc sm mem d i im = Ok o ->
  exists mn mx lo hi g, for_image (d_min d) i mn /\ for_image (d_max d) i mx /\ for_image (d_low d) i lo /\ for_image (d_high d) i hi /\
    genus_init pc (standardized im) (mk_stat None None) None (mk_ga mn mx lo hi 100 None true (d_radii d)) = Ok g /\
    make_curve sm mem g (match i, d_kwargs2 d with S _, Some k2 => k2 | _, _ => d_kwargs d end) = (o, None).
Proof.
  unfold one_genus. intros H. apply bind_ok in H. destruct H as (mn & M1 & H). apply bind_ok in H. destruct H as (mx & M2 & H). apply bind_ok in H. destruct H as (lo & M3 & H). apply bind_ok in H. destruct H as (hi & M4 & H).
  apply bind_ok in H. destruct H as (g & G & H). exists mn, mx, lo, hi, g. rewrite <- !pick_ok. do 4 (split; [assumption|]). split; [exact G|].
  destruct (make_curve sm mem g _) as [o' [e|]]; [discriminate|]. injection H as <-. reflexivity.
Qed.
Lemma pair_ok pc sm mem tol d im1 im2 h1 h2 o1 o2 s : genus_pair pc sm mem tol d im1 im2 h1 h2 = Ok (o1, o2, s) ->
  exists mn mx lo hi g mn' mx' lo' hi' g',
    for_image (d_min d) 0 mn /\ for_image (d_max d) 0 mx /\ for_image (d_low d) 0 lo /\ for_image (d_high d) 0 hi /\
    for_image (d_min d) 1 mn' /\ for_image (d_max d) 1 mx' /\ for_image (d_low d) 1 lo' /\ for_image (d_high d) 1 hi' /\
    genus_init pc (standardized im1) (mk_stat None None) None (mk_ga mn mx lo hi 100 None true (d_radii d)) = Ok g /\
    genus_init pc (standardized im2) (mk_stat None None) None (mk_ga mn' mx' lo' hi' 100 None true (d_radii d)) = Ok g' /\
    make_curve sm mem g (d_kwargs d) = (o1, None) /\
    make_curve sm mem g' (match d_kwargs2 d with Some k => k | None => d_kwargs d end) = (o2, None) /\
    common_scale h1 h2 tol = Ok s.
Proof.
  unfold genus_pair. intros H. apply bind_ok in H. destruct H as (a & A & H). apply bind_ok in H. destruct H as (b & B & H). apply bind_ok in H. destruct H as (c & Q & H). injection H as <- <- <-.
  apply one_ok in A. apply one_ok in B. destruct A as (mn & mx & lo & hi & g & A1 & A2 & A3 & A4 & A5 & A6). destruct B as (mn' & mx' & lo' & hi' & g' & B1 & B2 & B3 & B4 & B5 & B6).
  exists mn, mx, lo, hi, g, mn', mx', lo', hi', g'. repeat (split; [assumption|]). assumption.
Qed.
Lemma short_list pc sm mem interp tol d im1 im2 h1 h2 :
  (exists l, (d_min d = Each l \/ d_max d = Each l) /\ (length l < 2)%nat) \/ (exists l, (d_low d = Each l \/ d_high d = Each l) /\ (length l < 2)%nat) ->
  is_ok (genus_distance_of pc sm mem interp tol d im1 im2 h1 h2) = false.
Proof.
  intros H. unfold genus_distance_of. destruct (genus_pair pc sm mem tol d im1 im2 h1 h2) as [[[o1 o2] s]|e] eqn:E; [exfalso|reflexivity].
  apply pair_ok in E. destruct E as (mn & mx & lo & hi & g & mn' & mx' & lo' & hi' & g' & _ & _ & _ & _ & B1 & B2 & B3 & B4 & _).
  assert (N : forall A (l : list A) x, (length l < 2)%nat -> nth_error l 1 = Some x -> False) by (intros A l x L X; apply nth_error_None in L || idtac; assert (nth_error l 1 = None) by (apply nth_error_None; lia); congruence).
  destruct H as [(l & [D|D] & L)|(l & [D|D] & L)]; rewrite D in *; cbn in *; eauto.
Qed.

(** ** Refused *)
Lemma init_radii_err pc im st beam a e : a_smoothing a = true ->
  (exists l, a_radii a = Some (RadList l) /\ e = TypeError) \/ (exists sc q, a_radii a = Some (RadQuantity sc q) /\ to_pixel st q = Err e) ->
  genus_init pc im st beam a = Err e.
Proof. intros S [(l & R1 & ->)|(sc & q & R1 & R2)]; unfold genus_init; rewrite S, R1; [reflexivity|]. now rewrite R2. Qed.
Lemma no_header q : angular q -> to_pixel (mk_stat None None) q = Err AttributeError.
Proof. intros [A B]. unfold to_pixel. rewrite A, B. unfold to_angular, ang_size. cbn. reflexivity. Qed.
Lemma pair_refused pc sm mem interp tol d im1 im2 h1 h2 : 
  (forall a, a_smoothing a = true -> a_radii a = d_radii d -> is_ok (genus_init pc (standardized im1) (mk_stat None None) None a) = false) \/
  (forall g, g_stat g = mk_stat None None -> g_beam g = None -> snd (make_curve sm mem g (d_kwargs d)) <> None) ->
  is_ok (genus_distance_of pc sm mem interp tol d im1 im2 h1 h2) = false.
Proof.
  intros H. unfold genus_distance_of. destruct (genus_pair pc sm mem tol d im1 im2 h1 h2) as [[[o1 o2] s]|e] eqn:E; [exfalso|reflexivity].
  apply pair_ok in E. destruct E as (mn & mx & lo & hi & g & mn' & mx' & lo' & hi' & g' & _ & _ & _ & _ & _ & _ & _ & _ & G & _ & K & _).
  destruct H as [H|H].
  - specialize (H (mk_ga mn mx lo hi 100 None true (d_radii d)) eq_refl eq_refl). rewrite G in H. discriminate.
  - assert (g_stat g = mk_stat None None /\ g_beam g = None) as [S B]. { unfold genus_init in G. apply bind_ok in G. destruct G as (r & _ & G). injection G as <-. now split. }
    apply (H g S B). now rewrite K.
Qed.
Lemma header_needed pc sm mem interp tol d im1 im2 h1 h2 :
  (exists sc q, d_radii d = Some (RadQuantity sc q) /\ angular q) \/ k_beam (d_kwargs d) = true \/ (exists q, k_size (d_kwargs d) = SizeArea q /\ (forall r, q_sqrt q = Ok r -> angular r)) ->
  is_ok (genus_distance_of pc sm mem interp tol d im1 im2 h1 h2) = false.
Proof.
  intros [(sc & q & D & A)|[B|(q & Q & A)]].
  - apply pair_refused. left. intros a S R1. rewrite (init_radii_err pc _ _ _ a AttributeError S); [reflexivity|]. right. exists sc, q. rewrite R1. split; [exact D|]. now apply no_header.
  - apply pair_refused. right. intros g S Bm. unfold make_curve. rewrite S, Bm, B. cbn. discriminate.
  - apply pair_refused. right. intros g S Bm. unfold make_curve. rewrite S, Bm, Q. unfold min_size_of. destruct (k_beam (d_kwargs d)); [cbn; discriminate|].
    unfold to_pixel_area. destruct (q_sqrt q) as [r|e]; cbn [bind]; [|cbn; discriminate]. rewrite (no_header r) by auto. cbn. discriminate.
Qed.
Lemma list_refused pc sm mem interp tol d im1 im2 h1 h2 l : d_radii d = Some (RadList l) ->
  is_ok (genus_distance_of pc sm mem interp tol d im1 im2 h1 h2) = false.
Proof. intros D. apply pair_refused. left. intros a S R1. rewrite (init_radii_err pc _ _ _ a TypeError S); [reflexivity|]. left. exists l. rewrite R1. now split. Qed.

(** ** Flat images *)
Lemma flat_nan im : flat im -> readable im -> forall v, In v (values (standardized im)) -> v = NaN.
Proof.
  intros [c F] R0 v I. unfold values in I. apply in_map_iff in I. destruct I as (p & <- & P). cbn [standardized i_n0 i_n1 i_pix] in *.
  pose proof (readable_blankable im R0) as B. rewrite (standardize_values (values im)) by (exact B || (unfold values; now apply in_map)).
  destruct (F p P) as [->|E]; [reflexivity|]. rewrite E. 
  assert (A : forall r, In r (fins (values im)) -> r = c).
  { intros r I. unfold fins in I. apply in_flat_map in I. destruct I as (w & W & I). unfold values in W. apply in_map_iff in W. destruct W as (q & <- & Q). destruct (F q Q) as [X|X]; rewrite X in I; cbn in I; [contradiction|]. destruct I as [<-|[]]. reflexivity. }
  assert (V : rvar (fins (values im)) = 0).
  { set (l := fins (values im)) in *. clearbody l. 
    assert (L : forall f : R -> R, (forall r, In r l -> f r = f c) -> lsum (map f l) = INR (length l) * f c).
    { intros f. clear E B P A. induction l as [|x l IH]; intros H; [cbn; ring|]. cbn [map lsum fold_right length]. rewrite S_INR. unfold lsum in IH |- *. cbn [fold_right]. rewrite IH by (intros; apply H; now right). rewrite (H x) by now left. ring. }
    unfold rvar. destruct l as [|x l0] eqn:El; [cbn; unfold rmean; cbn; unfold Rdiv; ring|]. rewrite <- El in *. assert (N : INR (length l) <> 0) by (rewrite El; cbn [length]; apply not_0_INR; lia).
    assert (M : rmean l = c). { unfold rmean. rewrite <- (map_id l) at 1. rewrite (L (fun r => r)) by (intros r I; now apply A). field. exact N. }
    rewrite M. unfold rmean. rewrite (L (fun r => (r - c) * (r - c))) by (intros r I; now rewrite (A r I)). unfold Rdiv. ring. }
  rewrite V. destruct (Reqb_spec 0 0); [reflexivity|lra].
Qed.
Lemma nanmin_nan l : (forall v, In v l -> v = NaN) -> nanmin l = NaN.
Proof. intros H. unfold nanmin. assert (N : nonnan l = []). { unfold nonnan. induction l as [|v l IH]; [reflexivity|]. cbn. rewrite (H v) by now left. cbn. apply IH. intros; apply H; now right. } now rewrite N. Qed.
Lemma init_fields pc im st beam a g : genus_init pc im st beam a = Ok g -> g_thresholds g = thresholds_fl pc im a /\ g_image g = im.
Proof. unfold genus_init. intros H. apply bind_ok in H. destruct H as (r & _ & H). injection H as <-. now split. Qed.
Lemma run_fields sm mem g k o e : make_curve sm mem g k = (o, e) -> g_thresholds o = g_thresholds g /\ g_image o = g_image g.
Proof. intros H. pose proof (kept_fields sm mem [Run k] g) as (A & _ & _ & _ & B). cbn in A, B. rewrite H in A, B. now split. Qed.
Lemma flat_refused pc sm mem interp tol d im1 im2 h1 h2 : readable im1 -> flat im1 ->
  for_image (d_min d) 0 None -> for_image (d_low d) 0 0 -> is_ok (genus_distance_of pc sm mem interp tol d im1 im2 h1 h2) = false.
Proof.
  intros R1 F M L. unfold genus_distance_of. destruct (genus_pair pc sm mem tol d im1 im2 h1 h2) as [[[o1 o2] s]|e] eqn:E; [|reflexivity].
  apply pair_ok in E. destruct E as (mn & mx & lo & hi & g & mn' & mx' & lo' & hi' & g' & A1 & A2 & A3 & A4 & _ & _ & _ & _ & G & _ & K & _).
  apply (proj2 (pick_ok _ _ _)) in M. apply (proj2 (pick_ok _ _ _)) in L. apply (proj2 (pick_ok _ _ _)) in A1. apply (proj2 (pick_ok _ _ _)) in A3. rewrite M in A1. rewrite L in A3. injection A1 as <-. injection A3 as <-.
  destruct (init_fields _ _ _ _ _ _ G) as [T _]. destruct (run_fields _ _ _ _ _ _ K) as [T' _].
  cbn [bind]. unfold distance_metric. destruct (first_curve o1) as [c1|]; [|reflexivity]. destruct (first_curve o2) as [c2|]; [|reflexivity]. cbn [bind].
  rewrite T', T. unfold thresholds_fl. cbn [a_thresholds a_min a_low a_numpts]. destruct (Reqb_spec 0 0) as [_|]; [|lra].
  rewrite (nanmin_nan _ (flat_nan im1 F R1)). reflexivity.
Qed.

(** ** Only the first radius counts *)
Lemma first_only pc sm mem d d' i im o r l : d_radii d = Some (RadArray (r :: l)) -> d_radii d' = Some (RadArray [r]) ->
  d_min d' = d_min d -> d_max d' = d_max d -> d_low d' = d_low d -> d_high d' = d_high d -> d_kwargs d' = d_kwargs d -> d_kwargs2 d' = d_kwargs2 d ->
  one_genus pc sm mem d i im = Ok o -> exists o', one_genus pc sm mem d' i im = Ok o' /\ g_image o' = g_image o /\ g_thresholds o' = g_thresholds o /\ first_curve o' = first_curve o.
Proof.
  intros D D' E1 E2 E3 E4 E5 E6. unfold one_genus. rewrite E1, E2, E3, E4, E5, E6, D, D'. intros H.
  apply bind_ok in H. destruct H as (mn & M1 & H). apply bind_ok in H. destruct H as (mx & M2 & H). apply bind_ok in H. destruct H as (lo & M3 & H). apply bind_ok in H. destruct H as (hi & M4 & H).
  apply bind_ok in H. destruct H as (g & G & H). rewrite M1, M2, M3, M4. cbn [bind]. unfold genus_init in G |- *. cbn [a_smoothing a_radii] in *. unfold radii_of, checked in *.
  destruct (existsb (fun v => Rltb v 1) (r :: l)) eqn:B1; [discriminate|]. destruct (existsb (fun v => Rltb _ v) (r :: l)) eqn:B2; [discriminate|]. cbn [existsb] in B1, B2. apply orb_false_iff in B1, B2.
  destruct B1 as [B1 _], B2 as [B2 _]. cbn [existsb]. rewrite B1, B2. cbn [orb bind] in *. injection G as <-.
  set (k := match i with O => d_kwargs d | S _ => match d_kwargs2 d with Some k2 => k2 | None => d_kwargs d end end) in *.
  unfold make_curve in *. cbn [g_stat g_beam g_radii g_thresholds] in *. destruct (min_size_of _ _ _ _) as [m|e]; [|destruct (k_keep k); discriminate].
  cbv zeta in *. cbn [widths map length until_raised] in *.
  set (f := at_radius sm (mk_g (standardized im) (mk_stat None None) None true _ (Radii (r :: l)) None None None None) k m) in *.
  change (at_radius sm (mk_g (standardized im) (mk_stat None None) None true _ (Radii [r]) None None None None) k m) with f.
  destruct (f (Some r)) as [b|e]; [|discriminate]. cbn [fst snd] in *. destruct (snd (until_raised f (map Some l))); [discriminate|]. injection H as <-.
  eexists. split; [reflexivity|]. destruct (k_keep k); repeat split.
Qed.
Lemma first_radius pc sm mem interp tol d d' im1 im2 h1 h2 r l v : d_radii d = Some (RadArray (r :: l)) -> d_radii d' = Some (RadArray [r]) ->
  d_min d' = d_min d -> d_max d' = d_max d -> d_low d' = d_low d -> d_high d' = d_high d -> d_kwargs d' = d_kwargs d -> d_kwargs2 d' = d_kwargs2 d ->
  genus_distance_of pc sm mem interp tol d im1 im2 h1 h2 = Ok v -> genus_distance_of pc sm mem interp tol d' im1 im2 h1 h2 = Ok v.
Proof.
  intros D D' E1 E2 E3 E4 E5 E6 H. unfold genus_distance_of, genus_pair in *. apply bind_ok in H. destruct H as (p & P & H). apply bind_ok in P. destruct P as (o1 & P1 & P). apply bind_ok in P. destruct P as (o2 & P2 & P). apply bind_ok in P. destruct P as (s & P3 & P). injection P as <-.
  destruct (first_only pc sm mem d d' 0 im1 o1 r l D D' E1 E2 E3 E4 E5 E6 P1) as (o1' & Q1 & Q2 & Q3 & Q4). destruct (first_only pc sm mem d d' 1 im2 o2 r l D D' E1 E2 E3 E4 E5 E6 P2) as (o2' & R1 & R2 & R3 & R4).
  rewrite Q1, R1, P3. cbn [bind]. unfold distance_metric in *. rewrite Q4, R4, Q3, R3, Q2, R2. exact H.
Qed.

(** ** Cases *)
Definition toy_smooth (c : nat) (mt : bool) (w : R) (im : image) : result image :=
  match c with O => Ok (mk_im (i_n0 im) (i_n1 im) (fun p => fmul (Fin w) (i_pix im p))) | S _ => Err TypeError end.
Definition toy_percentile (l : list fl) (q : R) : fl := NaN.
Definition toy_image : image := mk_im 4 4 (fun p => Fin (INR (fst p))).
Definition keep : curve_args := mk_k true false (SizePix 4) 2 true false 0.
Definition wrong_keyword : curve_args := mk_k true false (SizePix 4) 2 false false 1.
Definition one_value : gargs := mk_ga None None 0 100 1 (Some [1]) true None.
Definition toy_object : gobj := mk_g toy_image (mk_stat None None) None true [Fin 1] (Radii [1]) None None None None.

Ltac rcmp := repeat match goal with |- context [Rltb ?a ?b] => destruct (Rltb_spec a b); [exfalso; cbn in *; lra|] end.
Lemma toy_init : genus_init toy_percentile toy_image (mk_stat None None) None one_value = Ok toy_object.
Proof. unfold genus_init, radii_of, checked. cbn [a_smoothing one_value a_radii existsb i_n0 i_n1 toy_image Nat.min]. rcmp. reflexivity. Qed.
Lemma toy_two o : g_smoothing o = true -> g_image o = toy_image -> set_radii o (RadArray [1; 2]) = (with_radii o (Radii [1; 2]), None).
Proof. intros S I. unfold set_radii, radii_of, checked. rewrite S, I. cbn [existsb i_n0 i_n1 toy_image Nat.min]. rcmp. reflexivity. Qed.
Lemma toy_second o : g_smoothing o = true -> g_image o = toy_image -> set_radii o (RadArray [2]) = (with_radii o (Radii [2]), None).
Proof. intros S I. unfold set_radii, radii_of, checked. rewrite S, I. cbn [existsb i_n0 i_n1 toy_image Nat.min]. rcmp. reflexivity. Qed.

Lemma stale_images : ~ (forall pc sm mem im st beam a o h k o' imgs, genus_init pc im st beam a = Ok o -> make_curve sm mem (history sm mem o h) k = (o', None) -> smoothed_images o' = Ok imgs ->
  forall j w, nth_error (widths (g_radii o')) j = Some w -> exists s, smoothed sm im k w = Ok s /\ nth_error imgs j = Some s).
Proof.
  intros H. specialize (H toy_percentile toy_smooth NaN toy_image (mk_stat None None) None one_value toy_object [Run keep; SetRadii (RadArray [2])] curve_defaults).
  specialize (H (fst (make_curve toy_smooth NaN (history toy_smooth NaN toy_object [Run keep; SetRadii (RadArray [2])]) curve_defaults))).
  specialize (H [mk_im 4 4 (fun p => fmul (Fin 1) (Fin (INR (fst p))))] toy_init).
  assert (E : history toy_smooth NaN toy_object [Run keep; SetRadii (RadArray [2])] = with_radii (fst (make_curve toy_smooth NaN toy_object keep)) (Radii [2])).
  { cbn [history fold_left do_call]. rewrite toy_second by reflexivity. reflexivity. }
  rewrite E in H. specialize (H eq_refl eq_refl 0%nat (Some 2) eq_refl). destruct H as (s & S & N). cbn in S, N. injection S as <-. injection N as N.
  assert (X := f_equal (fun f => f (1%nat, 0%nat)) N). cbn in X. injection X as X. lra.
Qed.
Lemma radii_differ : ~ (forall pc sm mem im st beam a o h rows, genus_init pc im st beam a = Ok o -> genus_stats (history sm mem o h) = Ok rows ->
  length rows = length (widths (g_radii (history sm mem o h)))).
Proof.
  intros H. specialize (H toy_percentile toy_smooth NaN toy_image (mk_stat None None) None one_value toy_object [Run curve_defaults; SetRadii (RadArray [1; 2])]).
  assert (E : history toy_smooth NaN toy_object [Run curve_defaults; SetRadii (RadArray [1; 2])] = with_radii (fst (make_curve toy_smooth NaN toy_object curve_defaults)) (Radii [1; 2])).
  { cbn [history fold_left do_call]. rewrite toy_two by reflexivity. reflexivity. }
  rewrite E in H. specialize (H _ toy_init eq_refl). cbn in H. discriminate.
Qed.
Lemma garbage : exists sm im o k, genus_init toy_percentile im (mk_stat None None) None one_value = Ok o /\
  forall mem, snd (make_curve sm mem o k) = Some TypeError /\ genus_stats (fst (make_curve sm mem o k)) = Ok [[mem]] /\ g_means (fst (make_curve sm mem o k)) = Some [mem].
Proof. exists toy_smooth, toy_image, toy_object, wrong_keyword. split; [exact toy_init|]. intros mem. repeat split. Qed.

Definition toy_options : dargs := mk_d None 100 (Both (Some (-1))) (Both (Some 1)) (Both 0) (Both 100) curve_defaults None.
Definition toy_grid : grid := {| distorted := false; scale0 := 1; scale1 := 1 |}.
Lemma climbing_from n : forall a s k, 0 < s -> climbing (map (fun i => a + INR i * s) (seq k n)) = true.
Proof.
  induction n as [|n IH]; intros a s k H; [reflexivity|]. destruct n as [|n]; [reflexivity|]. cbn [seq map]. change (climbing (?x :: ?y :: ?r)) with (Rltb x y && climbing (y :: r)).
  specialize (IH a s (S k) H). cbn [seq map] in IH. change (climbing ((a + INR k * s) :: (a + INR (S k) * s) :: map (fun i => a + INR i * s) (seq (S (S k)) n))) with (Rltb (a + INR k * s) (a + INR (S k) * s) && climbing ((a + INR (S k) * s) :: map (fun i => a + INR i * s) (seq (S (S k)) n))). rewrite IH.
  destruct (Rltb_spec (a + INR k * s) (a + INR (S k) * s)) as [|N]; [reflexivity|]. exfalso. apply N. rewrite (S_INR k). lra.
Qed.
Lemma finite_Fin l : climbing l = true -> finite_thresholds (map Fin l) = Ok l.
Proof.
  intros H. unfold finite_thresholds. assert (F : fins (map Fin l) = l) by (clear; induction l as [|x l IH]; cbn; [reflexivity|]; f_equal; exact IH). rewrite F, map_length, Nat.eqb_refl, H. reflexivity.
Qed.
Lemma toy_distance interp im h : i_n0 im = 4%nat -> i_n1 im = 4%nat -> h = toy_grid -> exists r, genus_distance_of toy_percentile toy_smooth NaN interp (1 / 100) toy_options im toy_image h toy_grid = Ok r.
Proof.
  intros N0 N1 ->. 
  assert (O : forall i im', i_n0 im' = 4%nat -> i_n1 im' = 4%nat -> exists o c, one_genus toy_percentile toy_smooth NaN toy_options i im' = Ok o /\ first_curve o = Ok c /\ finite_thresholds (g_thresholds o) = Ok (linspace (-1) 1 100)).
  { intros i im' H0 H1. unfold one_genus. cbn [toy_options pick d_min d_max d_low d_high bind d_radii d_kwargs d_kwargs2]. unfold genus_init. cbn [a_smoothing a_radii]. unfold radii_of, checked. cbn [standardized i_n0 i_n1]. rewrite H0, H1. cbn [existsb Nat.min]. rcmp. cbn [orb bind].
    destruct i; (do 2 eexists; split; [reflexivity|]; split; [reflexivity|]; cbn [with_curves g_thresholds thresholds_fl a_thresholds a_min a_max flinspace a_numpts]; apply finite_Fin; unfold linspace; cbn [Nat.leb]; unfold tab1; apply (climbing_from 100 (-1) ((1 - -1) / INR (100 - 1)) 0); apply Rdiv_lt_0_compat; [lra|apply lt_0_INR; lia]). }
  unfold genus_distance_of, genus_pair. destruct (O 0%nat im N0 N1) as (o1 & c1 & A1 & A2 & A3). destruct (O 1%nat toy_image eq_refl eq_refl) as (o2 & c2 & B1 & B2 & B3). rewrite A1, B1. cbn [bind].
  assert (C : exists s, common_scale toy_grid toy_grid (1 / 100) = Ok s). { unfold common_scale, toy_grid. cbn [distorted scale0 scale1]. replace (Rabs 1 - Rabs 1) with 0 by ring. rewrite Rabs_R0. rcmp. eexists. reflexivity. }
  destruct C as [s C]. rewrite C. cbn [bind distance_metric]. rewrite A2, B2, A3, B3. cbn [bind]. eexists. reflexivity.
Qed.
Lemma toy_readable : readable toy_image.
Proof. intros p. right. eexists. reflexivity. Qed.
Lemma curves_shown pc sm mem im st beam a o h k o' : genus_init pc im st beam a = Ok o -> make_curve sm mem (history sm mem o h) k = (o', None) ->
  exists m rows means stds, min_size_of st beam (k_beam k) (k_size k) = Ok m /\
    genus_stats o' = Ok rows /\ g_means o' = Some means /\ g_stds o' = Some stds /\
    length rows = length (widths (g_radii o')) /\ length means = length (widths (g_radii o')) /\ length stds = length (widths (g_radii o')) /\
    (k_keep k = true -> exists imgs, smoothed_images o' = Ok imgs /\ length imgs = length (widths (g_radii o'))) /\
    forall j w, nth_error (widths (g_radii o')) j = Some w ->
      exists s row, smoothed sm im k w = Ok s /\ nth_error rows j = Some row /\
        nth_error means j = Some (nanmean (values s)) /\ nth_error stds j = Some (nanstd (values s)) /\
        (k_keep k = true -> forall imgs, smoothed_images o' = Ok imgs -> nth_error imgs j = Some s) /\
        length row = length (thresholds_fl pc im a) /\
        forall i t, nth_error (thresholds_fl pc im a) i = Some (Fin t) -> exists g, nth_error row i = Some g /\ genus_value s t (k_removal k) m (k_connectivity k) g.
Proof.
  intros I H. assert (g_image o = im /\ g_stat o = st /\ g_beam o = beam /\ g_thresholds o = thresholds_fl pc im a) as (I1 & I2 & I3 & I4).
  { unfold genus_init in I. apply bind_ok in I. destruct I as (r & _ & I). injection I as <-. repeat split. }
  destruct (kept_fields sm mem h o) as (H1 & H2 & H3 & _ & H5). apply run_shows in H. rewrite H1, H2, H3, H5, I1, I2, I3, I4 in H.
  destruct H as (_ & R1 & _ & m & rows & means & stds & A1 & A2 & A3 & A4 & A5 & A6 & A7 & A8 & A9). rewrite <- R1 in *.
  exists m, rows, means, stds. split; [exact A1|]. split; [unfold genus_stats; now rewrite A2|]. do 5 (split; [assumption|]).
  split. { intros K. destruct (A8 K) as (imgs & B1 & B2). exists imgs. unfold smoothed_images. rewrite B1. now split. }
  intros j w Hj. destruct (A9 j w Hj) as (s & row & C1 & C2 & C3 & C4 & C5 & C6 & C7). exists s, row. do 4 (split; [assumption|]). split; [|now split].
  intros K imgs Hi. apply (C5 K). unfold smoothed_images in Hi. destruct (g_images o'); [|discriminate]. now injection Hi as ->.
Qed.
Lemma toy_run_ok : genus_init toy_percentile toy_image (mk_stat None None) None one_value = Ok toy_object /\
  snd (make_curve toy_smooth NaN (history toy_smooth NaN toy_object [Run wrong_keyword; SetRadii (RadArray [1; 2])]) keep) = None.
Proof. split; [exact toy_init|]. cbn [history fold_left do_call]. rewrite toy_two by reflexivity. reflexivity. Qed.
Lemma toy_later : snd (set_radii (history toy_smooth NaN toy_object [Run keep; Run wrong_keyword]) (RadArray [2])) = None /\ results (fst (make_curve toy_smooth NaN (fst (set_radii toy_object (RadArray [2]))) keep)) <> results toy_object.
Proof. split; rewrite toy_second by reflexivity; [reflexivity|]. discriminate. Qed.
Lemma deg_angular : angular (mk_q [2; 4] deg).
Proof.
  unfold angular, is_equivalent. cbn. split; reflexivity.
Qed.
