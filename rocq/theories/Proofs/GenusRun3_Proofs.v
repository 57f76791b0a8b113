(** Accepted radii, default thresholds, and the value of the genus distance. *)
From Coq Require Import Reals List Bool ZArith Arith Lia Lra.
From Verif Require Import Lib.PyBase Lib.Fl Lib.RSum Lib.Arr Spec.Regions Spec.GenusSpec Spec.Blank Model.Units Model.StatsUtils Model.Distances Model.Genus Model.GenusRun Spec.GenusRun
  Proofs.Fl_Proofs Proofs.Tsallis3_Proofs Proofs.Tighten_Proofs Proofs.GenusRun_Proofs Proofs.GenusRun2_Proofs.
Import ListNotations.
Local Open Scope R_scope.

Lemma existsb_none {A} (f : A -> bool) l : existsb f l = false <-> forall x, In x l -> f x = false.
Proof.
  induction l as [|a l IH]; cbn; [split; [intros _ x []|reflexivity]|]. rewrite orb_false_iff, IH. split.
  - intros [E H] x [<-|I]; auto.
  - intros H. split; auto.
Qed.
Lemma checked_iff n0 n1 l r x : checked n0 n1 l r = Ok x <-> x = r /\ forall v, In v l -> 1 <= v <= INR (Nat.min n0 n1) / 2.
Proof.
  unfold checked. destruct (existsb (fun v => Rltb v 1) l) eqn:E1.
  { split; [discriminate|]. intros [_ H]. exfalso. apply existsb_exists in E1. destruct E1 as (v & I & L). specialize (H v I). destruct (Rltb_spec v 1); [lra|discriminate]. }
  destruct (existsb (fun v => Rltb (1 / 2 * INR (Nat.min n0 n1)) v) l) eqn:E2.
  { split; [discriminate|]. intros [_ H]. exfalso. apply existsb_exists in E2. destruct E2 as (v & I & L). specialize (H v I). destruct (Rltb_spec (1 / 2 * INR (Nat.min n0 n1)) v); [lra|discriminate]. }
  pose proof (proj1 (existsb_none _ _) E1) as F1. pose proof (proj1 (existsb_none _ _) E2) as F2. split; [|intros [-> _]; reflexivity]. intros H. injection H as <-. split; [reflexivity|]. intros v I. specialize (F1 v I). specialize (F2 v I). cbn beta in F1, F2.
  destruct (Rltb_spec v 1); [discriminate|]. destruct (Rltb_spec (1 / 2 * INR (Nat.min n0 n1)) v); [discriminate|]. lra.
Qed.
Lemma checked_err n0 n1 l r e : checked n0 n1 l r = Err e -> e = ValueError.
Proof. unfold checked. destruct (existsb _ l); [congruence|]. destruct (existsb _ l); congruence. Qed.
Theorem radii_accepted o l : g_smoothing o = true ->
  ((forall v, In v l -> 1 <= v <= INR (Nat.min (i_n0 (g_image o)) (i_n1 (g_image o))) / 2) -> set_radii o (RadArray l) = (with_radii o (Radii l), None)) /\
  ((exists v, In v l /\ ~ (1 <= v <= INR (Nat.min (i_n0 (g_image o)) (i_n1 (g_image o))) / 2)) -> set_radii o (RadArray l) = (o, Some ValueError)).
Proof.
  intros S. unfold set_radii, radii_of. rewrite S. split.
  - intros H. rewrite (proj2 (checked_iff _ _ l (Radii l) (Radii l)) (conj eq_refl H)). reflexivity.
  - intros (v & I & N). destruct (checked _ _ l (Radii l)) as [r|e] eqn:E.
    + apply checked_iff in E. destruct E as [_ H]. exfalso. exact (N (H v I)).
    + apply checked_err in E. subst e. reflexivity.
Qed.
Theorem init_accepted pc im st beam a l : a_smoothing a = true -> a_radii a = Some (RadArray l) ->
  (is_ok (genus_init pc im st beam a) = true <-> forall v, In v l -> 1 <= v <= INR (Nat.min (i_n0 im) (i_n1 im)) / 2).
Proof.
  intros S A. unfold genus_init. rewrite S, A. cbn [radii_of]. destruct (checked _ _ l (Radii l)) as [r|e] eqn:E; cbn [bind is_ok].
  - apply checked_iff in E. split; [intros _; apply E|reflexivity].
  - split; [discriminate|]. intros H. pose proof (proj2 (checked_iff _ _ l (Radii l) (Radii l)) (conj eq_refl H)). congruence.
Qed.

(** ** Thresholds *)
Lemma readable_blankable im : readable im -> Forall blankable (values im).
Proof.
  intros H. apply Forall_forall. intros v I. unfold values in I. apply in_map_iff in I. destruct I as (p & <- & _). destruct (H p) as [->|[r ->]]; cbn; eauto.
Qed.
Lemma dlinspace_length a b n : length (linspace a b n) = n.
Proof. unfold linspace. destruct (Nat.leb n 1); unfold tab1; now rewrite map_length, seq_length. Qed.
Lemma dlinspace_nth a b n i : (2 <= n)%nat -> (i < n)%nat -> nth_error (linspace a b n) i = Some (a + INR i * ((b - a) / INR (n - 1))).
Proof.
  intros N I. unfold linspace. destruct (Nat.leb_spec n 1); [lia|]. unfold tab1. rewrite nth_error_map.
  assert (E : nth_error (seq 0 n) i = Some i). { rewrite (nth_error_nth' _ 0%nat) by now rewrite seq_length. now rewrite seq_nth. }
  now rewrite E.
Qed.
Lemma min_same l m m' : is_min m l -> is_min m' l -> m = m'.
Proof. intros [I H] [I' H']. specialize (H _ I'). specialize (H' _ I). lra. Qed.
Lemma max_same l m m' : is_max m l -> is_max m' l -> m = m'.
Proof. intros [I H] [I' H']. specialize (H _ I'). specialize (H' _ I). lra. Qed.
Lemma history_thresholds sm mem h : forall o, g_thresholds (history sm mem o h) = g_thresholds o.
Proof.
  induction h as [|c h IH]; intros o; [reflexivity|]. cbn [history fold_left]. change (fold_left _ h ?x) with (history sm mem x h). rewrite IH.
  destruct c as [k|a]; cbn [do_call].
  - unfold make_curve. destruct (min_size_of _ _ _ _); [|destruct (k_keep k); reflexivity]. destruct (g_radii o); destruct (k_keep k); reflexivity.
  - unfold set_radii. destruct (radii_of _ _ _ a); reflexivity.
Qed.
Theorem thresholds_shown pc sm mem im st beam a o h lo hi : readable im -> genus_init pc im st beam a = Ok o -> a_thresholds a = None -> (2 <= a_numpts a)%nat ->
  (match a_min a with Some v => lo = v | None => a_low a = 0 /\ is_min lo (fins (values im)) end) ->
  (match a_max a with Some v => hi = v | None => a_high a = 100 /\ is_max hi (fins (values im)) end) ->
  length (g_thresholds (history sm mem o h)) = a_numpts a /\
  forall i, (i < a_numpts a)%nat -> nth_error (g_thresholds (history sm mem o h)) i = Some (Fin (lo + INR i * ((hi - lo) / INR (a_numpts a - 1)))).
Proof.
  intros B I T N L H. rewrite history_thresholds.
  assert (G : g_thresholds o = thresholds_fl pc im a). { unfold genus_init in I. apply bind_ok in I. destruct I as (r & _ & I). injection I as <-. reflexivity. }
  assert (E : thresholds_fl pc im a = map Fin (linspace lo hi (a_numpts a))).
  { unfold thresholds_fl. rewrite T. apply readable_blankable in B.
    assert (E1 : match a_min a with Some v => Fin v | None => if Reqb (a_low a) 0 then nanmin (values im) else pc (values im) (a_low a) end = Fin lo).
    { destruct (a_min a); [congruence|]. destruct L as [-> L]. destruct (Reqb_spec 0 0); [|lra]. destruct (nanmin_spec _ B) as (m & -> & M). { intros Z. rewrite Z in L. destruct L as [[] _]. } now rewrite (min_same _ _ _ M L). }
    assert (E2 : match a_max a with Some v => Fin v | None => if Reqb (a_high a) 100 then nanmax (values im) else pc (values im) (a_high a) end = Fin hi).
    { destruct (a_max a); [congruence|]. destruct H as [-> H]. destruct (Reqb_spec 100 100); [|lra]. destruct (nanmax_spec _ B) as (m & -> & M). { intros Z. rewrite Z in H. destruct H as [[] _]. } now rewrite (max_same _ _ _ M H). }
    rewrite E1, E2. reflexivity. }
  rewrite G, E. split; [now rewrite map_length, dlinspace_length|]. intros i Hi. rewrite nth_error_map, dlinspace_nth by assumption. reflexivity.
Qed.
Theorem thresholds_given pc sm mem im st beam a o h t : genus_init pc im st beam a = Ok o -> a_thresholds a = Some t -> g_thresholds (history sm mem o h) = map Fin t.
Proof.
  intros I T. rewrite history_thresholds. unfold genus_init in I. apply bind_ok in I. destruct I as (r & _ & I). injection I as <-. cbn [g_thresholds]. unfold thresholds_fl. now rewrite T.
Qed.

(** ** Distance *)
Lemma fins_short l : (length (fins l) <= length l)%nat.
Proof. induction l as [|[| | |] l IH]; [apply le_n| | | |]; unfold fins in *; cbn [flat_map app length] in *; lia. Qed.
Lemma fins_all l t : fins l = t -> length t = length l -> l = map Fin t.
Proof.
  intros <-. induction l as [|v l IH]; [reflexivity|]. pose proof (fins_short l) as Q.
  destruct v; unfold fins in *; cbn [flat_map app length map] in *; intros H; try lia. f_equal. apply IH. lia.
Qed.
Lemma finite_ok l t : finite_thresholds l = Ok t -> l = map Fin t.
Proof.
  unfold finite_thresholds. destruct (Nat.eqb_spec (length (fins l)) (length l)); cbn [andb]; [|discriminate]. destruct (climbing (fins l)); [|discriminate]. intros H. injection H as H. apply fins_all; [exact H|congruence].
Qed.
Lemma first_curve_ok o c : first_curve o = Ok c -> exists row rows, genus_stats o = Ok (row :: rows) /\ c = fins row.
Proof.
  unfold first_curve. intros H. apply bind_ok in H. destruct H as ([|row rows] & H & K); [discriminate|]. injection K as <-. exists row, rows. now split.
Qed.
Lemma common_ok h1 h2 tol s : common_scale h1 h2 tol = Ok s -> s = Rabs (scale0 h2) / Rabs (scale0 h1).
Proof.
  unfold common_scale. destruct (distorted h1); [discriminate|]. destruct (distorted h2); [discriminate|]. destruct (Rltb tol _); [discriminate|]. destruct (Rltb tol _); [discriminate|]. congruence.
Qed.
Theorem distance_value pc sm mem interp tol d im1 im2 h1 h2 r : genus_distance_of pc sm mem interp tol d im1 im2 h1 h2 = Ok r ->
  exists o1 o2 s t1 t2 row1 rows1 row2 rows2,
    genus_pair pc sm mem tol d im1 im2 h1 h2 = Ok (o1, o2, s) /\
    g_thresholds o1 = map Fin t1 /\ g_thresholds o2 = map Fin t2 /\ genus_stats o1 = Ok (row1 :: rows1) /\ genus_stats o2 = Ok (row2 :: rows2) /\
    forall a1 b1 a2 b2, is_min a1 t1 -> is_max b1 t1 -> is_min a2 t2 -> is_max b2 t2 ->
      let n := (2 * ((length t1 + length t2) / 2))%nat in let lo := Rmax a1 a2 in let hi := Rmin b1 b2 in
      let area1 := INR (i_n0 im1 * i_n1 im1) / (Rabs (scale0 h2) / Rabs (scale0 h1)) in let area2 := INR (i_n0 im2 * i_n1 im2) in
      r ^ 2 = rsum n (fun k => let p := lo + INR k * ((hi - lo) / INR (n - 1)) in
        (interp t1 (map (fun g => g / area1) (fins row1)) p - interp t2 (map (fun g => g / area2) (fins row2)) p) ^ 2).
Proof.
  intros H. unfold genus_distance_of in H. apply bind_ok in H. destruct H as ([[o1 o2] s] & P & H). cbn [distance_metric] in H.
  apply bind_ok in H. destruct H as (c1 & F1 & H). apply bind_ok in H. destruct H as (c2 & F2 & H). apply bind_ok in H. destruct H as (t1 & T1 & H). apply bind_ok in H. destruct H as (t2 & T2 & H). injection H as <-.
  apply first_curve_ok in F1. apply first_curve_ok in F2. destruct F1 as (row1 & rows1 & F1 & ->). destruct F2 as (row2 & rows2 & F2 & ->).
  exists o1, o2, s, t1, t2, row1, rows1, row2, rows2. split; [exact P|]. split; [now apply finite_ok|]. split; [now apply finite_ok|]. split; [exact F1|]. split; [exact F2|].
  intros a1 b1 a2 b2 A1 B1 A2 B2. apply pair_ok in P. destruct P as (mn & mx & lo & hi & g & mn' & mx' & lo' & hi' & g' & _ & _ & _ & _ & _ & _ & _ & _ & G & G' & K & K' & C).
  apply common_ok in C. subst s.
  assert (Q : forall im st beam a g k o, genus_init pc im st beam a = Ok g -> make_curve sm mem g k = (o, None) -> g_image o = im).
  { clear. intros im st beam a g k o I K. unfold genus_init in I. apply bind_ok in I. destruct I as (r & _ & I). injection I as <-. unfold make_curve in K. destruct (min_size_of _ _ _ _); [|discriminate]. cbn [g_radii] in K. destruct r; destruct (k_keep k); try discriminate; apply (f_equal (fun x => g_image (fst x))) in K; symmetry; exact K. }
  rewrite (Q _ _ _ _ _ _ _ G K), (Q _ _ _ _ _ _ _ G' K'). cbn [standardized i_n0 i_n1]. exact (Tighten_Proofs.genus_value interp _ t1 _ _ t2 _ _ a1 b1 a2 b2 A1 B1 A2 B2).
Qed.

Lemma toy_default : (exists o, genus_init toy_percentile toy_image (mk_stat None None) None defaults = Ok o) /\ readable toy_image /\
  is_min 0 (fins (values toy_image)) /\ is_max 3 (fins (values toy_image)).
Proof.
  split; [|split; [exact toy_readable|]].
  - unfold genus_init, radii_of, checked. cbn [defaults a_smoothing a_radii existsb i_n0 i_n1 toy_image Nat.min]. rcmp. eexists. reflexivity.
  - assert (E : fins (values toy_image) = [0; 0; 0; 0; 1; 1; 1; 1; 2; 2; 2; 2; 3; 3; 3; 3]).
    { unfold values. cbn. repeat f_equal; ring. }
    rewrite E. split; (split; [cbn; tauto|]); cbn; intros y H; repeat (destruct H as [<-|H]; [lra|]); destruct H.
Qed.
