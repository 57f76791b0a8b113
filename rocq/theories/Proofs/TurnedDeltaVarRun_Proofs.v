(** DeltaVariance objects of images seen from another side (C310). *)
From Coq Require Import String Reals List ZArith Arith Bool Lra Lia.
From Verif Require Import Lib.PyBase Lib.Fl Model.Units Model.DeltaVar Model.FitState Model.DeltaVarRun Spec.Turned Spec.TurnedDeltaVar Spec.DeltaVarRun Spec.TurnedDeltaVarRun Proofs.TurnedDeltaVar_Proofs.
Import ListNotations.
Local Open Scope R_scope.

Definition same_env (e e' : dv_env) : Prop :=
  v_stat e' = v_stat e /\ v_side e' = v_side e /\ v_line e' = v_line e /\ v_seg e' = v_seg e /\ forall c lag, v_value e' c lag = v_value e c lag.
Lemma made_same v i wmax m s line seg e e' : even_means m -> made_from i wmax m s line seg e -> made_from (seen_image v i) wmax (seen_means v m) s line seg e' -> same_env e e'.
Proof.
  intros K (A & B & C & D & E) (A' & B' & C' & D' & E'). repeat split; try congruence.
  - rewrite B, B'. destruct v; cbn; lia.
  - intros c lag. rewrite E, E'. destruct (K c lag). cbn. now apply deltavar_seen.
Qed.
Section Same.
  Variables e e' : dv_env.
  Hypothesis S : same_env e e'.
  Lemma same_new la n : match new_dv e la n, new_dv e' la n with Ok o, Ok o' => o' = o | Err x, Err x' => x' = x | _, _ => False end.
  Proof.
    destruct S as (A & B & _). unfold new_dv, lags_of. rewrite A, B. destruct la; cbn [bind]; try destruct (to_pixel _ _); cbn [bind]; try reflexivity; destruct (lags_ok _ _); cbn; reflexivity.
  Qed.
  Lemma same_fit o o' a : same_outcome o o' -> snd (fit_plaw e' o' a) = snd (fit_plaw e o a) /\ same_outcome (fst (fit_plaw e o a)) (fst (fit_plaw e' o' a)).
  Proof.
    destruct S as (A & _ & C & D & _). intros (L & V & R & F). destruct o as [l c k r f], o' as [l' c' k' r' f']. cbn in L, V, R, F. subst. unfold fit_plaw, same_outcome. rewrite A, C, D. cbn [d_lags d_curve d_range d_fit d_kept].
    repeat (first [progress cbn [fst snd d_lags d_curve d_range d_fit d_kept] | match goal with |- context [match ?x with _ => _ end] => destruct x end]); auto.
  Qed.
  Lemma same_compute o o' c : same_outcome o o' -> c_boundary c = "wrap"%string \/ c_boundary c = "fill"%string -> snd (compute e' o' c) = snd (compute e o c) /\ same_outcome (fst (compute e o c)) (fst (compute e' o' c)).
  Proof.
    destruct S as (_ & _ & _ & _ & E). intros (L & V & R & F) B. destruct o as [l cu k r f], o' as [l' cu' k' r' f']. cbn in L, V, R, F. subst. unfold compute, same_outcome. cbn [d_lags d_curve d_range d_fit d_kept].
    assert (known (c_boundary c) = true) as -> by (unfold known; destruct B as [-> | ->]; reflexivity). destruct l as [|x l]; cbn [fst snd d_lags d_curve d_range d_fit]; [auto|].
    rewrite (map_ext _ _ (E c)). auto.
  Qed.
  Lemma same_call o o' c : same_outcome o o' -> good_boundary c -> snd (do_call e' o' c) = snd (do_call e o c) /\ same_outcome (fst (do_call e o c)) (fst (do_call e' o' c)).
  Proof.
    intros H G. destruct c as [l|c|a|c a]; cbn [do_call].
    - destruct S as (_ & B & _). destruct H as (L & V & R & F). unfold set_lags, same_outcome. rewrite B. destruct (lags_ok _ _); cbn; auto.
    - now apply same_compute.
    - now apply same_fit.
    - unfold run. destruct (same_compute o o' (mk_copts (c_boundary c) false (c_others c)) H G) as [X Y].
      destruct (compute e o _) as [o1 x1], (compute e' o' _) as [o1' x1']. cbn [fst snd] in X, Y. subst x1'. unfold also. destruct x1; cbn [fst snd]; [auto|]. now apply same_fit.
  Qed.
  Lemma same_history l : forall o o', same_outcome o o' -> Forall good_boundary l -> same_outcome (history e o l) (history e' o' l).
  Proof.
    induction l as [|c l IH]; intros o o' H G; [exact H|]. inversion G; subst. cbn [history]. apply IH; [|assumption]. now apply same_call.
  Qed.
End Same.
Lemma same_run e e' o o' c a : same_env e e' -> same_outcome o o' -> c_boundary c = "wrap"%string \/ c_boundary c = "fill"%string -> snd (run e' o' c a) = snd (run e o c a) /\ same_outcome (fst (run e o c a)) (fst (run e' o' c a)).
Proof. intros S H G. exact (same_call e e' S o o' (CRun c a) H G). Qed.
Lemma seen_history v i wmax m s line seg e e' la n calls : even_means m -> made_from i wmax m s line seg e -> made_from (seen_image v i) wmax (seen_means v m) s line seg e' -> Forall good_boundary calls ->
  match new_dv e la n, new_dv e' la n with
  | Ok o, Ok o' => same_outcome (history e o calls) (history e' o' calls) /\ forall c, good_boundary c -> snd (do_call e' (history e' o' calls) c) = snd (do_call e (history e o calls) c)
  | Err x, Err x' => x' = x
  | _, _ => False
  end.
Proof.
  intros K M M' G. pose proof (made_same _ _ _ _ _ _ _ _ _ K M M') as S. pose proof (same_new e e' S la n) as N.
  destruct (new_dv e la n) as [o|x], (new_dv e' la n) as [o'|x']; try contradiction; [|exact N]. subst o'.
  assert (H : same_outcome (history e o calls) (history e' o calls)) by (apply (same_history e e' S); [repeat split|exact G]). split; [exact H|]. intros c C. now apply (same_call e e' S).
Qed.
Definition the_distance (r : result (dvo * dvo * fl)) : result fl := d <- r ;; Ok (snd d).
Lemma same_distance e1 e2 e1' e2' scale il l c1 c2 a1 a2 : same_env e1 e1' -> same_env e2 e2' -> good_boundary (CCompute c1) -> good_boundary (CCompute c2) ->
  the_distance (data_distance e1' e2' scale il l c1 c2 a1 a2) = the_distance (data_distance e1 e2 scale il l c1 c2 a1 a2).
Proof.
  intros S1 S2 G1 G2. unfold data_distance. assert (DL : distance_lags e1' e2' scale il l = distance_lags e1 e2 scale il l).
  { destruct S1 as (_ & B1 & _), S2 as (_ & B2 & _). unfold distance_lags. now rewrite B1, B2. }
  rewrite DL. clear DL. destruct (distance_lags e1 e2 scale il l) as [ls|x]; cbn [bind]; [|reflexivity].
  pose proof (same_new e1 e1' S1 (fst ls) 25) as N1. destruct (new_dv e1 _ 25) as [o1|x1], (new_dv e1' _ 25) as [o1'|x1']; try contradiction; cbn [bind]; [subst o1'|now subst].
  destruct (same_run e1 e1' o1 o1 c1 a1 S1) as [X1 Y1]; [repeat split|exact G1|]. destruct (run e1 o1 c1 a1) as [p1 z1], (run e1' o1 c1 a1) as [p1' z1']. cbn [fst snd] in X1, Y1. subst z1'. destruct z1; [reflexivity|].
  pose proof (same_new e2 e2' S2 (snd ls) 25) as N2. destruct (new_dv e2 _ 25) as [o2|x2], (new_dv e2' _ 25) as [o2'|x2']; try contradiction; cbn [bind]; [subst o2'|now subst].
  destruct (same_run e2 e2' o2 o2 c2 a2 S2) as [X2 Y2]; [repeat split|exact G2|]. destruct (run e2 o2 c2 a2) as [p2 z2], (run e2' o2 c2 a2) as [p2' z2']. cbn [fst snd] in X2, Y2. subst z2'. destruct z2; [reflexivity|].
  destruct Y1 as (L1 & V1 & R1 & _), Y2 as (L2 & V2 & R2 & _). rewrite V1, V2, R1, R2, L1, L2.
  destruct (d_curve p1), (d_range p1), (d_curve p2), (d_range p2); try reflexivity. destruct (curve_distance _ _ _ _ _ _ _); reflexivity.
Qed.
Lemma seen_distance v1 v2 i1 i2 wmax1 wmax2 m1 m2 s1 s2 line1 line2 seg1 seg2 e1 e2 e1' e2' scale il l c1 c2 a1 a2 : even_means m1 -> even_means m2 ->
  made_from i1 wmax1 m1 s1 line1 seg1 e1 -> made_from (seen_image v1 i1) wmax1 (seen_means v1 m1) s1 line1 seg1 e1' ->
  made_from i2 wmax2 m2 s2 line2 seg2 e2 -> made_from (seen_image v2 i2) wmax2 (seen_means v2 m2) s2 line2 seg2 e2' ->
  good_boundary (CCompute c1) -> good_boundary (CCompute c2) ->
  the_distance (data_distance e1' e2' scale il l c1 c2 a1 a2) = the_distance (data_distance e1 e2 scale il l c1 c2 a1 a2).
Proof. intros K1 K2 A B C D. apply same_distance; [exact (made_same _ _ _ _ _ _ _ _ _ K1 A B)|exact (made_same _ _ _ _ _ _ _ _ _ K2 C D)]. Qed.
