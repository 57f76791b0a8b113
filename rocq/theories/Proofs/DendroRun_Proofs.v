(** Dendrogram_Stats objects through histories of calls. *)
From Coq Require Import Reals List ZArith Arith Bool Lia Lra.
From Verif Require Import Lib.PyBase Lib.RSum Lib.Fl Lib.Arr Lib.Hist Model.StatsUtils Model.Psds Model.EllipPlaw Model.Dendro Model.DendroRun
  Spec.ScfSpectrum Spec.DendroRun Proofs.ScfSpectrum2_Proofs.
Import ListNotations.
Local Open Scope R_scope.

Section Env.
Context {D : Type} (e : dendro_env D).

Lemma compute_same o1 o2 p obj : d_deltas o1 = d_deltas o2 ->
  snd (do_compute e o1 p obj) = snd (do_compute e o2 p obj) /\
  d_deltas (fst (do_compute e o1 p obj)) = d_deltas (fst (do_compute e o2 p obj)) /\
  d_num (fst (do_compute e o1 p obj)) = d_num (fst (do_compute e o2 p obj)) /\
  d_values (fst (do_compute e o1 p obj)) = d_values (fst (do_compute e o2 p obj)).
Proof.
  intros E. unfold do_compute. cbn [set_counts d_deltas]. rewrite E.
  destruct (compute_dendro _ _ _ _ _ _) as [[out last]|x]; [|repeat split; cbn; congruence].
  destruct obj; [|destruct (n_keys e)]; repeat split; cbn; congruence.
Qed.
Ltac same4 := cbn [fst snd d_deltas d_num d_break d_fitted d_slope]; split; [congruence|]; split; [congruence|]; split; [congruence|];
  let H := fresh in intros H; first [discriminate H | repeat split; congruence].
Lemma fit_same o1 o2 size : d_deltas o1 = d_deltas o2 -> d_num o1 = d_num o2 ->
  snd (do_fit e o1 size) = snd (do_fit e o2 size) /\
  d_deltas (fst (do_fit e o1 size)) = d_deltas (fst (do_fit e o2 size)) /\
  d_num (fst (do_fit e o1 size)) = d_num (fst (do_fit e o2 size)) /\
  (snd (do_fit e o1 size) = None -> d_break (fst (do_fit e o1 size)) = d_break (fst (do_fit e o2 size)) /\
     d_fitted (fst (do_fit e o1 size)) = d_fitted (fst (do_fit e o2 size)) /\ d_slope (fst (do_fit e o1 size)) = d_slope (fst (do_fit e o2 size))).
Proof.
  intros E1 E2. unfold do_fit. rewrite E1, E2. destruct (d_num o2) as [nums|] eqn:EN; [|same4].
  destruct (Nat.eqb (length nums) 1); [same4|].
  destruct (negb _); [same4|]. destruct (all_set nums) as [l|]; [|same4].
  destruct (std_window _ _) as [b|x]; [|same4]. destruct (Nat.ltb _ 2); [same4|].
  destruct (n_ols e _) as [sl|x]; same4.
Qed.
Lemma fit_values o size : d_values (fst (do_fit e o size)) = d_values o /\ d_hists (fst (do_fit e o size)) = d_hists o /\ d_num (fst (do_fit e o size)) = d_num o.
Proof.
  unfold do_fit. destruct (d_num o) as [nums|] eqn:EN; [|cbn; repeat split; congruence].
  destruct (Nat.eqb (length nums) 1); [cbn; repeat split; congruence|]. destruct (negb _); [cbn; repeat split; congruence|]. destruct (all_set nums) as [l|]; [|cbn; repeat split; congruence].
  destruct (std_window _ _) as [b|x]; [|cbn; repeat split; congruence]. destruct (Nat.ltb _ 2); [repeat split; cbn; congruence|].
  destruct (n_ols e _) as [sl|x]; repeat split; cbn; congruence.
Qed.
Lemma hists_same o1 o2 mn b : d_values o1 = d_values o2 ->
  snd (do_hists o1 mn b) = snd (do_hists o2 mn b) /\
  (snd (do_hists o1 mn b) = None -> d_hists (fst (do_hists o1 mn b)) = d_hists (fst (do_hists o2 mn b))).
Proof.
  intros E. unfold do_hists. rewrite E. destruct (d_values o2); [|split; [reflexivity|discriminate]].
  destruct (make_hists _ _ _); split; try reflexivity; try discriminate.
Qed.
Lemma hists_keep o mn b : same_results (fst (do_hists o mn b)) o /\ d_deltas (fst (do_hists o mn b)) = d_deltas o.
Proof.
  unfold do_hists. destruct (d_values o) eqn:E; [|now split]. destruct (make_hists _ _ _); [|now split]. repeat split; cbn; congruence.
Qed.

Lemma run_same o1 o2 a : d_deltas o1 = d_deltas o2 ->
  snd (do_run e o1 a) = snd (do_run e o2 a) /\
  (snd (do_run e o1 a) = None -> same_results (fst (do_run e o1 a)) (fst (do_run e o2 a)) /\
     (g_hists a = true -> d_hists (fst (do_run e o1 a)) = d_hists (fst (do_run e o2 a)))).
Proof.
  intros E. unfold do_run, also. destruct (compute_same o1 o2 (g_periodic a) (g_obj a) E) as [C1 [C2 [C3 C4]]].
  destruct (do_compute e o1 _ _) as [p1 [x|]], (do_compute e o2 _ _) as [p2 [y|]]; cbn [fst snd] in *; try discriminate;
    try (split; [congruence|discriminate]).
  destruct (fit_same p1 p2 (g_size a) C2 C3) as [F1 [F2 [F3 F4]]].
  destruct (fit_values p1 (g_size a)) as [V1 _]. destruct (fit_values p2 (g_size a)) as [V2 _].
  destruct (do_fit e p1 _) as [q1 [x|]], (do_fit e p2 _) as [q2 [y|]]; cbn [fst snd] in *; try discriminate;
    try (split; [congruence|discriminate]).
  destruct (F4 eq_refl) as [F5 [F6 F7]].
  destruct (g_hists a); [|split; [reflexivity|intros _; split; [repeat split; cbn; congruence|discriminate]]].
  destruct (hists_same q1 q2 (g_min_number a) (g_bins a)) as [H1 H2]; [congruence|]. split; [exact H1|]. intros N. split; [|auto].
  destruct (hists_keep q1 (g_min_number a) (g_bins a)) as [[K1 [K2 [K3 [K4 K5]]]] _].
  destruct (hists_keep q2 (g_min_number a) (g_bins a)) as [[L1 [L2 [L3 [L4 L5]]]] _]. repeat split; congruence.
Qed.

(** A fit that raises before the solver keeps the slope. *)
Lemma fit_fails o size o' x : (forall l, is_ok (n_ols e l) = true) -> do_fit e o size = (o', Some x) -> d_slope o' = d_slope o /\ d_fitted o' = d_fitted o /\ d_num o' = d_num o.
Proof.
  intros A. unfold do_fit. destruct (d_num o) as [nums|] eqn:EN; [|intros [= <- _]; cbn; repeat split; congruence].
  destruct (Nat.eqb (length nums) 1); [intros [= <- _]; cbn; repeat split; congruence|].
  destruct (negb _); [intros [= <- _]; cbn; repeat split; congruence|]. destruct (all_set nums) as [l|]; [|intros [= <- _]; cbn; repeat split; congruence].
  destruct (std_window _ _) as [b|y]; [|intros [= <- _]; cbn; repeat split; congruence]. destruct (Nat.ltb _ 2); [intros [= <- _]; cbn; repeat split; congruence|].
  match goal with |- context [n_ols e ?l] => specialize (A l); destruct (n_ols e l) end; discriminate.
Qed.
Lemma run_fails o a o' x : (forall l, is_ok (n_ols e l) = true) -> g_hists a = false -> do_run e o a = (o', Some x) ->
  d_slope o' = d_slope o /\ d_fitted o' = d_fitted o /\ d_num o' = d_num (fst (do_compute e o (g_periodic a) (g_obj a))).
Proof.
  intros A H. unfold do_run, also. rewrite H. destruct (do_compute e o _ _) as [p [y|]] eqn:EC; cbn [fst].
  - intros [= <- _]. unfold do_compute in EC. cbn [set_counts d_deltas] in EC. destruct (compute_dendro _ _ _ _ _ _) as [[out last]|z]; [|injection EC as <- _; now repeat split].
    destruct (g_obj a); [discriminate|]. destruct (n_keys e); [discriminate|]. injection EC as <- _. now repeat split.
  - assert (K : d_slope p = d_slope o /\ d_fitted p = d_fitted o).
    { unfold do_compute in EC. cbn [set_counts d_deltas] in EC. destruct (compute_dendro _ _ _ _ _ _) as [[out last]|z]; [|discriminate].
      destruct (g_obj a); [|destruct (n_keys e); [|discriminate]]; injection EC as <-; now split. }
    destruct (do_fit e p (g_size a)) as [q [y|]] eqn:EF; [|discriminate]. intros [= <- _]. destruct (fit_fails p _ _ _ A EF) as [F1 [F2 F3]]. destruct K. repeat split; congruence.
Qed.

(** Thresholds set after the numbers were computed. *)
Lemma fit_pairs o size o' : do_fit e o size = (o', None) -> exists nums b,
  d_num o = Some (map Some nums) /\ length nums = length (d_deltas o) /\
  d_fitted o' = Some (skipn b (filter (fun p => Nat.ltb 1 (snd p)) (combine (d_deltas o) nums))).
Proof.
  unfold do_fit. destruct (d_num o) as [nums|] eqn:EN; [|discriminate]. destruct (Nat.eqb (length nums) 1); [discriminate|].
  destruct (Nat.eqb_spec (length nums) (length (d_deltas o))) as [L|]; cbn [negb]; [|discriminate].
  assert (AS : forall l l', all_set l = Some l' -> l = map Some l').
  { induction l as [|[n|] l IH]; intros l' H; cbn in H; [now injection H as <-| |discriminate]. destruct (all_set l); [|discriminate]. injection H as <-. cbn. f_equal. now apply IH. }
  destruct (all_set nums) as [l|] eqn:EA; [|discriminate]. apply AS in EA. subst nums. destruct (std_window _ _) as [b|y]; [|discriminate].
  destruct (Nat.ltb _ 2); [discriminate|]. destruct (n_ols e _); [|discriminate]. intros [= <-]. exists l, b. rewrite map_length in L. now repeat split.
Qed.
Lemma fit_inv o size o' : do_fit e o size = (o', None) <-> exists nums b sl, let pts := filter (fun p => Nat.ltb 1 (snd p)) (combine (d_deltas o) nums) in
  d_num o = Some (map Some nums) /\ length nums = length (d_deltas o) /\ length nums <> 1%nat /\
  std_window (map (fun p => INR (snd p)) pts) size = Ok b /\ (2 <= length (skipn b pts))%nat /\
  n_ols e (map (fun p => (flog10 (Fin (fst p)), flog10 (Fin (INR (snd p))))) (skipn b pts)) = Ok sl /\
  o' = mk_dobj (d_deltas o) (d_num o) (d_values o) (d_hists o) (Some (fst (nth b pts (0, 0%nat)))) (Some (skipn b pts)) (Some sl).
Proof.
  assert (AS : forall l l', all_set l = Some l' <-> l = map Some l').
  { induction l as [|[n|] l IH]; intros l'; cbn.
    - split; [now intros [= <-]|]. destruct l'; [reflexivity|discriminate].
    - destruct (all_set l) as [l0|] eqn:EA.
      + split; [intros [= <-]; cbn; f_equal; now apply IH|]. destruct l' as [|n' l']; [discriminate|]. cbn. intros [= -> E]. apply IH in E. congruence.
      + split; [discriminate|]. destruct l' as [|n' l']; [discriminate|]. cbn. intros [= -> E]. apply IH in E. discriminate.
    - split; [discriminate|]. destruct l'; discriminate. }
  unfold do_fit. split.
  - destruct (d_num o) as [nums|] eqn:EN; [|discriminate]. destruct (Nat.eqb_spec (length nums) 1) as [|N1]; [discriminate|].
    destruct (Nat.eqb_spec (length nums) (length (d_deltas o))) as [L|]; cbn [negb]; [|discriminate].
    destruct (all_set nums) as [l|] eqn:EA; [|discriminate]. apply AS in EA. subst nums. rewrite map_length in *.
    destruct (std_window _ _) as [b|y] eqn:EW; [|discriminate].
    destruct (Nat.ltb_spec (length (skipn b (filter (fun p : R * nat => Nat.ltb 1 (snd p)) (combine (d_deltas o) l)))) 2) as [|L2]; [discriminate|].
    destruct (n_ols e _) as [sl|] eqn:EO; [|discriminate]. intros [= <-]. exists l, b, sl. cbv zeta. now repeat (split; [assumption || reflexivity|]).
  - intros [nums [b [sl [EN [L [N1 [EW [L2 [EO ->]]]]]]]]]. rewrite EN, map_length. apply Nat.eqb_neq in N1. rewrite N1, L, Nat.eqb_refl. cbn [negb].
    rewrite (proj2 (AS _ nums) eq_refl), EW. cbn [d_deltas d_num d_values d_hists d_break d_fitted d_slope]. apply Nat.ltb_ge in L2. rewrite L2, EO. reflexivity.
Qed.
End Env.

(** ** The slope *)
Definition unit_rows (pts : list (R * R)) : list (R * R * R) := map (fun p => (fst p, snd p, 1)) pts.
Lemma sse_wsse pts a b : sse pts a b = wsse (unit_rows pts) a b.
Proof. unfold sse, wsse, unit_rows. rewrite map_map. f_equal. apply map_ext. intros [x y]. cbn [fst snd]. ring. Qed.
Lemma least_best pts a b : least pts a b -> best_line (unit_rows pts) a b.
Proof. intros H a' b'. rewrite <- !sse_wsse. apply H. Qed.
Lemma sse_shift pts c a b : sse (map (fun p => (fst p + c, snd p)) pts) a b = sse pts (a + b * c) b.
Proof. unfold sse. rewrite map_map. f_equal. apply map_ext. intros [x y]. cbn [fst snd]. f_equal. ring. Qed.
Lemma least_shift pts c a b : least (map (fun p => (fst p + c, snd p)) pts) a b -> least pts (a + b * c) b.
Proof. intros H a' b'. specialize (H (a' - b' * c) b'). rewrite !sse_shift in H. replace (a' - b' * c + b' * c) with a' in H by ring. exact H. Qed.

(** Least squares has one slope when there are two abscissae. *)
Lemma sse_mid pts a b a' b' : sse pts ((a + a') / 2) ((b + b') / 2) =
  (sse pts a b + sse pts a' b') / 2 - fold_right Rplus 0 (map (fun p => ((a - a') + (b - b') * fst p) ^ 2) pts) / 4.
Proof. unfold sse. induction pts as [|[x y] pts IH]; cbn [map fold_right fst snd]; [field|]. rewrite IH. field. Qed.
Lemma sum_sq_zero (f : R * R -> R) pts : fold_right Rplus 0 (map (fun p => f p ^ 2) pts) <= 0 -> forall p, In p pts -> f p = 0.
Proof.
  assert (P : forall l, 0 <= fold_right Rplus 0 (map (fun p => f p ^ 2) l)).
  { induction l as [|q l IH]; cbn [map fold_right]; [lra|]. pose proof (pow2_ge_0 (f q)). lra. }
  induction pts as [|q pts IH]; intros H p Hp; [easy|]. cbn [map fold_right] in H. pose proof (pow2_ge_0 (f q)) as Q. pose proof (P pts) as Q2.
  destruct Hp as [->|Hp]; [|apply IH; [lra|exact Hp]]. assert (f p ^ 2 = 0) by lra. destruct (Req_dec (f p) 0) as [|N]; [assumption|]. pose proof (pow_nonzero (f p) 2 N). contradiction.
Qed.
Lemma least_slope pts a b a' b' : least pts a b -> least pts a' b' -> (exists p q, In p pts /\ In q pts /\ fst p <> fst q) -> b = b'.
Proof.
  intros H H' [p [q [Hp [Hq N]]]]. pose proof (sse_mid pts a b a' b') as M. pose proof (H ((a + a') / 2) ((b + b') / 2)) as A. pose proof (H' ((a + a') / 2) ((b + b') / 2)) as B.
  pose proof (H a' b') as C1. pose proof (H' a b) as C2.
  pose proof (sum_sq_zero (fun p => (a - a') + (b - b') * fst p) pts ltac:(lra)) as Z. pose proof (Z p Hp) as Z1. pose proof (Z q Hq) as Z2. cbv beta in Z1, Z2.
  assert (K : (b - b') * (fst p - fst q) = 0) by lra. apply Rmult_integral in K. destruct K; lra.
Qed.

Definition log_pts (pts : list (R * nat)) : list (R * R) := map (fun p => (log10 (fst p), log10 (INR (snd p)))) pts.
Lemma log_fin pts : (forall p, In p pts -> 0 < fst p /\ (1 < snd p)%nat) ->
  map (fun p => (flog10 (Fin (fst p)), flog10 (Fin (INR (snd p))))) pts = fin_pts (log_pts pts).
Proof.
  intros H. unfold fin_pts, log_pts. rewrite map_map. apply map_ext_in. intros p Hp. destruct (H p Hp) as [A B]. cbn [fst snd]. rewrite !flog10_pos; [reflexivity| |exact A].
  apply lt_0_INR. lia.
Qed.
Lemma filter_combine_map (c : R) : forall (l : list R) (nums : list nat), filter (fun p => Nat.ltb 1 (snd p)) (combine (map (Rmult c) l) nums) =
  map (fun p => (c * fst p, snd p)) (filter (fun p => Nat.ltb 1 (snd p)) (combine l nums)).
Proof. induction l as [|x l IH]; intros [|n nums]; cbn [map combine filter]; try reflexivity. cbn [snd]. destruct (Nat.ltb 1 n); cbn [map fst snd]; now rewrite IH. Qed.
Lemma skipn_map {A B} (f : A -> B) n : forall l, skipn n (map f l) = map f (skipn n l).
Proof. induction n; intros [|x l]; cbn; auto. Qed.
Lemma in_skipn {A} n : forall (l : list A) x, In x (skipn n l) -> In x l.
Proof. induction n; intros [|y l] x H; cbn in *; auto. Qed.
Lemma nodup_skipn {A} n : forall l : list A, NoDup l -> NoDup (skipn n l).
Proof. induction n; intros [|x l] H; cbn; auto. inversion H; auto. Qed.
Lemma nodup_fst_filter (l : list R) (nums : list nat) : NoDup l -> NoDup (map fst (filter (fun p => Nat.ltb 1 (snd p)) (combine l nums))).
Proof.
  revert nums. induction l as [|x l IH]; intros [|n nums] H; cbn [combine filter map]; try constructor. inversion H as [|? ? Nx Nl]; subst. cbn [snd].
  destruct (Nat.ltb 1 n); [|now apply IH]. cbn [map fst]. constructor; [|now apply IH]. intros Q. apply in_map_iff in Q. destruct Q as [[y m] [E Q]]. cbn in E. subst.
  apply filter_In in Q. destruct Q as [Q _]. now apply in_combine_l in Q.
Qed.
Lemma two_logs (pts : list (R * nat)) : (2 <= length pts)%nat -> NoDup (map fst pts) -> (forall p, In p pts -> 0 < fst p) ->
  exists p q, In p (log_pts pts) /\ In q (log_pts pts) /\ fst p <> fst q.
Proof.
  intros L N P. destruct pts as [|p [|q pts]]; cbn [length] in L; try lia. exists (log10 (fst p), log10 (INR (snd p))), (log10 (fst q), log10 (INR (snd q))).
  split; [now left|]. split; [now right; left|]. cbn [fst]. intros E. apply log10_inj in E; [|apply P; now left|apply P; now right; left].
  cbn in N. inversion N as [|? ? Q _]; subst. apply Q. left. now symmetry.
Qed.
Lemma log10_mult c x : 0 < c -> 0 < x -> log10 (c * x) = log10 x + log10 c.
Proof. intros Hc Hx. unfold log10. rewrite ln_mult by assumption. field. intros E. pose proof (ln_lt_2) . assert (0 < ln 10) by (rewrite <- ln_1; apply ln_increasing; lra). lra. Qed.

Section Slope.
Context {D : Type} (e : dendro_env D).
Hypothesis slope_ok : ols_slope (n_ols e).
Hypothesis answers_ok : ols_answers (n_ols e).

Lemma fitted_in (o : dendro_obj) nums b p : (forall d, In d (d_deltas o) -> 0 < d) ->
  In p (skipn b (filter (fun p => Nat.ltb 1 (snd p)) (combine (d_deltas o) nums))) -> 0 < fst p /\ (1 < snd p)%nat.
Proof.
  intros P H. apply in_skipn in H. apply filter_In in H. destruct H as [H L]. apply Nat.ltb_lt in L. split; [|exact L]. destruct p as [d n]. apply in_combine_l in H. now apply P.
Qed.

Lemma slope_units o o' size q c : 0 < c -> (forall d, In d (d_deltas o) -> 0 < d) -> NoDup (d_deltas o) ->
  d_deltas o' = map (Rmult c) (d_deltas o) -> d_num o' = d_num o -> do_fit e o size = (q, None) ->
  exists q' s er er', do_fit e o' size = (q', None) /\ d_slope q = Some (Fin s, er) /\ d_slope q' = Some (Fin s, er').
Proof.
  intros Hc P ND ED EN F. apply fit_inv in F. destruct F as [nums [b [sl F]]]. cbv zeta in F. destruct F as [E1 [L [N1 [EW [L2 [EO ->]]]]]].
  set (pts := filter (fun p => Nat.ltb 1 (snd p)) (combine (d_deltas o) nums)) in *.
  assert (PF : forall p, In p (skipn b pts) -> 0 < fst p /\ (1 < snd p)%nat) by (intros p Hp; exact (fitted_in o nums b p P Hp)).
  pose (sc := fun p : R * nat => (c * fst p, snd p)).
  assert (E2 : filter (fun p => Nat.ltb 1 (snd p)) (combine (d_deltas o') nums) = map sc pts) by (rewrite ED; apply filter_combine_map).
  assert (PF' : forall p, In p (map sc (skipn b pts)) -> 0 < fst p /\ (1 < snd p)%nat).
  { intros p Hp. apply in_map_iff in Hp. destruct Hp as [r [<- Hr]]. destruct (PF r Hr). cbn. split; [now apply Rmult_lt_0_compat|assumption]. }
  destruct (answers_ok (log_pts (map sc (skipn b pts)))) as [s' [er' A']]; [unfold log_pts; now rewrite !map_length|].
  destruct (answers_ok (log_pts (skipn b pts))) as [s [er A]]; [unfold log_pts; now rewrite map_length|].
  rewrite (log_fin _ PF) in EO. rewrite A in EO. injection EO as <-.
  assert (ES : s = s').
  { destruct (slope_ok _ _ _ A) as [a B]. destruct (slope_ok _ _ _ A') as [a' B'].
    assert (EL : log_pts (map sc (skipn b pts)) = map (fun p => (fst p + log10 c, snd p)) (log_pts (skipn b pts))).
    { unfold log_pts. rewrite !map_map. apply map_ext_in. intros p Hp. destruct (PF p Hp). cbn [fst snd sc]. f_equal. unfold sc. cbn [fst]. now apply log10_mult. }
    rewrite EL in B'. apply least_shift in B'. apply (least_slope _ _ _ _ _ B B'). apply two_logs; [exact L2| |intros p Hp; now apply PF].
    rewrite <- skipn_map. apply nodup_skipn, nodup_fst_filter, ND. }
  subst s'. eexists. exists s, er, er'. split; [|split; [reflexivity|]].
  { apply fit_inv. exists nums, b, (Fin s, er'). cbv zeta. rewrite E2. split; [now rewrite EN|]. split; [now rewrite ED, map_length|]. split; [exact N1|].
    split; [rewrite map_map; exact EW|]. split; [now rewrite skipn_map, map_length|]. split; [rewrite skipn_map, (log_fin _ PF'); exact A'|reflexivity]. }
  reflexivity.
Qed.

Lemma slope_exact o size q A s : 0 < A -> (forall d, In d (d_deltas o) -> 0 < d) -> NoDup (d_deltas o) -> do_fit e o size = (q, None) ->
  (forall pts d n, d_fitted q = Some pts -> In (d, n) pts -> INR n = A * Rpower d s) ->
  exists er, d_slope q = Some (Fin s, er).
Proof.
  intros HA P ND F H. apply fit_inv in F. destruct F as [nums [b [sl F]]]. cbv zeta in F. destruct F as [E1 [L [N1 [EW [L2 [EO ->]]]]]].
  set (pts := filter (fun p => Nat.ltb 1 (snd p)) (combine (d_deltas o) nums)) in *. cbn [d_fitted d_slope] in *.
  assert (PF : forall p, In p (skipn b pts) -> 0 < fst p /\ (1 < snd p)%nat) by (intros p Hp; exact (fitted_in o nums b p P Hp)).
  destruct (answers_ok (log_pts (skipn b pts))) as [s' [er AA]]; [unfold log_pts; now rewrite map_length|].
  rewrite (log_fin _ PF), AA in EO. injection EO as <-. exists er. do 3 f_equal.
  destruct (slope_ok _ _ _ AA) as [a B]. apply least_best in B.
  apply (best_line_exact _ a s' (log10 A) s) in B; [tauto| | |].
  - intros x y w Hin. unfold unit_rows in Hin. apply in_map_iff in Hin. destruct Hin as [p [Q _]]. injection Q as _ _ <-. lra.
  - intros x y w Hin. unfold unit_rows, log_pts in Hin. rewrite map_map in Hin. apply in_map_iff in Hin. destruct Hin as [[d n] [Q Hin]]. cbn [fst snd] in Q. injection Q as <- <- _.
    rewrite (H _ d n eq_refl Hin). now apply log10_plaw.
  - destruct (two_logs (skipn b pts)) as [[x1 y1] [[x2 y2] [I1 [I2 N]]]]; [exact L2|rewrite <- skipn_map; apply nodup_skipn, nodup_fst_filter, ND|intros p Hp; now apply PF|].
    exists x1, y1, 1, x2, y2, 1. unfold unit_rows. split; [apply in_map_iff; now exists (x1, y1)|]. split; [apply in_map_iff; now exists (x2, y2)|exact N].
Qed.
End Slope.

(** What is left untouched. *)
Lemma run_hists_kept {D} (e : dendro_env D) o a : g_hists a = false -> d_hists (fst (do_run e o a)) = d_hists o.
Proof.
  intros H. unfold do_run, also. rewrite H.
  assert (K : d_hists (fst (do_compute e o (g_periodic a) (g_obj a))) = d_hists o).
  { unfold do_compute. cbn [set_counts d_deltas]. destruct (compute_dendro _ _ _ _ _ _) as [[out last]|z]; [|reflexivity]. destruct (g_obj a); [reflexivity|]. now destruct (n_keys e). }
  destruct (do_compute e o _ _) as [p [y|]]; cbn [fst] in *; [exact K|]. destruct (fit_values e p (g_size a)) as [_ [F _]].
  destruct (do_fit e p (g_size a)) as [q [y|]]; cbn [fst] in *; congruence.
Qed.
Lemma run_num {D} (e : dendro_env D) o a : d_num (fst (do_run e o a)) = d_num (fst (do_compute e o (g_periodic a) (g_obj a))).
Proof.
  unfold do_run, also. destruct (do_compute e o _ _) as [p [y|]]; [reflexivity|]. destruct (fit_values e p (g_size a)) as [_ [_ F]].
  destruct (do_fit e p (g_size a)) as [q [y|]]; cbn [fst] in *; [exact F|]. destruct (g_hists a); [|exact F].
  destruct (hists_keep q (g_min_number a) (g_bins a)) as [[K _] _]. congruence.
Qed.
Lemma set_deltas_keeps {D} (e : dendro_env D) o v o1 : set_deltas e o v = (o1, None) -> set_min_deltas (n_param e) v = Ok (A1 (d_deltas o1)) /\ d_num o1 = d_num o.
Proof. unfold set_deltas. destruct (set_min_deltas _ _) as [[l|]|]; intros H; try discriminate. injection H as <-. now split. Qed.
Lemma fit_lengths {D} (e : dendro_env D) o size nums : d_num o = Some nums -> length nums <> 1%nat -> length nums <> length (d_deltas o) -> do_fit e o size = (o, Some IndexError).
Proof. intros E N L. unfold do_fit. rewrite E. apply Nat.eqb_neq in N, L. now rewrite N, L. Qed.

(** A solver for the examples. *)
Definition ols_1D (l : list (fl * fl)) : result (fl * fl) := Ok (snd (solver_1D (map (fun p => (fst p, snd p, Fin 1)) l)), Fin 1).
Lemma ols_1D_ok : ols_slope ols_1D /\ ols_answers ols_1D.
Proof.
  assert (E : forall pts, map (fun p => (fst p, snd p, Fin 1)) (fin_pts pts) = map as_row (unit_rows pts)).
  { intros pts. unfold fin_pts, unit_rows. rewrite !map_map. now apply map_ext. }
  destruct solver_exists as [L A]. split.
  - intros pts s er H. unfold ols_1D in H. rewrite E in H. injection H as H _. destruct (A (unit_rows pts)) as [a [b Q]]. rewrite Q in H. cbn in H. injection H as ->.
    exists a. apply L in Q; [intros a0 b0; rewrite !sse_wsse; apply Q|]. intros x y w Hin. unfold unit_rows in Hin. apply in_map_iff in Hin. destruct Hin as [p [Z _]]. injection Z as _ _ <-. lra.
  - intros pts _. unfold ols_1D. rewrite E. destruct (A (unit_rows pts)) as [a [b Q]]. rewrite Q. now exists b, (Fin 1).
Qed.
