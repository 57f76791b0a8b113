(** Proofs about Model/TsallisRun.v. *)
From Coq Require Import Reals List Bool ZArith Arith Lia Lra.
From Verif Require Import Lib.PyBase Lib.Fl Model.Units Model.Tsallis Model.TsallisRun Spec.TsallisRun.
Import ListNotations.
Local Open Scope R_scope.

Lemma convert_count f t k q u p : convert f t k q u = Ok p -> length (q_vals p) = length (q_vals q).
Proof. unfold convert. destruct (is_equivalent _ _); [|destruct (_ && _); [|destruct (_ && _); [|discriminate]]]; intros H; injection H as <-; cbn [q_vals]; apply map_length. Qed.
Lemma pixel_count s q p : to_pixel s q = Ok p -> length (q_vals p) = length (q_vals q).
Proof.
  unfold to_pixel. destruct (is_equivalent (q_unit q) pix); [intros H; injection H as <-; reflexivity|]. destruct (is_equivalent (q_unit q) deg).
  - unfold to_angular. destruct (ang_size s); [|discriminate]. apply convert_count.
  - destruct (is_equivalent (q_unit q) pc); [|discriminate]. unfold to_physical. destruct (s_distance s); [|discriminate]. destruct (get_distance s); [|discriminate]. destruct (physical_size s); [|discriminate]. apply convert_count.
Qed.
Lemma upto_ok {A B} (f : A -> result B) l bs : upto f l = (bs, None) -> Forall2 (fun a b => f a = Ok b) l bs.
Proof.
  revert bs. induction l as [|a l IH]; intros bs H; cbn [upto] in H.
  - injection H as <-. constructor.
  - destruct (f a) as [b|e] eqn:E; [|discriminate]. destruct (upto f l) as [cs e]. injection H as <- ->. constructor; [exact E|now apply IH].
Qed.
Lemma forall2_len {A B} (P : A -> B -> Prop) l m : Forall2 P l m -> length l = length m.
Proof. induction 1; cbn; congruence. Qed.

Ltac ll := unfold entry, row in *; lia.
Lemma skipn_twice {A} (l : list A) : forall k m, skipn m (skipn k l) = skipn (m + k) l.
Proof. induction l as [|a l IH]; intros k m; [now rewrite !skipn_nil|]. destruct k as [|k]; [now rewrite Nat.add_0_r|]. rewrite Nat.add_succ_r. cbn [skipn]. apply IH. Qed.

Section Object.
Variable s : stat.
Variables (cols side : nat) (img : list (list fl)).
Variable curve_fit : list (R * R) -> R * R * R -> nat -> result (R * R * R).
Variable old_dist : nat -> entry.
Variable old_row : nat -> row.
Notation do_make := (do_make s cols img old_dist).
Notation do_fit := (do_fit curve_fit old_row).
Notation fill := (fill curve_fit).
Notation run := (run s cols img curve_fit old_dist old_row).
Notation assign := (assign s side).
Notation history := (history s cols side img curve_fit old_dist old_row).
Notation bins nb := (match nb with None => default_bins img | Some n => n end).

(** ** What is kept *)
Lemma make_keeps o p n : o_lags (fst (do_make o p n)) = o_lags o /\ o_rows (fst (do_make o p n)) = o_rows o.
Proof. unfold TsallisRun.do_make. destruct (match to_pixel s (o_lags o) with Err e => _ | Ok q => _ end) as [d e]. split; reflexivity. Qed.
Lemma fit_keeps o c : o_lags (fst (do_fit o c)) = o_lags o /\ o_dists (fst (do_fit o c)) = o_dists o.
Proof. unfold TsallisRun.do_fit. destruct (o_dists o) as [d|] eqn:E; [|split; [reflexivity|exact E]]. destruct (fill c _ 0 d) as [r e]. split; reflexivity. Qed.
Lemma run_lags o p n c : o_lags (fst (run o p n c)) = o_lags o.
Proof.
  unfold TsallisRun.run. pose proof (make_keeps o p n) as [K _]. destruct (do_make o p n) as [o1 [e|]]; cbn [fst] in *; [exact K|]. pose proof (fit_keeps o1 c) as [K' _]. congruence.
Qed.

(** ** Rows *)
Lemma fill_ok c : forall dists rows i out, fill c rows i dists = (out, None) -> (i <= length rows)%nat ->
  exists new : list row, Forall2 (fun d v => fit_one curve_fit c (snd d) = Ok v) dists new /\ out = firstn i rows ++ new ++ skipn (i + length new) rows /\ (i + length dists <= length rows)%nat.
Proof.
  induction dists as [|d dists IH]; intros rows i out H L; cbn [TsallisRun.fill] in H.
  - injection H as <-. exists []. split; [constructor|]. cbn [app length]. rewrite Nat.add_0_r, firstn_skipn. split; [reflexivity|lia].
  - destruct (fit_one curve_fit c (snd d)) as [v|e] eqn:E; [|discriminate]. destruct (Nat.ltb_spec i (length rows)) as [Li|]; [|discriminate].
    assert (LL : length (firstn i rows) = i) by (apply firstn_length_le; lia).
    apply IH in H; [|rewrite app_length; cbn [length]; rewrite LL, skipn_length; lia].
    destruct H as (new & F & -> & B). exists (v :: new). split; [constructor; [exact E|exact F]|]. rewrite app_length in B. cbn [length] in B. rewrite LL, skipn_length in B. split; [|cbn [length]; lia].
    assert (E1 : firstn (S i) (firstn i rows ++ v :: skipn (S i) rows) = firstn i rows ++ [v]).
    { rewrite firstn_app, LL. replace (S i - i)%nat with 1%nat by lia. rewrite firstn_all2 by lia. reflexivity. }
    rewrite E1, <- app_assoc. cbn [app length]. f_equal. f_equal. f_equal.
    rewrite skipn_app, LL. rewrite (skipn_all2 (firstn i rows)) by (rewrite LL; lia). cbn [app]. replace (S i + length new - i)%nat with (S (length new)) by lia. cbn [length].
    rewrite skipn_cons. rewrite skipn_twice. f_equal. lia.
Qed.
Lemma fill_length c : forall dists rows i, length (fst (fill c rows i dists)) = length rows.
Proof.
  induction dists as [|d dists IH]; intros rows i; cbn [TsallisRun.fill]; [reflexivity|]. destruct (fit_one curve_fit c (snd d)) as [v|e]; [|reflexivity]. destruct (Nat.ltb_spec i (length rows)); [|reflexivity].
  rewrite IH, app_length. cbn [length]. rewrite firstn_length_le, skipn_length by lia. lia.
Qed.
(** Enough rows: the fits fill the first ones, the others are what was in memory *)
Lemma fill_runs c : forall dists rows i new, Forall2 (fun d v => fit_one curve_fit c (snd d) = Ok v) dists new -> (i + length dists <= length rows)%nat ->
  exists out, fill c rows i dists = (out, None).
Proof.
  induction dists as [|d dists IH]; intros rows i new F L; cbn [TsallisRun.fill]; [eauto|]. inversion F as [|? v ? new' E F']; subst. rewrite E. cbn [length] in L. destruct (Nat.ltb_spec i (length rows)); [|lia].
  eapply IH; [exact F'|]. rewrite app_length. cbn [length]. rewrite firstn_length_le, skipn_length by lia. lia.
Qed.
Lemma fill_short c : forall dists rows i new, Forall2 (fun d v => fit_one curve_fit c (snd d) = Ok v) dists new -> (length rows < i + length dists)%nat -> (i <= length rows)%nat ->
  snd (fill c rows i dists) = Some IndexError.
Proof.
  induction dists as [|d dists IH]; intros rows i new F L Li; cbn [TsallisRun.fill]; [cbn in L; lia|]. inversion F as [|? v ? new' E F']; subst. rewrite E. cbn [length] in L. destruct (Nat.ltb_spec i (length rows)); [|reflexivity].
  eapply IH; [exact F'| |]; rewrite app_length; cbn [length]; rewrite firstn_length_le, skipn_length by lia; lia.
Qed.

(** ** Runs *)
Theorem run_ok o p n c o' : run o p n c = (o', None) -> exists q ds (rows : list row), to_pixel s (o_lags o) = Ok q /\
  Forall2 (fun r d => distribution (bins n) (lag_difference p cols img (Z.to_nat (Int_part r))) = Ok d) (q_vals q) ds /\
  Forall2 (fun d v => fit_one curve_fit c (snd d) = Ok v) ds rows /\ o' = mk_t (o_lags o) (Some ds) (Some rows) /\ length rows = length (q_vals (o_lags o)).
Proof.
  unfold TsallisRun.run, TsallisRun.do_make. destruct (to_pixel s (o_lags o)) as [q|e] eqn:Q; [|discriminate].
  destruct (upto _ (q_vals q)) as [ds [e|]] eqn:U; [discriminate|]. apply upto_ok in U. pose proof (forall2_len _ _ _ U) as L1. pose proof (pixel_count _ _ _ Q) as L2.
  assert (Z0 : (length (q_vals (o_lags o)) - length ds = 0)%nat) by lia. rewrite Z0. cbn [seq map]. rewrite app_nil_r. unfold TsallisRun.do_fit. cbn [o_dists o_lags].
  destruct (fill c _ 0 ds) as [out [e|]] eqn:F; [discriminate|]. apply fill_ok in F; [|lia]. destruct F as (new & F & -> & B). intros H. injection H as <-. pose proof (forall2_len _ _ _ F) as L3.
  exists q, ds, new. split; [reflexivity|]. split; [exact U|]. split; [exact F|]. cbn [firstn app Nat.add]. rewrite skipn_all2 by (rewrite map_length, seq_length; unfold entry, row in *; lia). rewrite app_nil_r. split; [reflexivity|unfold entry, row in *; lia].
Qed.
Lemma map_fst_combine {A B} (l : list A) (m : list B) : length l = length m -> map fst (combine l m) = l.
Proof. revert m. induction l as [|a l IH]; intros [|b m] H; try discriminate; [reflexivity|]. cbn. f_equal. apply IH. now injection H. Qed.
Lemma map_snd_combine {A B} (l : list A) (m : list B) : length l = length m -> map snd (combine l m) = m.
Proof. revert m. induction l as [|a l IH]; intros [|b m] H; try discriminate; [reflexivity|]. cbn. f_equal. apply IH. now injection H. Qed.
Theorem run_table o p n c o' : run o p n c = (o', None) -> exists t, table o' = Ok t /\ table_of s cols img curve_fit p n c (o_lags o') t.
Proof.
  intros H. destruct (run_ok o p n c o' H) as (q & ds & rows & Q & D & F & -> & L). unfold table. cbn [o_rows o_lags]. rewrite L, Nat.eqb_refl. eexists. split; [reflexivity|]. exists q. split; [exact Q|].
  rewrite map_fst_combine, map_snd_combine by congruence. split; [reflexivity|]. clear -D F. revert rows F. induction D as [|r d rs ds E D IH]; intros rows F; inversion F as [|? v ? rows' EF F']; subst; constructor.
  - exists (fst d), (snd d). split; [now destruct d|exact EF].
  - now apply IH.
Qed.
Theorem run_forgets o1 o2 p n c : o_lags o1 = o_lags o2 -> snd (run o1 p n c) = snd (run o2 p n c) /\ (snd (run o2 p n c) = None -> run o1 p n c = run o2 p n c).
Proof.
  intros E. unfold TsallisRun.run, TsallisRun.do_make. rewrite E. destruct (match to_pixel s (o_lags o2) with Err e => _ | Ok q => _ end) as [ds [e|]]; [split; [reflexivity|discriminate]|].
  unfold TsallisRun.do_fit. cbn [o_dists o_lags]. destruct (fill c _ 0 _) as [out e]. split; reflexivity.
Qed.
(** ** Lags that change *)
Lemma set_lags_self v q : set_lags s side v = Ok q -> v = Some q.
Proof. unfold set_lags. destruct v as [w|]; [|discriminate]. destruct (to_pixel s w); [|discriminate]. cbn [bind]. destruct (existsb _ _); [discriminate|]. destruct (existsb _ _); [discriminate|]. intros H. injection H as <-. reflexivity. Qed.
Theorem stale o p n c o' q : run o p n c = (o', None) -> set_lags s side (Some q) = Ok q -> length (q_vals q) = length (q_vals (o_lags o)) ->
  exists o2 t t2, assign o' (Some q) = (o2, None) /\ table o' = Ok t /\ table o2 = Ok t2 /\ o_lags o2 = q /\ map snd t2 = map snd t /\ map fst t2 = q_vals q.
Proof.
  intros H A L. destruct (run_ok o p n c o' H) as (pq & ds & rows & Q & D & F & -> & Lr). unfold TsallisRun.assign. rewrite A. eexists. eexists. eexists. split; [reflexivity|]. unfold table. cbn [o_rows o_lags].
  rewrite L, Lr, Nat.eqb_refl. split; [reflexivity|]. split; [reflexivity|]. split; [reflexivity|]. rewrite !map_snd_combine, map_fst_combine by congruence. auto.
Qed.
Theorem memory o p n c o' q : run o p n c = (o', None) -> set_lags s side (Some q) = Ok q -> (length (q_vals (o_lags o)) < length (q_vals q))%nat ->
  exists o3 t, do_fit (fst (assign o' (Some q))) c = (o3, None) /\ table o3 = Ok t /\ length t = length (q_vals q) /\
    forall i d, (length (q_vals (o_lags o)) <= i < length (q_vals q))%nat -> nth i (map snd t) d = old_row i.
Proof.
  intros H A L. destruct (run_ok o p n c o' H) as (pq & ds & rows & Q & D & F & -> & Lr). unfold TsallisRun.assign. rewrite A. cbn [fst]. unfold TsallisRun.do_fit. cbn [o_dists o_lags o_rows]. pose proof (forall2_len _ _ _ F) as Lf.
  destruct (fill_runs c ds (map old_row (seq 0 (length (q_vals q)))) 0 rows F) as [out E]; [rewrite map_length, seq_length; ll|]. rewrite E.
  destruct (fill_ok c ds _ 0 out E) as (new & F' & -> & _); [ll|]. pose proof (forall2_len _ _ _ F') as Lf'. cbn [firstn app Nat.add].
  assert (LT : length (new ++ skipn (length new) (map old_row (seq 0 (length (q_vals q))))) = length (q_vals q)) by (rewrite app_length, skipn_length, map_length, seq_length; ll).
  eexists. eexists. split; [reflexivity|]. unfold table. cbn [o_rows o_lags]. rewrite LT, Nat.eqb_refl. split; [reflexivity|]. split; [rewrite combine_length; ll|].
  intros i d Hi. rewrite map_snd_combine by (symmetry; exact LT). rewrite app_nth2 by ll. unfold row in Lf' |- *. rewrite <- Lf'.
  assert (K : forall (l : list row) m j, nth j (skipn m l) d = nth (m + j) l d). { clear. induction l as [|a l IH]; intros m j; [rewrite skipn_nil; destruct j, m; reflexivity|]. destruct m; [reflexivity|]. cbn [skipn Nat.add nth]. apply IH. }
  rewrite K. replace (length ds + (i - length ds))%nat with i by ll. rewrite (nth_indep _ d (old_row 0)) by (rewrite map_length, seq_length; ll). rewrite map_nth, seq_nth by ll. reflexivity.
Qed.
Theorem fewer o p n c o' q : run o p n c = (o', None) -> set_lags s side (Some q) = Ok q -> (length (q_vals q) < length (q_vals (o_lags o)))%nat ->
  snd (do_fit (fst (assign o' (Some q))) c) = Some IndexError.
Proof.
  intros H A L. destruct (run_ok o p n c o' H) as (pq & ds & rows & Q & D & F & -> & Lr). unfold TsallisRun.assign. rewrite A. cbn [fst]. unfold TsallisRun.do_fit. cbn [o_dists o_lags o_rows]. pose proof (forall2_len _ _ _ F) as Lf.
  pose proof (fill_short c ds (map old_row (seq 0 (length (q_vals q)))) 0 rows F) as K. rewrite map_length, seq_length in K. specialize (K ltac:(ll) ltac:(ll)). destruct (fill c _ 0 ds) as [out e]. exact K.
Qed.
(** ** A fit that raises at the first lag leaves a table of what was in memory *)
Theorem failed_fit o c d ds e : o_dists o = Some (d :: ds) -> fit_one curve_fit c (snd d) = Err e ->
  exists o', do_fit o c = (o', Some e) /\ table o' = Ok (combine (q_vals (o_lags o)) (map old_row (seq 0 (length (q_vals (o_lags o)))))).
Proof.
  intros D E. unfold TsallisRun.do_fit. rewrite D. cbn [TsallisRun.fill]. rewrite E. eexists. split; [reflexivity|]. unfold table. cbn [o_rows o_lags]. now rewrite map_length, seq_length, Nat.eqb_refl.
Qed.
(** ** Histories *)
Lemma history_lags h : forall o, (set_lags s side (Some (o_lags o)) = Ok (o_lags o)) -> set_lags s side (Some (o_lags (history o h))) = Ok (o_lags (history o h)).
Proof.
  induction h as [|c h IH]; intros o H; [exact H|]. cbn [TsallisRun.history fold_left]. apply IH. destruct c as [v|p n|c|p n c]; cbn [do_call].
  - unfold TsallisRun.assign. destruct (set_lags s side v) as [q|e] eqn:A; cbn [fst]; [|exact H]. cbn [o_lags]. pose proof (set_lags_self _ _ A). subst v. exact A.
  - now rewrite (proj1 (make_keeps o p n)).
  - now rewrite (proj1 (fit_keeps o c)).
  - now rewrite run_lags.
Qed.
End Object.
