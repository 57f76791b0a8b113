(** Tsallis objects: histories without new lags; a 2x2 image. *)
From Coq Require Import Reals List Bool ZArith Arith Lia Lra.
From Verif Require Import Lib.PyBase Lib.Fl Model.Units Model.Tsallis Model.TsallisRun Spec.TsallisRun Proofs.Tsallis2_Proofs Proofs.Tsallis5_Proofs Proofs.TsallisRun_Proofs.
Import ListNotations.
Local Open Scope R_scope.

Section Object.
Variable s : stat.
Variables (cols side : nat) (img : list (list fl)).
Variable curve_fit : list (R * R) -> R * R * R -> nat -> result (R * R * R).
Variable old_dist : nat -> entry.
Variable old_row : nat -> row.
Notation do_make := (do_make s cols img old_dist).
Notation do_fit := (do_fit curve_fit old_row).
Notation run := (run s cols img curve_fit old_dist old_row).
Notation do_call := (do_call s cols side img curve_fit old_dist old_row).
Notation history := (history s cols side img curve_fit old_dist old_row).
Notation quiet := (quiet s cols side img curve_fit old_dist old_row).
Notation bins nb := (match nb with None => default_bins img | Some n => n end).

Definition made (lags : quantity) (p : bool) (n : option nat) (ds : list entry) : Prop := exists q, to_pixel s lags = Ok q /\
  Forall2 (fun r d => distribution (bins n) (lag_difference p cols img (Z.to_nat (Int_part r))) = Ok d) (q_vals q) ds.
Definition fine (lags : quantity) (o : tobj) : Prop := o_lags o = lags /\
  (forall ds, o_dists o = Some ds -> exists p n, made lags p n ds) /\
  (forall rows, o_rows o = Some rows -> exists t p n c, table o = Ok t /\ table_of s cols img curve_fit p n c lags t).

Lemma make_fine lags o p n o' : fine lags o -> do_make o p n = (o', None) -> fine lags o'.
Proof.
  intros (L & _ & RW). unfold TsallisRun.do_make. rewrite L. destruct (to_pixel s lags) as [q|e] eqn:Q; [|discriminate]. destruct (upto _ (q_vals q)) as [ds e] eqn:U. intros H. injection H as <- ->. apply upto_ok in U.
  pose proof (forall2_len _ _ _ U) as L1. pose proof (pixel_count _ _ _ Q) as L2. assert (Z0 : (length (q_vals lags) - length ds = 0)%nat) by lia. rewrite Z0. cbn [seq map]. rewrite app_nil_r.
  split; [reflexivity|]. split; cbn [o_dists o_rows].
  - intros ds' H. injection H as <-. exists p, n, q. split; [exact Q|exact U].
  - intros rows R. destruct (RW rows R) as (t & p' & n' & c' & T & O). exists t, p', n', c'. split; [|exact O]. unfold table in *. cbn [o_rows o_lags]. rewrite L in T. exact T.
Qed.
Lemma fit_fine lags o c o' : fine lags o -> do_fit o c = (o', None) -> fine lags o'.
Proof.
  intros (L & DS & _). unfold TsallisRun.do_fit. rewrite L. destruct (o_dists o) as [ds|] eqn:E; [|discriminate]. destruct (DS ds eq_refl) as (p & n & q & Q & U).
  destruct (fill curve_fit c _ 0 ds) as [out e] eqn:F. intros H. injection H as <- ->. apply fill_ok in F; [|lia]. destruct F as (new & F & -> & B). pose proof (forall2_len _ _ _ F) as L3. pose proof (forall2_len _ _ _ U) as L1. pose proof (pixel_count _ _ _ Q) as L2.
  cbn [firstn app Nat.add]. rewrite skipn_all2 by (rewrite map_length, seq_length; ll). rewrite app_nil_r. split; [reflexivity|]. split; cbn [o_dists o_rows].
  - intros ds' H. injection H as <-. exists p, n, q. split; [exact Q|exact U].
  - intros rows H. injection H as <-. unfold table. cbn [o_rows o_lags]. assert (LL : length new = length (q_vals lags)) by ll. rewrite LL, Nat.eqb_refl. eexists. exists p, n, c. split; [reflexivity|]. exists q. split; [exact Q|].
    rewrite map_fst_combine, map_snd_combine by congruence. split; [reflexivity|]. clear -U F. revert new F. induction U as [|r d rs ds E D IH]; intros rows F; inversion F as [|? v ? rows' EF F']; subst; constructor.
    + exists (fst d), (snd d). split; [now destruct d|exact EF].
    + now apply IH.
Qed.
Lemma quiet_fine lags l : forall o, fine lags o -> quiet o l -> fine lags (history o l).
Proof.
  induction l as [|c l IH]; intros o F Q; [exact F|]. cbn [Spec.TsallisRun.quiet] in Q. destruct Q as (NL & NE & Q). cbn [TsallisRun.history fold_left]. apply IH; [|exact Q]. clear IH Q. destruct c as [v|p n|c|p n c]; cbn [TsallisRun.do_call] in *.
  - now destruct (NL v).
  - destruct (do_make o p n) as [o' e] eqn:E. cbn [snd fst] in *. subst e. exact (make_fine lags o p n o' F E).
  - destruct (do_fit o c) as [o' e] eqn:E. cbn [snd fst] in *. subst e. exact (fit_fine lags o c o' F E).
  - unfold TsallisRun.run in *. destruct (do_make o p n) as [o1 [e|]] eqn:E; [discriminate|]. apply (make_fine lags) in E; [|exact F]. destruct (do_fit o1 c) as [o' e] eqn:E2. cbn [snd fst] in *. subst e. exact (fit_fine lags o1 c o' E E2).
Qed.
Theorem quiet_table given o l t : new s side given = Ok o -> quiet o l -> table (history o l) = Ok t ->
  o_lags (history o l) = o_lags o /\ exists p n c, table_of s cols img curve_fit p n c (o_lags o) t.
Proof.
  unfold new. destruct (init_lags s side given) as [q|e]; [|discriminate]. cbn [bind]. intros H. injection H as <-. intros Q T. assert (F0 : fine q (mk_t q None None)) by (split; [reflexivity|]; split; cbn; discriminate).
  pose proof (quiet_fine q l _ F0 Q) as (L & _ & RW). split; [exact L|]. unfold table in T. destruct (o_rows (history (mk_t q None None) l)) as [rows|] eqn:E; [|discriminate]. destruct (RW rows eq_refl) as (t' & p & n & c & T' & O).
  exists p, n, c. unfold table in T'. rewrite E in T'. rewrite T in T'. injection T' as <-. exact O.
Qed.
End Object.

(** ** A 2x2 image *)
Definition plate : stat := mk_stat None None.
Definition const_fit : list (R * R) -> R * R * R -> nat -> result (R * R * R) := fun _ _ _ => Ok (0, 1, 2).
Lemma two_lags_ok r : 1 <= r < 2 -> Z.to_nat (Int_part r) = 1%nat /\ Int_part r = 1%Z.
Proof. intros H. pose proof (Int_part_eq 1 r ltac:(lra)) as E. rewrite E. split; reflexivity. Qed.
Lemma lags_ok l : Forall (fun r => 1 <= r < 2) l -> set_lags plate 2 (Some (mk_q l pix)) = Ok (mk_q l pix).
Proof.
  intros F. unfold set_lags. assert (T : to_pixel plate (mk_q l pix) = Ok (mk_q l pix)) by reflexivity. rewrite T. cbn [bind q_vals]. clear T.
  assert (E1 : existsb (fun r => Rltb r 1) l = false). { induction F as [|r l H F IH]; [reflexivity|]. cbn [existsb]. rewrite IH. destruct (Rltb_spec r 1); [lra|reflexivity]. }
  assert (E2 : existsb (fun r => Rltb (1 / 10 ^ 10) (IZR (Int_part r) - INR 2 / 2)) l = false).
  { induction F as [|r l H F IH]; [reflexivity|]. cbn [existsb] in *. destruct (Rltb r 1); [discriminate|]. cbn [orb] in E1. rewrite (IH E1). rewrite (proj2 (two_lags_ok r H)). cbn [INR]. destruct (Rltb_spec (1 / 10 ^ 10) (1 - (1 + 1) / 2)); [|reflexivity]. assert (0 < / 10 ^ 10) by (apply Rinv_0_lt_compat, pow_lt; lra). lra. }
  now rewrite E1, E2.
Qed.
Lemma plate_fit : exists arr dist v, distribution (default_bins point2) (lag_difference true 2 point2 1) = Ok (arr, dist) /\ fit_one const_fit (Some 1) dist = Ok v /\ fit_one const_fit (Some 0) dist = Err ValueError.
Proof.
  destruct clip_refuted as (arr & dist & x & y & _ & D & I & _). exists arr, dist. unfold fit_one at 1. destruct (fit_points (Some 1) dist) as [|[x0 y0] r]; [destruct I|]. cbn [map bind const_fit fst snd]. eexists. split; [exact D|]. split; [reflexivity|].
  unfold fit_one. destruct (fit_points (Some 0) dist) as [|[a b] l] eqn:E; [reflexivity|]. exfalso. assert (J : In (a, b) (fit_points (Some 0) dist)) by (rewrite E; now left). apply fit_points_clipped in J. destruct J as [_ (v & _ & H)]. pose proof (Rabs_pos v). lra.
Qed.
Lemma plate_run : exists arr dist v, fit_one const_fit (Some 0) dist = Err ValueError /\ forall old_dist old_row l o, Forall (fun r => 1 <= r < 2) l -> o_lags o = mk_q l pix ->
  run plate 2 point2 const_fit old_dist old_row o true None (Some 1) = (mk_t (mk_q l pix) (Some (map (fun _ => (arr, dist)) l)) (Some (map (fun _ => v) l)), None).
Proof.
  destruct plate_fit as (arr & dist & v & D & F & Z). exists arr, dist, v. split; [exact Z|]. intros old_dist old_row l o H L. unfold run, do_make. rewrite L. assert (T : to_pixel plate (mk_q l pix) = Ok (mk_q l pix)) by reflexivity. rewrite T. cbn [q_vals]. clear T.
  assert (U : upto (fun r => distribution (default_bins point2) (lag_difference true 2 point2 (Z.to_nat (Int_part r)))) l = (map (fun _ => (arr, dist)) l, None)).
  { clear -H D. induction H as [|r l Hr H IH]; [reflexivity|]. cbn [upto map]. rewrite (proj1 (two_lags_ok r Hr)), D, IH. reflexivity. }
  rewrite U, map_length, Nat.sub_diag. cbn [seq map]. rewrite app_nil_r. unfold do_fit. cbn [o_dists o_lags q_vals].
  assert (FF : Forall2 (fun d w => fit_one const_fit (Some 1) (snd d) = Ok w) (map (fun _ : R => (arr, dist)) l) (map (fun _ => v) l)) by (clear -F; induction l; cbn; constructor; [exact F|assumption]).
  destruct (fill_runs const_fit (Some 1) _ (map old_row (seq 0 (length l))) 0 _ FF) as [out E]; [rewrite !map_length, seq_length; lia|]. rewrite E. apply fill_ok in E; [|lia]. destruct E as (nw & F2 & -> & B). pose proof (forall2_len _ _ _ F2) as L2. rewrite map_length in L2.
  cbn [firstn app Nat.add]. rewrite skipn_all2 by (rewrite map_length, seq_length; ll). rewrite app_nil_r. assert (N : nw = map (fun _ => v) l). { clear -F F2. revert nw F2. induction l as [|a l IH]; intros nw F2; inversion F2 as [|? w ? nw' E F3]; subst; [reflexivity|]. cbn [map snd] in *. f_equal; [congruence|now apply IH]. }
  rewrite N. reflexivity.
Qed.
