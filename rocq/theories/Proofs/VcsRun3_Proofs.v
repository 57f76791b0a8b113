(** Proofs about Model/VcsRun.v: cubes with a given spectrum, and two of them. *)
From Coq Require Import Reals List Arith Bool Lia Lra.
From Coquelicot Require Import Complex.
From Verif Require Import Lib.PyBase Lib.RSum Lib.Fl Lib.Arr Lib.DFT Lib.DFT2 Lib.DFT3 Model.StatsUtils Model.Psds Model.EllipPlaw Model.Units Model.DeltaVar Model.LmSeg Model.BreakFit Model.VcsFit Model.VcsRun
  Spec.Segmented Spec.BreakFit Spec.VcsFit Spec.VcsRun Proofs.Fl_Proofs Proofs.Psds2_Proofs Proofs.Psds3_Proofs Proofs.Ols_Proofs Proofs.BreakFit_Proofs Proofs.BreakFit2_Proofs Proofs.BreakFit5_Proofs Proofs.Straight_Proofs Proofs.VcsFit_Proofs Proofs.VcsRun_Proofs Proofs.VcsRun2_Proofs.
Import ListNotations.
Local Open Scope R_scope.

(** Without limits, every frequency k/n with 1 <= k < n/2 *)
Lemma default_freqs to_freq n low high : low_limit to_freq n None low -> high_limit to_freq n None high -> fitted_freqs n low high = map (fun k => INR k / INR n) (seq 1 (n / 2 - 1)).
Proof.
  cbn [low_limit high_limit]. intros -> (m & Im & Mm & ->). unfold fitted_freqs. f_equal. apply filter_all. intros k Hk. apply in_seq in Hk. destruct (half_le n k) as [H1 H2]; [lia|].
  assert (Hn : 0 < INR n) by (apply lt_0_INR; lia). assert (Hk1 : 1 <= INR k) by (change 1 with (INR 1); apply le_INR; lia). pose proof (Mm _ (freq_in n k H1 H2)) as G.
  assert (P : 0 < INR k / INR n) by (apply Rdiv_lt_0_compat; lra).
  destruct (Rlt_dec (98 / 100 / INR n) (INR k / INR n)) as [_|N]; [|exfalso; apply N; unfold Rdiv; apply Rmult_lt_compat_r; [now apply Rinv_0_lt_compat|lra]].
  destruct (Rle_dec (INR k / INR n) (m * (101 / 100))); [reflexivity|]. exfalso. lra.
Qed.
Lemma default_limits to_freq n : (0 < n)%nat -> exists low high, low_limit to_freq n None low /\ high_limit to_freq n None high.
Proof.
  intros N. exists (98 / 100 / INR n), (vcs_high n None). split; [reflexivity|]. apply (high_limit_ok n to_freq vcs_defaults (vcs_high n None) N). reflexivity.
Qed.

(** One line of sight with a given spectrum *)
Definition line_cube (n : nat) (a : nat -> R) (z y x : nat) : R := row_of n a 0 z.
Lemma line_power n a k : (0 < n)%nat -> (forall k, (k < n)%nat -> a ((n - k) mod n) = a k) -> (k < n)%nat ->
  nth k (vcs_ps1D n 1 1 (fun z y x => Fin (line_cube n a z y x))) NaN = Fin ((a k)²).
Proof.
  intros Hn Sy Hk. rewrite (vcs_clean_formula n 1 1 (line_cube n a) k) by lia. f_equal. cbn [rsum]. rewrite !Rplus_0_l, <- Cnorm2_RtoC. f_equal.
  unfold line_cube. rewrite (dft1_ext n _ (idft1 n (fun k => RtoC (a k)))) by (intros j Hj; apply row_real; assumption). now apply dft1_idft1.
Qed.

(** Eleven channels: frequencies 1/11, 2/11 below the break, 3/11, 4/11 above *)
Definition freq11 (k : nat) : R := INR (Nat.min k (11 - k)) / 11.
Definition power11 (f : R) : R := broken_plaw 1 (-1) (-3) (5 / 22) f.
Definition cube11 (z y x : nat) : fl := Fin (line_cube 11 (fun k => sqrt (power11 (freq11 k))) z y x).
Lemma sym11 k : (k < 11)%nat -> freq11 ((11 - k) mod 11) = freq11 k.
Proof. intros H. do 11 (destruct k as [|k]; [reflexivity|]). lia. Qed.
Lemma power11_at k : (1 <= k < 5)%nat -> nth k (vcs_ps1D 11 1 1 cube11) NaN = Fin (power11 (INR k / INR 11)).
Proof.
  intros H. unfold cube11. rewrite (line_power 11 (fun k => sqrt (power11 (freq11 k))) k); [|lia| |lia]; [|intros j Hj; cbv beta; now rewrite sym11]. cbv beta. rewrite Rsqr_sqrt by (left; apply broken_pos; lra).
  do 2 f_equal. unfold freq11. rewrite Nat.min_l by lia. f_equal. cbn. lra.
Qed.
Lemma freqs11 : map (fun k => INR k / INR 11) (seq 1 (11 / 2 - 1)) = [1 / 11; 2 / 11; 3 / 11; 4 / 11].
Proof. cbn [seq map Nat.div Nat.divmod fst Nat.sub]. repeat (apply (f_equal2 cons); [cbn; lra|]). reflexivity. Qed.
Lemma sided11 : two_sided (5 / 22) [1 / 11; 2 / 11; 3 / 11; 4 / 11].
Proof.
  split; [exists (1 / 11), (2 / 11)|exists (3 / 11), (4 / 11)]; cbn [In].
  - split; [now left|]. split; [right; now left|]. lra.
  - split; [right; right; now left|]. split; [right; right; right; now left|]. lra.
Qed.
Lemma gap11 c : 2 / 11 < c < 3 / 11 -> same_gap (5 / 22) c [1 / 11; 2 / 11; 3 / 11; 4 / 11].
Proof. intros H v Hv. repeat (destruct Hv as [<-|Hv]; [lra|]). destruct Hv. Qed.
Definition ask11 : vargs := mk_va (Some (2 / 9)) false None None false.
Lemma run11 to_freq knots boot : exists o' C, run 11 1 1 cube11 to_freq knots ols0 boot fresh ask11 = (o', None) /\ slope o' = Ok [Fin (-1); Fin (-3)] /\ brk o' = Ok (ln C / ln 10) /\ C <> 5 / 22.
Proof.
  destruct (default_limits to_freq 11) as (low & high & EL & EH); [lia|]. pose proof (default_freqs to_freq 11 low high EL EH) as EF. rewrite freqs11 in EF.
  destruct (law_broken 11 to_freq knots ols0 boot ltac:(lia) (compute 11 1 1 cube11 fresh) ask11 low high (vcs_ps1D 11 1 1 cube11) 1 (-1) (-3) (5 / 22) (2 / 9) EL EH eq_refl (ps1D_length 11 1 1 cube11 ltac:(lia) ltac:(lia) ltac:(lia)) regression_ols0 ltac:(lra) ltac:(lra) ltac:(lra) ltac:(lra)) as (o' & E & C & _ & S' & K & HC); rewrite ?EF.
  - intros k Hk _. apply power11_at. cbn in Hk. lia.
  - exact sided11.
  - apply gap11. lra.
  - apply gap11. lra.
  - left. reflexivity.
  - exists o', C. split; [exact E|]. split; [exact S'|]. split; [exact K|]. destruct HC as [->| ->]; lra.
Qed.

(** Fourteen channels of a white spectrum *)
Definition cube14 (z y x : nat) : fl := Fin (line_cube 14 (fun _ => 1) z y x).
Lemma power14_at k : (k < 14)%nat -> nth k (vcs_ps1D 14 1 1 cube14) NaN = Fin 1.
Proof. intros H. unfold cube14. rewrite (line_power 14 (fun _ => 1) k) by (try lia; reflexivity). f_equal. unfold Rsqr. ring. Qed.
Lemma white14 low high : follows 14 (vcs_ps1D 14 1 1 cube14) low high (fun f => 1 * Rpower f 0).
Proof.
  intros k Hk _. rewrite power14_at by (change (14 / 2)%nat with 7%nat in Hk; lia). f_equal. rewrite Rpower_O; [ring|]. apply Rdiv_lt_0_compat; apply lt_0_INR; lia.
Qed.
Definition given14 : vargs := mk_va (Some (5 / 28)) false None None false.
Definition search14 (q : quantity) : vargs := mk_va None true None (Some q) false.
Definition knots14 (x : list R) (y : list fl) : result (list R) := Ok [log10 (1 / 14); log10 (5 / 28); log10 (7 / 28); log10 (5 / 14)].
Lemma freqs14 : map (fun k => INR k / INR 14) (seq 1 (14 / 2 - 1)) = [1 / 14; 2 / 14; 3 / 14; 4 / 14; 5 / 14; 6 / 14].
Proof. cbn [seq map Nat.div Nat.divmod fst Nat.sub]. repeat (apply (f_equal2 cons); [cbn; lra|]). reflexivity. Qed.
Lemma cut14 : fitted_freqs 14 (98 / 100 / INR 14) (5 / 14) = [1 / 14; 2 / 14; 3 / 14; 4 / 14; 5 / 14].
Proof.
  unfold fitted_freqs. change (14 / 2 - 1)%nat with 6%nat. cbn [seq filter].
  assert (N : INR 14 = 14) by (cbn; lra). assert (N1 : INR 1 = 1) by reflexivity. assert (N2 : INR 2 = 2) by (cbn; lra). assert (N3 : INR 3 = 3) by (cbn; lra). assert (N4 : INR 4 = 4) by (cbn; lra). assert (N5 : INR 5 = 5) by (cbn; lra). assert (N6 : INR 6 = 6) by (cbn; lra).
  rewrite N, N1, N2, N3, N4, N5, N6.
  repeat match goal with |- context [Rlt_dec ?a ?b] => destruct (Rlt_dec a b); [|exfalso; lra] end.
  destruct (Rle_dec (1 / 14) (5 / 14)); [|lra]. destruct (Rle_dec (2 / 14) (5 / 14)); [|lra]. destruct (Rle_dec (3 / 14) (5 / 14)); [|lra]. destruct (Rle_dec (4 / 14) (5 / 14)); [|lra]. destruct (Rle_dec (5 / 14) (5 / 14)); [|lra]. destruct (Rle_dec (6 / 14) (5 / 14)); [lra|].
  cbn [map]. now rewrite N1, N2, N3, N4, N5.
Qed.
Lemma sided14 c l : 2 / 14 < c < 3 / 14 \/ 3 / 14 < c < 4 / 14 -> two_sided c ([1 / 14; 2 / 14; 3 / 14; 4 / 14; 5 / 14] ++ l).
Proof.
  intros H. split; [exists (1 / 14), (2 / 14)|exists (4 / 14), (5 / 14)]; cbn [In app].
  - split; [now left|]. split; [right; now left|]. lra.
  - split; [right; right; right; now left|]. split; [right; right; right; right; now left|]. lra.
Qed.
Lemma failed14 (to_freq : quantity -> result R) boot q : to_freq q = Ok (5 / 14) -> exists o1 o2,
  run 14 1 1 cube14 to_freq knots14 ols0 boot fresh given14 = (o1, None) /\ do_fit 14 to_freq knots14 ols0 boot o1 (search14 q) = (o2, Some ValueError) /\
  slope o1 = Ok [Fin 0] /\ slope o2 = Ok [Fin 0] /\ brk o1 = Ok (ln (6 / 14) / ln 10) /\ brk o2 = Ok (ln (5 / 14) / ln 10) /\ v_high o2 = Some (5 / 14).
Proof.
  intros Q. destruct (default_limits to_freq 14) as (low & high & EL & EH); [lia|]. pose proof (default_freqs to_freq 14 low high EL EH) as EF. rewrite freqs14 in EF.
  pose proof (ps1D_length 14 1 1 cube14 ltac:(lia) ltac:(lia) ltac:(lia)) as LP.
  destruct (law_plain 14 to_freq knots14 ols0 boot ltac:(lia) (compute 14 1 1 cube14 fresh) given14 low high (vcs_ps1D 14 1 1 cube14) 1 0 (5 / 28) EL EH eq_refl LP regression_ols0 ltac:(lra) ltac:(lra) (white14 _ _)) as (o1 & m & E1 & P1 & S1 & B1 & I1 & M1).
  { rewrite EF. apply (sided14 (5 / 28) [6 / 14]). lra. } { reflexivity. }
  rewrite EF in I1, M1. assert (m = 6 / 14). { specialize (M1 (6 / 14) ltac:(cbn; tauto)). repeat (destruct I1 as [<-|I1]; [lra|]). destruct I1. } subst m.
  destruct (law_search 14 to_freq knots14 ols0 boot ltac:(lia) o1 (search14 q) (98 / 100 / INR 14) (5 / 14) (vcs_ps1D 14 1 1 cube14) 1 0 [log10 (1 / 14); log10 (5 / 28); log10 (7 / 28); log10 (5 / 14)] [log10 (7 / 28); log10 (5 / 28)] eq_refl Q P1 LP regression_ols0 ltac:(lra) (white14 _ _) eq_refl eq_refl) as (o2 & m & E2 & B2 & _ & H2 & I2 & M2); rewrite ?cut14.
  - cbn [map]. unfold vcs_start, drop_last. cbn [tl length Nat.sub firstn rev app last hd nth Nat.leb].
    assert (L1 : log10 (7 / 28) < log10 (5 / 14)) by (apply log10_lt; lra). assert (L2 : log10 (1 / 14) < log10 (5 / 28)) by (apply log10_lt; lra).
    destruct (Reqb_spec (log10 (7 / 28)) (log10 (5 / 14))); [lra|]. cbn [last]. destruct (Reqb_spec (log10 (5 / 28)) (log10 (1 / 14))); [lra|]. reflexivity.
  - intros b Hb. assert (P : forall f, In f [1 / 14; 2 / 14; 3 / 14; 4 / 14; 5 / 14] -> 0 < f) by (intros f Hf; repeat (destruct Hf as [<-|Hf]; [lra|]); destruct Hf).
    destruct Hb as [<-|[<-|[]]]; apply log_sided; try lra; try exact P; [apply (sided14 (7 / 28) [])|apply (sided14 (5 / 28) [])]; lra.
  - cbn. lia.
  - rewrite cut14 in I2, M2. assert (m = 5 / 14). { specialize (M2 (5 / 14) ltac:(cbn; tauto)). repeat (destruct I2 as [<-|I2]; [lra|]). destruct I2. } subst m.
    exists o1, o2. split; [exact E1|]. split; [exact E2|]. split; [exact S1|]. split; [|auto]. apply fit_failed in E2. destruct E2 as [-> _]. exact S1.
Qed.

(** Errors that depend on their kind *)
Definition ols_cov (c : cov_type) (y : list R) (w : option (list R)) (cols : list (list R)) : fit_result :=
  let f := ols0 y w cols in mk_fit (f_params f) (map (fun _ => match c with Nonrobust => Fin 1 | HC3 => Fin 2 end) (f_params f)) (f_resid f) (f_cov f).
Lemma ols_cov_regression c : regression (ols_cov c).
Proof.
  intros y w G. destruct (regression_ols0 y w G) as [W L]. split.
  - intros cols. destruct (W cols) as (W1 & W2 & W3 & W4). unfold ols_cov. cbn [f_params f_bse f_cov]. rewrite map_length. auto.
  - intros cols LC. exact (L cols LC).
Qed.
Lemma cov_example : let x := [1; 2; 3; 4] in exists g h,
  lm_seg_fit_cov ols_cov HC3 (map Fin x) (map Fin x) (Fin (5 / 2)) None = Ok g /\ get_slopes g = Ok ([Fin 1], [Fin 1]) /\
  lm_seg_fit (ols_cov HC3) (map Fin x) (map Fin x) (Fin (5 / 2)) None = Ok h /\ get_slopes h = Ok ([Fin 1], [Fin 2]).
Proof.
  intros x. assert (T : two_sided (5 / 2) x). { split; [exists 1, 2|exists 3, 4]; cbn; lra. }
  assert (X : map (fun v => 0 + 1 * v) x = x) by (cbn; repeat (apply (f_equal2 cons); [ring|]); reflexivity).
  destruct (lm_straight (ols_cov Nonrobust) x None 0 1 (5 / 2) (ols_cov_regression _) T I) as (g & EG & _ & FG & PG & LG & HG). destruct (lm_straight (ols_cov HC3) x None 0 1 (5 / 2) (ols_cov_regression _) T I) as (h & EH & _ & FH & PH & LH & HH).
  rewrite X in *. cbn [option_map] in *. exists g, h. split; [rewrite (cov_ignored ols_cov) by (intros; split; reflexivity); exact EG|]. split; [|split; [exact EH|]].
  - unfold get_slopes. rewrite FG. unfold params, param_errs. rewrite PG, HG. unfold ols_cov at 1. cbn [f_bse]. rewrite HG in LG. unfold ols_cov in LG. cbn [f_bse] in LG. rewrite map_length in LG. destruct (f_params (ols0 x None (add_constant [x]))) as [|u [|v [|]]]; try discriminate. reflexivity.
  - unfold get_slopes. rewrite FH. unfold params, param_errs. rewrite PH, HH. unfold ols_cov at 1. cbn [f_bse]. rewrite HH in LH. unfold ols_cov in LH. cbn [f_bse] in LH. rewrite map_length in LH. destruct (f_params (ols0 x None (add_constant [x]))) as [|u [|v [|]]]; try discriminate. reflexivity.
Qed.
