From Coq Require Import String Reals List ZArith Arith Bool Lia Lra.
From Verif Require Import Lib.PyBase Lib.Fl Model.Units Model.DeltaVar Model.FitState Model.DeltaVarRun Spec.DeltaVarRun Proofs.DeltaVarRun_Proofs.
Import ListNotations.
Local Open Scope R_scope.

Lemma log10_order a b : 0 < a -> 0 < b -> Rleb (log10 a) (log10 b) = Rleb a b.
Proof.
  intros A B. assert (L : 0 < ln 10) by (rewrite <- ln_1; apply ln_increasing; lra). unfold log10.
  destruct (Rleb_spec (ln a / ln 10) (ln b / ln 10)) as [H|H], (Rleb_spec a b) as [K|K]; try reflexivity; exfalso.
  - apply Rnot_le_lt in K. apply ln_increasing in K; [|exact B]. assert (ln b / ln 10 < ln a / ln 10); [|lra]. unfold Rdiv. apply Rmult_lt_compat_r; [now apply Rinv_0_lt_compat|exact K].
  - apply H. unfold Rdiv. apply Rmult_le_compat_r; [left; now apply Rinv_0_lt_compat|]. destruct K as [K|K]; [left; now apply ln_increasing|right; now rewrite K].
Qed.
Lemma points_between value lo hi l : 0 < lo -> 0 < hi -> Forall (fun v => 0 < v) l -> points (Some lo) (Some hi) l (map value l) = fit_points value (lags_between lo hi l).
Proof.
  intros A B H. unfold points, fit_points, lags_between. induction H as [|x l P H IH]; [reflexivity|]. cbn [map combine filter fst snd]. unfold above_limit, below_limit in *.
  destruct (Rltb_spec 0 lo) as [_|]; [|lra]. destruct (Rltb_spec 0 hi) as [_|]; [|lra]. rewrite !log10_order by assumption.
  destruct (Rleb_spec lo x), (Rleb_spec x hi), (Rle_dec lo x), (Rle_dec x hi); try contradiction; cbn [andb map fst snd]; rewrite IH; reflexivity.
Qed.
Lemma fit_between e o c lo hi boot : curve_of e o c -> 0 < lo -> 0 < hi -> Forall (fun v => 0 < v) (d_lags o) ->
  exists o', do_call e o (CFit (mk_fargs (Some (mk_q [lo] pix)) (Some (mk_q [hi] pix)) None boot)) = (o', None) /\ d_range o' = Some (lo, hi) /\
    t_slope (d_fit o') = Some [fst (v_line e (fit_points (v_value e c) (lags_between lo hi (d_lags o))) boot)].
Proof.
  intros C A B H. unfold curve_of in C. cbn [do_call]. unfold fit_plaw. rewrite C. cbn [f_xlow f_xhigh f_brk f_boot in_pixels].
  assert (P : forall v, to_pixel (v_stat e) (mk_q [v] pix) = Ok (mk_q [v] pix)) by (intros; reflexivity). rewrite !P. cbn [bind q_vals hd given_or]. cbv zeta. cbn [d_lags d_curve d_kept d_range d_fit fst snd].
  rewrite map_length, Nat.eqb_refl. cbn [negb]. rewrite points_between by assumption. eexists. split; [reflexivity|]. cbn. split; reflexivity.
Qed.
