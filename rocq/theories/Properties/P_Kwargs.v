(** C236-C240: options of `run` and of the distance constructors reach the steps they are
    documented for; which points the VCS fit uses. *)
From Coq Require Import Reals String List Arith Bool Lia Lra.
From Verif Require Import Lib.PyBase Lib.Fl Model.FitUtils Model.Kwargs Model.VcsFit Spec.Kwargs Spec.VcsFit
  Proofs.Kwargs_Proofs Proofs.Kwargs2_Proofs Proofs.Kwargs3_Proofs Proofs.Kwargs4_Proofs Proofs.VcsFit_Proofs.
Import ListNotations.
Local Open Scope string_scope.
Local Open Scope list_scope.

(** A user's dictionaries: radial options logspacing=True, fit options brk=0.1/pix and
    bootstrap=True, 2D fit options niters=50, an option for pyfftw; then fit_unbinned=True for the
    fit, low_cut for the 2D fit, and a break for VCS *)
Definition users : world := mk_w
  [[]; [("logspacing", VBool true)]; [("brk", VQty (1/10)); ("bootstrap", VBool true)]; [("niters", VNum 50)];
   [("overwrite_input", VBool true)]; [("fit_unbinned", VBool true)]; [("low_cut", VQty 1)]; [("breaks", VQty (1/10))];
   [("low_cut", VQty (1/50))]] [].
Definition call : dict :=
  [("low_cut", VQty (1/100)); ("apodize_kernel", VStr "tukey"); ("radial_pspec_kwargs", VDict 1); ("fit_kwargs", VDict 2);
   ("fit_2D_kwargs", VDict 3); ("use_pyfftw", VBool true); ("threads", VNum 4); ("pyfftw_kwargs", VDict 4)].
Local Ltac cases := repeat match goal with
  | H : _ \/ _ |- _ => destruct H as [H|H]
  | H : False |- _ => destruct H
  end.
Lemma users_ready : ready users.
Proof.
  split; [now eexists|]. intros d k r H G. cbn in H. cases; subst d; cbn in G;
    repeat match type of G with context [String.eqb k ?s] => destruct (String.eqb k s) end; discriminate.
Qed.
Lemma call_documented : documented (heap users) [] call.
Proof.
  unfold documented. split; [intros kv H; cbn in H; cases; subst kv; cbn; auto 20|].
  split; [intros kv []|]. split; [intros n H; cbn in H; cases; subst n; eexists; reflexivity|].
  split; [intros n H; cbn in H; cases; subst n; reflexivity|].
  split; [|split]; intros kv H; cbn in H; cases; subst kv; cbn; auto 20.
Qed.

(** * C236 *)
Theorem C236_fit : forall ins k o e x w w' u, run ins k o e x w = (w', Ok u) -> nth 0 (heap w) [] = [] ->
  exists c, new_calls w w' o "fit_pspec" [c] /\ gets c fit_from_run (e ++ x) /\ gets c fit_from_dict (options_in (heap w) (e ++ x) "fit_kwargs").
Proof. exact fit_reach. Qed.
Print Assumptions C236_fit.
Theorem C236_spectrum : forall ins k o e x w w' u, run ins k o e x w = (w', Ok u) ->
  exists c, new_calls w w' o "compute_pspec" [c] /\ gets c compute_from_run (e ++ x).
Proof. exact compute_reach. Qed.
Print Assumptions C236_spectrum.
Theorem C236_radial : forall ins k o e x w w' u, run ins k o e x w = (w', Ok u) -> nth 0 (heap w) [] = [] ->
  exists c, new_calls w w' o "pspec" [c] /\ gets c radial_from_dict (options_in (heap w) (e ++ x) "radial_pspec_kwargs") /\
            get (e_args c) "return_stddev" = Some (VBool true).
Proof. exact radial_reach. Qed.
Print Assumptions C236_radial.
Theorem C236_2D : forall ins k o e x w w' u, run ins k o e x w = (w', Ok u) -> nth 0 (heap w) [] = [] ->
  forall b, chosen (e ++ x) "fit_2D" (VBool true) = VBool b ->
  if b
  then exists c, new_calls w w' o "fit_2Dpspec" [c] /\ gets c fit2D_from_run (e ++ x) /\
                 gets c fit2D_from_dict (options_in (heap w) (e ++ x) "fit_2D_kwargs")
  else new_calls w w' o "fit_2Dpspec" [].
Proof. exact fit2D_reach. Qed.
Print Assumptions C236_2D.
Theorem C236_accepted : forall ins k o e x w, nth 0 (heap w) [] = [] -> documented (heap w) e x ->
  exists w', run ins k o e x w = (w', Ok tt) /\ heap w' = heap w.
Proof. exact run_accepts. Qed.
Print Assumptions C236_accepted.
Theorem C236_misspelt : forall ins k o e x w n, get x n <> None -> ~ In n run_options -> run ins k o e x w = (w, Err TypeError).
Proof. exact run_unknown. Qed.
Print Assumptions C236_misspelt.
(** All hypotheses are met by the user's call, for each of the statistics *)
Example C236_call : forall k, exists w', run true k 1 [] call users = (w', Ok tt) /\
  exists c, new_calls users w' 1 "fit_pspec" [c] /\ get (e_args c) "low_cut" = Some (VQty (1/100)) /\ get (e_args c) "brk" = Some (VQty (1/10)).
Proof.
  intros k. destruct (run_accepts true k 1 [] call users eq_refl call_documented) as [w' [H _]]. exists w'. split; [exact H|].
  destruct (fit_reach true k 1 [] call users w' tt H eq_refl) as [c [C1 [C2 C3]]]. exists c. split; [exact C1|].
  split; [apply (C2 "low_cut" VNone); cbn; auto|apply (C3 "brk" VNone); cbn; auto].
Qed.
Example C236_misspelt_call : run true PSPEC 1 [] [("lowcut", VQty 1)] users = (users, Err TypeError).
Proof. apply (run_unknown true PSPEC 1 [] [("lowcut", VQty 1)] users "lowcut"); [discriminate|cbn; intuition discriminate]. Qed.

(** fit_unbinned in fit_kwargs: dropped, also from the dictionary of the caller; the fit gets
    what run itself was given *)
Theorem C236_unbinned_refuted : forall ins k o e x w w' u v r, k <> MVC -> run ins k o e x w = (w', Ok u) -> nth 0 (heap w) [] = [] ->
  get (e ++ x) "fit_kwargs" = Some (VDict r) -> get (nth r (heap w) []) "fit_unbinned" = Some v -> v <> VNone ->
  get (nth r (heap w') []) "fit_unbinned" = None /\
  exists c, new_calls w w' o "fit_pspec" [c] /\ get (e_args c) "fit_unbinned" = Some (chosen (e ++ x) "fit_unbinned" (VBool false)).
Proof.
  intros ins k o e x w w' u v r Hk H H0 G Gv Nv. split; [exact (unbinned_lost _ _ _ _ _ _ _ _ _ _ Hk H G Gv Nv)|].
  destruct (fit_reach _ _ _ _ _ _ _ _ H H0) as [c [C1 [C2 _]]]. exists c. split; [exact C1|]. apply C2. now left.
Qed.
Print Assumptions C236_unbinned_refuted.
Example C236_unbinned_call : exists w', run false PSPEC 1 [] [("fit_kwargs", VDict 5)] users = (w', Ok tt).
Proof. eexists. cbv -[Rdiv IZR]. reflexivity. Qed.
Theorem C236_mvc_unbinned_refuted : forall ins o e x w, nth 0 (heap w) [] = [] -> dicts_given (e ++ x) ->
  get (options_in (heap w) (e ++ x) "fit_kwargs") "fit_unbinned" <> None ->
  exists w', run ins MVC o e x w = (w', Err TypeError).
Proof. exact mvc_unbinned. Qed.
Print Assumptions C236_mvc_unbinned_refuted.
Example C236_mvc_unbinned_call : exists w', run false MVC 1 [] [("fit_kwargs", VDict 5)] users = (w', Err TypeError).
Proof. apply mvc_unbinned; [reflexivity| |discriminate]. intros n H. cbn in H. cases; subst n; eexists; reflexivity. Qed.
Theorem C236_2D_limits_refuted : forall ins k o e x w n, nth 0 (heap w) [] = [] -> dicts_given (e ++ x) -> In n ["low_cut"; "high_cut"] ->
  chosen (e ++ x) "fit_2D" (VBool true) = VBool true -> get (options_in (heap w) (e ++ x) "fit_2D_kwargs") n <> None ->
  exists w', run ins k o e x w = (w', Err TypeError).
Proof. exact limits_2D. Qed.
Print Assumptions C236_2D_limits_refuted.
Example C236_2D_limits_call : exists w', run false VCA 1 [] [("fit_2D_kwargs", VDict 6)] users = (w', Err TypeError).
Proof.
  apply (limits_2D false VCA 1 [] _ users "low_cut"); [reflexivity| |cbn; auto|reflexivity|discriminate].
  intros n H. cbn in H. cases; subst n; eexists; reflexivity.
Qed.
(** The number of threads never reaches pyfftw *)
Theorem C236_threads_refuted : forall ins k o e x w w' u, run ins k o e x w = (w', Ok u) ->
  forall evs c, steps w' = steps w ++ evs -> In c evs -> e_fun c = "rfftn" -> get (e_args c) "threads" = None /\ get (e_more c) "threads" = None.
Proof. exact threads_lost. Qed.
Print Assumptions C236_threads_refuted.
Example C236_threads_call : exists w', run true VCA 1 [] call users = (w', Ok tt) /\
  exists c, In c (steps w') /\ e_fun c = "rfftn" /\ e_more c = [("overwrite_input", VBool true)] /\ get call "threads" = Some (VNum 4).
Proof.
  eexists. split; [cbv -[Rdiv IZR]; reflexivity|]. cbn [steps]. eexists. split; [right; right; left; reflexivity|]. repeat split.
Qed.

(** * C237 *)
Theorem C237_mvc : forall ins d1 d2 b low high kw kw2 w w' u, ready w -> known (heap w) kw -> kw2 = VNone \/ known (heap w) kw2 ->
  mvc_distance ins d1 d2 b low high kw kw2 w = (w', Ok u) ->
  as_documented w w' 0 d1 low high b (dict_for (heap w) kw kw2 0) /\ as_documented w w' 1 d2 low high b (dict_for (heap w) kw kw2 1).
Proof. exact mvc_documented. Qed.
Print Assumptions C237_mvc.
Theorem C237_mvc_accepts : forall ins d1 d2 b low high kw kw2 w, ready w -> limits_fine low high -> break_fine b ->
  known (heap w) kw -> kw2 = VNone \/ known (heap w) kw2 -> (forall i, keys_in (dict_for (heap w) kw kw2 i) (names radial_from_dict)) ->
  exists w', mvc_distance ins d1 d2 b low high kw kw2 w = (w', Ok tt) /\ firstn (length (heap w)) (heap w') = heap w.
Proof. exact mvc_accepts. Qed.
Print Assumptions C237_mvc_accepts.
(** Both data sets get the first dictionary *)
Theorem C237_vca_partial : forall ins d1 d2 cw b low high kw kw2 w w' u, ready w -> known (heap w) kw ->
  vca_distance ins d1 d2 cw b low high kw kw2 w = (w', Ok u) ->
  as_documented w w' 0 d1 low high b (dict_for (heap w) kw VNone 0) /\ as_documented w w' 1 d2 low high b (dict_for (heap w) kw VNone 1).
Proof. exact vca_documented. Qed.
Print Assumptions C237_vca_partial.
Theorem C237_vca_accepts : forall ins d1 d2 cw b low high kw kw2 w, ready w -> limits_fine low high -> break_fine b ->
  known (heap w) kw -> keys_in (dict_for (heap w) kw VNone 0) (names radial_from_dict) ->
  exists w', vca_distance ins d1 d2 cw b low high kw kw2 w = (w', Ok tt) /\ firstn (length (heap w)) (heap w') = heap w.
Proof. exact vca_accepts. Qed.
Print Assumptions C237_vca_accepts.
(** The radial options are those under the key radial_pspec_kwargs of the given dictionaries *)
Theorem C237_pspec_partial : forall ins d1 d2 w1 w2 b low high kw kw2 w w' u, ready w -> known (heap w) kw -> kw2 = VNone \/ known (heap w) kw2 ->
  pspec_distance ins d1 d2 w1 w2 b low high kw kw2 w = (w', Ok u) ->
  as_documented w w' 0 d1 low high b (options_in (heap w) (dict_for (heap w) kw kw2 0) "radial_pspec_kwargs") /\
  as_documented w w' 1 d2 low high b (options_in (heap w) (dict_for (heap w) kw kw2 1) "radial_pspec_kwargs").
Proof. exact pspec_documented. Qed.
Print Assumptions C237_pspec_partial.
(** Two limits, one for each data set, one break for each, and different radial options *)
Example C237_both : exists w', mvc_distance false Raw Raw (BList [VQty (1/10); VQty (1/20)]) (LArrayQ [1/100; 1/50])%R LNone (VDict 0) (VDict 1) users = (w', Ok tt) /\
  exists c, new_calls users w' 2 "fit_pspec" [c] /\ get (e_args c) "low_cut" = Some (VQty (1/50)) /\ get (e_args c) "brk" = Some (VQty (1/20)).
Proof.
  assert (K : forall r, r < 9 -> known (heap users) (VDict r)) by (intros r Hr; exists r; split; [reflexivity|exact Hr]).
  destruct (mvc_accepts false Raw Raw (BList [VQty (1/10); VQty (1/20)]) (LArrayQ [1/100; 1/50])%R LNone (VDict 0) (VDict 1) users) as [w' [H _]].
  - apply users_ready.
  - split; eexists; reflexivity.
  - split; [discriminate|]. intros [|[|i]] Hi; [eexists; reflexivity|eexists; reflexivity|lia].
  - apply K. lia.
  - right. apply K. lia.
  - intros [|i] kv Hk; cbn in Hk; cases; subst kv; cbn; auto.
  - exists w'. split; [exact H|]. destruct (mvc_documented _ _ _ _ _ _ _ _ _ _ _ users_ready (K 0 ltac:(lia)) (or_intror (K 1 ltac:(lia))) H) as [_ D].
    destruct D as (lo & hi & bv & E1 & E2 & E3 & [c (C1 & C2 & C3 & C4)] & _). cbn in E1, E3.
    exists c. split; [exact C1|]. split; congruence.
Qed.
Example C237_pspec_run : exists w', pspec_distance false Raw Raw VNone VNone BNone (LScalarQ (1/50))%R LNone (VDict 8) VNone users = (w', Ok tt).
Proof. eexists. cbv -[Rdiv IZR]. reflexivity. Qed.
(** One break for both, given as a Quantity, is documented but refused by all constructors *)
Theorem C237_scalar_break_refuted : forall ins d1 d2 v low high kw kw2 w, needs_run d1 = true -> limits_fine low high ->
  (forall cw, exists w', vca_distance ins d1 d2 cw (BScalarQ v) low high kw kw2 w = (w', Err TypeError)) /\
  (exists w', mvc_distance ins d1 d2 (BScalarQ v) low high kw kw2 w = (w', Err TypeError)) /\
  (forall w1 w2 r, kw = VDict r -> get (look (heap w) r) "fit_kwargs" = None ->
     exists w', pspec_distance ins d1 d2 w1 w2 (BScalarQ v) low high kw kw2 w = (w', Err TypeError)) /\
  (exists w', vcs_distance ins d1 d2 (BScalarQ v) kw kw2 w = (w', Err TypeError)).
Proof. exact scalar_refused. Qed.
Print Assumptions C237_scalar_break_refuted.
Example C237_scalar_case : exists w', mvc_distance false Raw Raw (BScalarQ (1/10)) LNone LNone (VDict 0) VNone users = (w', Err TypeError).
Proof. destruct (scalar_refused false Raw Raw (1/10)%R LNone LNone (VDict 0) VNone users eq_refl) as [_ [H _]]; [split; eexists; reflexivity|exact H]. Qed.
(** PSpec_Distance's pspec_kwargs is documented to hold options of the radial spectrum *)
Theorem C237_pspec_radial_refuted : forall ins d1 d2 w1 w2 b low high kw2 w r n bv, needs_run d1 = true -> limits_fine low high ->
  break_for b 0 = Some bv -> (forall q, b <> BScalarQ q) -> get (look (heap w) r) "fit_kwargs" = None ->
  get (look (heap w) r) n <> None -> In n (names radial_from_dict) ->
  exists w', pspec_distance ins d1 d2 w1 w2 b low high (VDict r) kw2 w = (w', Err TypeError) /\
    (forall f l, new_calls w w' 1 f l -> In f ["pspec"; "fit_pspec"] -> l = []).
Proof. exact pspec_radial_refused. Qed.
Print Assumptions C237_pspec_radial_refuted.
Example C237_pspec_radial_case : exists w', pspec_distance false Raw Raw VNone VNone BNone LNone LNone (VDict 1) VNone users = (w', Err TypeError).
Proof. eexists. cbv -[Rdiv IZR]. reflexivity. Qed.
Theorem C237_vca_second_refuted : ~ (forall ins d1 d2 cw b low high kw kw2 w w' u, ready w -> known (heap w) kw -> kw2 = VNone \/ known (heap w) kw2 ->
  vca_distance ins d1 d2 cw b low high kw kw2 w = (w', Ok u) ->
  as_documented w w' 0 d1 low high b (dict_for (heap w) kw kw2 0) /\ as_documented w w' 1 d2 low high b (dict_for (heap w) kw kw2 1)).
Proof. exact vca_second_ignored. Qed.
Print Assumptions C237_vca_second_refuted.

(** * C238 *)
Theorem C238_precomputed : forall ins f1 f2 b low high kw kw2 w, limits_fine low high ->
  (forall w1 w2, pspec_distance ins (Object true f1) (Object true f2) w1 w2 b low high kw kw2 w = (w, Ok tt)) /\
  (forall cw, vca_distance ins (Object true f1) (Object true f2) cw b low high kw kw2 w = (w, Ok tt)) /\
  mvc_distance ins (Object true f1) (Object true f2) b low high kw kw2 w = (w, Ok tt) /\
  vcs_distance ins (Object true f1) (Object true f2) b kw kw2 w = (w, Ok tt).
Proof. exact fitted_untouched. Qed.
Print Assumptions C238_precomputed.
Example C238_case : vca_distance true (Object true (VQty 1)) (Object true (VQty 1)) (VQty 1) (BScalarQ 1) (LScalarQ 1) LNone (VDict 1) VNone users = (users, Ok tt).
Proof. apply fitted_untouched. split; eexists; reflexivity. Qed.
(** An object whose channel width is another than the requested one is compared all the same *)
Theorem C238_width_refuted : exists ins width1 cw w, width1 <> cw /\ cw <> VNone /\
  vca_distance ins (Object true width1) (Object true cw) cw BNone LNone LNone (VDict 0) VNone w = (w, Ok tt).
Proof. exact vca_width_unchecked. Qed.
Print Assumptions C238_width_refuted.

(** * C239 *)
Theorem C239_run : forall ins o e x w w' u, vcs_run ins o e x w = (w', Ok u) ->
  exists c, new_calls w w' o "fit_pspec" [c] /\ gets c vcs_fit_table (e ++ x) /\
    (forall k, ~ In k ("self" :: vcs_run_only ++ names vcs_fit_table) -> get (e_more c) k = get (e ++ x) k).
Proof. intros ins o e x w w' u H. exact (proj2 (proj2 (vcs_run_ok ins o e x w w' u H))). Qed.
Print Assumptions C239_run.
Theorem C239_transform : forall ins o e x w w' u, vcs_run ins o e x w = (w', Ok u) -> forall f, f = "compute_pspec" \/ f = "rfft_to_fft" ->
  exists c, new_calls w w' o f [c] /\ gets c vcs_transform_table (e ++ x).
Proof. exact vcs_spectrum. Qed.
Print Assumptions C239_transform.
Example C239_transform_case : exists w', vcs_run true 1 [("threads", VNum 4)] [("use_pyfftw", VBool true)] users = (w', Ok tt) /\
  exists c, new_calls users w' 1 "rfft_to_fft" [c] /\ get (e_args c) "threads" = Some (VNum 4) /\ get (e_args c) "use_pyfftw" = Some (VBool true).
Proof. eexists. split; [cbv -[Rdiv IZR]; reflexivity|]. eexists. split; [eexists; split; [reflexivity|reflexivity]|split; reflexivity]. Qed.
Theorem C239_distance : forall ins d1 d2 b kw kw2 w w' u, known (heap w) kw -> kw2 = VNone \/ known (heap w) kw2 ->
  vcs_distance ins d1 d2 b kw kw2 w = (w', Ok u) -> forall i d, nth_error [d1; d2] i = Some d ->
  if needs_run d
  then exists bv c, break_for b i = Some bv /\ new_calls w w' (S i) "fit_pspec" [c] /\ get (e_args c) "breaks" = Some bv /\
                    gets c (tl vcs_fit_table) (dict_for (heap w) kw kw2 i)
  else forall evs, steps w' = steps w ++ evs -> forall c, In c evs -> e_of c <> S i.
Proof. exact vcs_documented. Qed.
Print Assumptions C239_distance.
Example C239_case : exists w', vcs_distance false Raw (Object true VNone) (BList [VQty (1/10); VQty (1/20)]) (VDict 8) VNone users = (w', Ok tt) /\
  exists c, new_calls users w' 1 "fit_pspec" [c] /\ get (e_args c) "low_cut" = Some (VQty (1/50)).
Proof. eexists. split; [cbv -[Rdiv IZR]; reflexivity|]. eexists. split; [eexists; split; [reflexivity|reflexivity]|reflexivity]. Qed.
(** breaks among the fit options, as in the documentation's "passed to VCS.run" *)
Theorem C239_breaks_twice_refuted : forall ins d1 d2 b r kw2 w v, needs_run d1 = true -> break_fine b -> get (look (heap w) r) "breaks" = Some v ->
  exists w', vcs_distance ins d1 d2 b (VDict r) kw2 w = (w', Err TypeError).
Proof. exact vcs_breaks_twice. Qed.
Print Assumptions C239_breaks_twice_refuted.
Example C239_breaks_twice_case : exists w', vcs_distance false Raw Raw BNone (VDict 7) VNone users = (w', Err TypeError).
Proof.
  apply (vcs_breaks_twice false Raw Raw BNone 7 VNone users (VQty (1/10))); [reflexivity| |reflexivity].
  split; [discriminate|]. intros i _. eexists; reflexivity.
Qed.
(** A misspelt option is accepted and ignored *)
Theorem C239_misspelt_refuted : exists ins k v w w', ~ In k (vcs_run_only ++ names vcs_fit_table) /\ vcs_run ins 1 [(k, v)] [] w = (w', Ok tt).
Proof. exact vcs_unknown_accepted. Qed.
Print Assumptions C239_misspelt_refuted.

(** * C240 *)
Local Open Scope R_scope.
(** The points of the fit: frequency k / n with the power at index k, for 1 <= k < n // 2 within
    the limits *)
Theorem C240_points : forall n ps low high l f p, length ps = n -> vcs_points n ps low high = Ok l ->
  (In (f, p) l <-> exists k, (1 <= k < n / 2)%nat /\ f = INR k / INR n /\ p = nth k ps NaN /\ within low high f).
Proof. exact points_exact. Qed.
Print Assumptions C240_points.
Theorem C240_all_points : forall n ps l, length ps = n -> vcs_points n ps None None = Ok l ->
  l = map (fun k => (INR k / INR n, nth k ps NaN)) (seq 1 (n / 2 - 1)).
Proof. exact default_points. Qed.
Print Assumptions C240_all_points.
Theorem C240_order : forall n ps low high l, length ps = n -> vcs_points n ps low high = Ok l -> increasing (vcs_x l).
Proof. exact x_increasing. Qed.
Print Assumptions C240_order.
Example C240_case : exists l, vcs_points 9 (map (fun k => Fin (INR k)) (seq 0 9)) (Some (1/9)) None = Ok l /\
  (forall f p, In (f, p) l <-> (f = 2/9 /\ p = Fin 2) \/ (f = 3/9 /\ p = Fin 3)).
Proof.
  set (ps := map (fun k => Fin (INR k)) (seq 0 9)). destruct (vcs_points 9 ps (Some (1/9)) None) as [l|e] eqn:H.
  2: { exfalso. assert (G := points_ok 9 ps (Some (1/9)) None ltac:(lia)). rewrite H in G. discriminate. }
  exists l. split; [reflexivity|]. intros f p. rewrite (points_exact 9 ps _ _ l f p eq_refl H).
  assert (E2 : nth 2 ps NaN = Fin 2) by (cbn; f_equal; lra). assert (E3 : nth 3 ps NaN = Fin 3) by (cbn; f_equal; lra).
  assert (I9 : INR 9 = 9) by (cbn; lra). assert (I2 : INR 2 = 2) by (cbn; lra). assert (I3 : INR 3 = 3) by (cbn; lra). rewrite I9.
  split.
  - intros [k [Hk [Ef [Ep [W _]]]]]. cbn [Nat.div Nat.divmod fst] in Hk. assert (k = 1 \/ k = 2 \/ k = 3)%nat as [-> | [-> | ->]] by (cbn in Hk; lia).
    + exfalso. rewrite Ef in W. cbn [INR] in W. lra.
    + left. rewrite I2 in Ef. rewrite E2 in Ep. now split.
    + right. rewrite I3 in Ef. rewrite E3 in Ep. now split.
  - intros [[-> ->]|[-> ->]].
    + exists 2%nat. split; [cbn; lia|]. rewrite I2, E2. split; [reflexivity|]. split; [reflexivity|]. split; [cbn; lra|exact I].
    + exists 3%nat. split; [cbn; lia|]. rewrite I3, E3. split; [reflexivity|]. split; [reflexivity|]. split; [cbn; lra|exact I].
Qed.
(** The highest frequency of the spectrum is never fitted *)
Theorem C240_highest_refuted : forall n ps low high l p, (2 <= n)%nat -> length ps = n -> vcs_points n ps low high = Ok l ->
  In (INR (n / 2) / INR n) (vcs_freqs n) /\ (forall f, In f (vcs_freqs n) -> f <= INR (n / 2) / INR n) /\ ~ In (INR (n / 2) / INR n, p) l.
Proof. exact highest_lost. Qed.
Print Assumptions C240_highest_refuted.
Example C240_highest_case : exists l, vcs_points 9 (repeat (Fin 1) 9) None None = Ok l /\ ~ In (4/9, Fin 1) l.
Proof.
  destruct (vcs_points 9 (repeat (Fin 1) 9) None None) as [l|e] eqn:H.
  2: { exfalso. assert (G := points_ok 9 (repeat (Fin 1) 9) None None ltac:(lia)). rewrite H in G. discriminate. }
  exists l. split; [reflexivity|]. destruct (highest_lost 9 (repeat (Fin 1) 9) None None l (Fin 1) ltac:(lia) eq_refl H) as [_ [_ N]].
  replace (4/9) with (INR (9 / 2) / INR 9) by (cbn; lra). exact N.
Qed.
(** Breaks tried when none is given lie strictly inside the fitted range *)
Theorem C240_start : forall x knots bs b, increasing x -> increasing knots -> (forall k, In k knots -> hd 0 x <= k <= last x 0) ->
  vcs_start x knots = Ok bs -> In b bs -> hd 0 x < b < last x 0.
Proof. exact start_inside. Qed.
Print Assumptions C240_start.
Example C240_start_case : exists bs, vcs_start [0; 1; 2; 3; 4] [0; 4] = Ok bs /\ bs = [1 / 2 * (4 + 2)].
Proof. eexists. split; [unfold vcs_start; cbn; reflexivity|reflexivity]. Qed.
Example C240_start_knots : exists bs, vcs_start [0; 1; 2; 3; 4] [0; 3/2; 4] = Ok bs /\ bs = [3/2].
Proof.
  unfold vcs_start. cbn. destruct (Reqb_spec (3/2) 4) as [E|_]; [lra|]. cbn. destruct (Reqb_spec (3/2) 0) as [E|_]; [lra|].
  eexists. split; reflexivity.
Qed.
