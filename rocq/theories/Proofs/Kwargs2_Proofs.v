(** Proofs about the keyword arguments of run (what is accepted and rejected) and of the
    distance constructors. *)
From Coq Require Import Reals String List Arith Bool Lia.
From Verif Require Import Lib.PyBase Model.FitUtils Model.Kwargs Spec.Kwargs Proofs.Kwargs_Proofs.
Import ListNotations.
Local Open Scope string_scope.
Local Open Scope list_scope.

(** ** Only TypeError *)
Lemma thent_err_inv : forall A B (m : task A) (k : A -> task B) w w' r, thent m k w = (w', Err r) ->
  m w = (w', Err r) \/ exists w1 a, m w = (w1, Ok a) /\ k a w1 = (w', Err r).
Proof.
  intros A B m k w w' r H. unfold thent in H. destruct (m w) as [w1 [a|x]]; [right; now exists w1, a|left; congruence].
Qed.

Lemma step_type : forall o f s e x w w' r, step o f s e x w = (w', Err r) -> r = TypeError.
Proof.
  intros o f s e x w w' r H. unfold step in H. destruct (bind_args s e x) as [[a m]|r'] eqn:B; [discriminate|].
  assert (r' = r) as <- by congruence. now apply bind_only_type in B.
Qed.
Lemma rfft_type : forall ins o e m w w' r, rfft_to_fft ins o e m w = (w', Err r) -> r = TypeError.
Proof.
  intros ins o e m w w' r H. unfold rfft_to_fft in H. apply thent_err_inv in H as [H|[w1 [a [_ H]]]]; [now apply step_type in H|].
  destruct (truthy (heap w1) (arg (fst a) "use_pyfftw") && ins)%bool; [|discriminate].
  apply thent_err_inv in H as [H|[w2 [b [_ H]]]]; [now apply step_type in H|discriminate].
Qed.
Lemma compute_type : forall ins k o e m w w' r, compute_pspec ins k o e m w = (w', Err r) -> r = TypeError.
Proof.
  intros ins k o e m w w' r H. unfold compute_pspec in H. apply thent_err_inv in H as [H|[w1 [a [_ H]]]]; [now apply step_type in H|].
  apply thent_err_inv in H as [H|[w2 [b [_ H]]]]; [now apply rfft_type in H|]. destruct k; try discriminate. now apply rfft_type in H.
Qed.
Lemma radial_type : forall o m w w' r, compute_radial_pspec o m w = (w', Err r) -> r = TypeError.
Proof.
  intros o m w w' r H. unfold compute_radial_pspec in H. apply thent_err_inv in H as [H|[w1 [a [_ H]]]]; [now apply step_type in H|].
  apply thent_err_inv in H as [H|[w2 [b [_ H]]]]; [now apply step_type in H|discriminate].
Qed.
Lemma drop_type : forall r0 k w w' r, drop_given (VDict r0) k w = (w', Err r) -> r = TypeError.
Proof. intros r0 k w w' r H. unfold drop_given in H. destruct (get (look (heap w) r0) k) as [[]|]; discriminate. Qed.
Lemma mapping_type : forall v w w' r, mapping v w = (w', Err r) -> r = TypeError.
Proof. intros v w w' r H. unfold mapping in H. destruct v; congruence. Qed.
Lemma run_type : forall ins k o e x w w' r, dicts_given (e ++ x) -> run ins k o e x w = (w', Err r) -> r = TypeError.
Proof.
  intros ins k o e x w w' r G H. unfold run in H. apply thent_err_inv in H as [H|[w0 [[a am] [B H]]]].
  { unfold lift in H. assert (B : bind_args run_sig (self :: e) x = Err r) by congruence. now apply bind_only_type in B. }
  unfold lift in B. assert (B' : bind_args run_sig (self :: e) x = Ok (a, am)) by congruence. clear B. cbn [fst] in H.
  assert (Gp : exists rp, arg a "pyfftw_kwargs" = VDict rp).
  { destruct (G "pyfftw_kwargs") as [rp E]; [cbn; auto|]. exists rp. rewrite (run_arg e x a am _ (VDict 0) B'); [exact E|cbn; auto 20]. }
  assert (Gf : exists rp, arg a "fit_kwargs" = VDict rp).
  { destruct (G "fit_kwargs") as [rp E]; [cbn; auto|]. exists rp. rewrite (run_arg e x a am _ (VDict 0) B'); [exact E|cbn; auto 20]. }
  destruct Gp as [rp Ep], Gf as [rf Ef]. unfold run_body in H. rewrite Ep, Ef in H.
  apply thent_err_inv in H as [H|[w1 [u1 [_ H]]]]; [now apply drop_type in H|].
  apply thent_err_inv in H as [H|[w2 [u2 [_ H]]]]; [destruct k; [now apply drop_type in H|now apply drop_type in H|discriminate]|].
  apply thent_err_inv in H as [H|[w3 [u3 [_ H]]]]; [now apply mapping_type in H|].
  apply thent_err_inv in H as [H|[w4 [u4 [_ H]]]]; [now apply compute_type in H|].
  apply thent_err_inv in H as [H|[w5 [u5 [_ H]]]]; [now apply mapping_type in H|].
  apply thent_err_inv in H as [H|[w6 [u6 [_ H]]]]; [now apply radial_type in H|].
  apply thent_err_inv in H as [H|[w7 [u7 [_ H]]]]; [now apply mapping_type in H|].
  apply thent_err_inv in H as [H|[w8 [u8 [_ H]]]]; [now apply step_type in H|].
  destruct (truthy (heap w8) (arg a "fit_2D")); [|discriminate].
  apply thent_err_inv in H as [H|[w9 [u9 [_ H]]]]; [now apply mapping_type in H|].
  apply thent_err_inv in H as [H|[w10 [u10 [_ H]]]]; [now apply step_type in H|discriminate].
Qed.
(** A run that does not end normally raises TypeError *)
Lemma run_raises : forall ins k o e x w, dicts_given (e ++ x) -> (forall w' u, run ins k o e x w <> (w', Ok u)) ->
  exists w', run ins k o e x w = (w', Err TypeError).
Proof.
  intros ins k o e x w G N. destruct (run ins k o e x w) as [w' [u|r]] eqn:E; [now elim (N w' u)|].
  exists w'. f_equal. f_equal. now apply (run_type ins k o e x w w' r).
Qed.

(** ** What run rejects *)
Lemma keys_drop : forall h h' l r k, drops h h' l -> get (look h r) k = None -> get (look h' r) k = None.
Proof. intros h h' l r k [_ D] N. destruct (D r k) as [E|[_ E]]; congruence. Qed.
(** fit_unbinned in the fit_kwargs of MVC.run *)
Lemma mvc_unbinned : forall ins o e x w, nth 0 (heap w) [] = [] -> dicts_given (e ++ x) ->
  get (options_in (heap w) (e ++ x) "fit_kwargs") "fit_unbinned" <> None ->
  exists w', run ins MVC o e x w = (w', Err TypeError).
Proof.
  intros ins o e x w H0 G N. apply run_raises; [exact G|]. intros w' u H.
  destruct (run_trace _ _ _ _ _ _ _ _ H) as (a & am & B & D & rp & rr & rf & ca & cm & ffts & ra & rm & pa & pm & fa & fm & f2 & Ep & Er & Ef & Bc & Hf & Br & Bp & Bf & St & N2 & Y2).
  rewrite (run_arg e x a am "fit_kwargs" (VDict 0) B) in Ef by (cbn; auto 20).
  rewrite (options_look (heap w) (e ++ x) "fit_kwargs" rf H0 Ef) in N.
  rewrite <- (drops_get _ _ _ rf "fit_unbinned" D) in N by (cbn; intuition discriminate).
  rewrite (bind_twice _ _ _ ("fit_unbinned", arg a "fit_unbinned")) in Bf; [discriminate|cbn; auto|exact N].
Qed.
(** low_cut or high_cut in the fit_2D_kwargs *)
Lemma limits_2D : forall ins k o e x w n, nth 0 (heap w) [] = [] -> dicts_given (e ++ x) -> In n ["low_cut"; "high_cut"] ->
  chosen (e ++ x) "fit_2D" (VBool true) = VBool true ->
  get (options_in (heap w) (e ++ x) "fit_2D_kwargs") n <> None ->
  exists w', run ins k o e x w = (w', Err TypeError).
Proof.
  intros ins k o e x w n H0 G Hn T N. apply run_raises; [exact G|]. intros w' u H.
  destruct (run_trace _ _ _ _ _ _ _ _ H) as (a & am & B & D & rp & rr & rf & ca & cm & ffts & ra & rm & pa & pm & fa & fm & f2 & Ep & Er & Ef & Bc & Hf & Br & Bp & Bf & St & N2 & Y2).
  rewrite (run_arg e x a am "fit_2D" (VBool true) B), T in Y2 by (cbn; auto 20). destruct (Y2 eq_refl) as (rg & ga & gm & Eg & Bg & _).
  rewrite (run_arg e x a am "fit_2D_kwargs" (VDict 0) B) in Eg by (cbn; auto 20).
  rewrite (options_look (heap w) (e ++ x) "fit_2D_kwargs" rg H0 Eg) in N.
  rewrite <- (drops_get _ _ _ rg n D) in N by (destruct Hn as [<-|[<-|[]]]; destruct k; cbn; intuition discriminate).
  destruct Hn as [<-|[<-|[]]].
  - rewrite (bind_twice _ _ _ ("low_cut", arg a "low_cut")) in Bg; [discriminate|cbn; auto|exact N].
  - rewrite (bind_twice _ _ _ ("high_cut", arg a "high_cut")) in Bg; [discriminate|cbn; auto|exact N].
Qed.
(** A keyword that run does not take *)
Lemma run_unknown : forall ins k o e x w n, get x n <> None -> ~ In n run_options ->
  run ins k o e x w = (w, Err TypeError).
Proof.
  intros ins k o e x w n G N. unfold run. apply thent_err. unfold lift. f_equal.
  destruct (string_dec n "self") as [->|S]; [apply (bind_twice _ _ _ self); [now left|exact G]|].
  destruct (get x n) as [v|] eqn:E; [|now elim G]. destruct (get_in _ _ _ E) as [kv [Hi <-]].
  apply (bind_unknown _ _ _ kv); [reflexivity|apply in_or_app; now right|].
  apply not_true_iff_false. intros T. apply N. unfold takes in T. apply existsb_exists in T as [p [Hp Q]]. apply String.eqb_eq in Q. rewrite Q.
  cbn in Hp. repeat (destruct Hp as [<-|Hp]; [cbn; cbn in Q; try congruence; auto 25|]). destruct Hp.
Qed.

(** fit_unbinned in the fit_kwargs of the other two *)
Lemma unbinned_lost : forall ins k o e x w w' u v r, k <> MVC -> run ins k o e x w = (w', Ok u) ->
  get (e ++ x) "fit_kwargs" = Some (VDict r) -> get (nth r (heap w) []) "fit_unbinned" = Some v -> v <> VNone ->
  get (nth r (heap w') []) "fit_unbinned" = None.
Proof.
  intros ins k o e x w w' u v r K H G E V.
  destruct (run_trace _ _ _ _ _ _ _ _ H) as (a & am & B & D & rp & rr & rf & ca & cm & ffts & ra & rm & pa & pm & fa & fm & f2 & Ep & Er & Ef & Bc & Hf & Br & Bp & Bf & St & N2 & Y2).
  rewrite (run_arg e x a am "fit_kwargs" (VDict 0) B) in Ef by (cbn; auto 20).
  unfold chosen in Ef. rewrite G in Ef. injection Ef as ->.
  destruct (bind_ok_args _ _ _ _ _ Bf) as [_ [_ [Q _]]]. apply (Q ("fit_unbinned", arg a "fit_unbinned")). cbn; auto.
Qed.

(** ** What run accepts *)
Lemma drop_nothing : forall r k w, get (look (heap w) r) k = None -> drop_given (VDict r) k w = (w, Ok tt).
Proof. intros r k w H. unfold drop_given. now rewrite H. Qed.
Lemma rfft_accepts : forall ins o v1 v2 m w, (forall n, In n ["image"; "a"; "use_pyfftw"; "threads"] -> get m n = None) ->
  exists w', rfft_to_fft ins o [("use_pyfftw", v1); ("threads", v2)] m w = (w', Ok tt) /\ heap w' = heap w.
Proof.
  intros ins o v1 v2 m w H. unfold rfft_to_fft.
  destruct (bind_succeeds rfft_sig [("image", VObj 0); ("use_pyfftw", v1); ("threads", v2)] m) as [a [m' B]].
  { intros kv [<-|[<-|[<-|[]]]]; apply H; cbn; auto. }
  { now left. }
  { intros p Hp. each_in Hp; subst p; try discriminate; reflexivity. }
  rewrite (thent_run _ _ _ _ _ _ _ (step_run o "rfft_to_fft" _ _ _ w a m' B)). cbn [heap steps fst snd].
  destruct (truthy (heap w) (arg a "use_pyfftw") && ins)%bool; [|eexists; split; [reflexivity|reflexivity]].
  destruct (bind_ok_args _ _ _ _ _ B) as [_ [Bm _]].
  destruct (bind_succeeds rfftn_sig [("a", VObj 0)] m') as [a2 [m2 B2]].
  { intros kv [<-|[]]. cbn [fst]. rewrite Bm. cbn. rewrite H; [reflexivity|cbn; auto]. }
  { now left. }
  { intros p Hp. each_in Hp; subst p; try discriminate; reflexivity. }
  rewrite (thent_run _ _ _ _ _ _ _ (step_run o "rfftn" _ _ _ _ a2 m2 B2)). eexists. split; reflexivity.
Qed.
Lemma compute_accepts : forall ins k o a x w, (forall n, In n (["self"; "image"; "a"] ++ names compute_from_run) -> get x n = None) ->
  exists w', compute_pspec ins k o (run_compute_args a) x w = (w', Ok tt) /\ heap w' = heap w.
Proof.
  intros ins k o a x w H. unfold compute_pspec.
  destruct (bind_succeeds compute_sig (self :: run_compute_args a) x) as [ca [cm B]].
  { intros kv Hi. each_in Hi; subst kv; cbn [fst]; apply H; cbn; auto 20. }
  { now left. }
  { intros p Hp. each_in Hp; subst p; try discriminate; reflexivity. }
  rewrite (thent_run _ _ _ _ _ _ _ (step_run o "compute_pspec" _ _ _ w ca cm B)). cbn [fst snd].
  destruct (bind_ok_args _ _ _ _ _ B) as [_ [Bm _]].
  assert (Hm : forall n, In n ["image"; "a"; "use_pyfftw"; "threads"] -> get cm n = None).
  { intros n Hn. rewrite Bm. each_in Hn; subst n; cbn; rewrite ?H by (cbn; auto 20); reflexivity. }
  destruct (rfft_accepts ins o (arg ca "use_pyfftw") (arg ca "threads") cm (mk_w (heap w) (steps w ++ [ev o "compute_pspec" ca cm])) Hm) as [w1 [E1 H1]].
  rewrite (thent_run _ _ _ _ _ _ _ E1). destruct k; try (exists w1; split; [reflexivity|exact H1]).
  destruct (rfft_accepts ins o (arg ca "use_pyfftw") (arg ca "threads") cm w1 Hm) as [w2 [E2 H2]]. exists w2. split; [exact E2|]. cbn in *. congruence.
Qed.
Lemma keys_takes : forall s d l e, keys_in d l -> (forall n, In n l -> takes s n = true) -> (forall kv, In kv e -> takes s (fst kv) = true) ->
  forall kv, In kv (e ++ d) -> takes s (fst kv) = true.
Proof. intros s d l e K T E kv Hi. apply in_app_or in Hi as [Hi|Hi]; [now apply E|]. apply T. now apply K. Qed.
Lemma radial_accepts : forall o x w, keys_in x (names radial_from_dict) ->
  exists w', compute_radial_pspec o x w = (w', Ok tt) /\ heap w' = heap w.
Proof.
  intros o x w K. unfold compute_radial_pspec.
  destruct (bind_succeeds radial_sig [self] x) as [ra [rm B]].
  { intros kv [<-|[]]. apply (keys_not _ _ _ K). cbn. intuition discriminate. }
  { now left. }
  { intros p Hp. each_in Hp; subst p; try discriminate; reflexivity. }
  rewrite (thent_run _ _ _ _ _ _ _ (step_run o "compute_radial_pspec" _ _ _ w ra rm B)). cbn [fst snd].
  destruct (bind_ok_args _ _ _ _ _ B) as [_ [Bm _]].
  destruct (bind_succeeds pspec_sig [("psd2", VObj 0); ("return_stddev", VBool true); ("logspacing", arg ra "logspacing"); ("max_bin", arg ra "max_bin")] rm) as [pa [pm B2]].
  { intros kv [<-|[<-|[<-|[<-|[]]]]]; cbn [fst]; rewrite Bm; cbn; try reflexivity; apply (keys_not _ _ _ K); cbn; intuition discriminate. }
  { right. intros kv Hi. apply in_app_or in Hi as [Hi|Hi]; [each_in Hi; subst kv; reflexivity|].
    assert (Hr : has rm (fst kv) = true) by now apply in_get. unfold has in Hr. rewrite Bm in Hr.
    destruct (takes radial_sig (fst kv)) eqn:T; [discriminate|]. cbn [app get] in Hr. unfold self in Hr.
    destruct (String.eqb_spec (fst kv) "self") as [Q|Q]; [rewrite Q in T; discriminate|].
    assert (Hin : In (fst kv) (names radial_from_dict)).
    { apply (keys_get x); [exact K|]. destruct (get x (fst kv)); [discriminate|discriminate]. }
    revert T. each_in Hin; rewrite <- Hin; cbn; intros T; try discriminate T; reflexivity. }
  { intros p Hp. each_in Hp; subst p; try discriminate; reflexivity. }
  rewrite (thent_run _ _ _ _ _ _ _ (step_run o "pspec" _ _ _ _ pa pm B2)). eexists. split; reflexivity.
Qed.
Lemma run_accepts : forall ins k o e x w, nth 0 (heap w) [] = [] -> documented (heap w) e x ->
  exists w', run ins k o e x w = (w', Ok tt) /\ heap w' = heap w.
Proof.
  intros ins k o e x w H0 (K & U & G & Kp & Kr & Kf & K2).
  destruct (bind_succeeds run_sig (self :: e) x) as [a [am B]].
  { intros kv [<-|Hi]; [|now apply U]. assert (Z : get (e ++ x) "self" = None) by (apply (keys_not _ _ _ K); cbn; intuition discriminate).
    rewrite get_app in Z. cbn [self fst]. now destruct (get e "self"). }
  { right. intros kv [<-|Hi]; [reflexivity|]. assert (Hn := K kv Hi). unfold run_options in Hn. each_in Hn; rewrite <- Hn; reflexivity. }
  { intros p Hp. cbn [run_sig method s_params] in Hp. destruct Hp as [<-|Hp]; [reflexivity|]. each_in Hp; subst p; discriminate. }
  assert (A : forall n, In n dict_options -> exists r, arg a n = VDict r /\ options_in (heap w) (e ++ x) n = look (heap w) r).
  { intros n Hn. destruct (G n Hn) as [r Er]. exists r. split; [|now apply options_look].
    rewrite (run_arg e x a am n (VDict 0) B); [exact Er|]. each_in Hn; subst n; cbn; auto 25. }
  destruct (A "pyfftw_kwargs") as [rp [Ep Op]]; [cbn; auto|]. destruct (A "radial_pspec_kwargs") as [rr [Er Or]]; [cbn; auto|].
  destruct (A "fit_kwargs") as [rf [Ef Of]]; [cbn; auto|]. destruct (A "fit_2D_kwargs") as [rg [Eg Og]]; [cbn; auto|].
  rewrite Op in Kp. rewrite Or in Kr. rewrite Of in Kf. rewrite Og in K2.
  unfold run. rewrite (thent_run _ _ (lift (bind_args run_sig (self :: e) x)) _ w w (a, am)) by (unfold lift; now rewrite B).
  cbn [fst]. unfold run_body. rewrite Ep, Er, Ef.
  rewrite (thent_run _ _ _ _ _ _ _ (drop_nothing rp "threads" w (Kp "threads" ltac:(cbn; auto 20)))).
  rewrite (thent_run _ _ _ _ w w tt).
  2: { destruct k; try reflexivity; apply drop_nothing; apply (keys_not _ _ _ Kf); cbn; intuition discriminate. }
  rewrite (thent_run _ _ _ _ w w (look (heap w) rp)) by reflexivity.
  destruct (compute_accepts ins k o a (look (heap w) rp) w Kp) as [w1 [E1 H1]].
  rewrite (thent_run _ _ _ _ _ _ _ E1).
  rewrite (thent_run _ _ _ _ w1 w1 (look (heap w) rr)) by (unfold mapping; now rewrite H1).
  destruct (radial_accepts o (look (heap w) rr) w1 Kr) as [w2 [E2 H2]].
  rewrite (thent_run _ _ _ _ _ _ _ E2).
  rewrite (thent_run _ _ _ _ w2 w2 (look (heap w) rf)) by (unfold mapping; now rewrite H2, H1).
  destruct (bind_succeeds fit_pspec_sig (run_fit_args a) (look (heap w) rf)) as [fa [fm Bf]].
  { intros kv Hi. each_in Hi; subst kv; cbn [fst]; apply (keys_not _ _ _ Kf); cbn; intuition discriminate. }
  { right. apply (keys_takes _ _ _ _ Kf); [intros n Hn; each_in Hn; subst n; reflexivity|intros kv Hi; each_in Hi; subst kv; reflexivity]. }
  { intros p Hp. each_in Hp; subst p; try discriminate; reflexivity. }
  rewrite (thent_run _ _ _ _ _ _ _ (step_run o "fit_pspec" fit_pspec_sig (run_fit_args a) (look (heap w) rf) w2 fa fm Bf)).
  cbn [heap]. destruct (truthy (heap w2) (arg a "fit_2D")); [|eexists; split; [reflexivity|cbn; congruence]].
  rewrite Eg.
  rewrite (thent_run _ _ _ _ _ (mk_w (heap w2) (steps w2 ++ [ev o "fit_pspec" fa fm])) (look (heap w) rg)) by (unfold mapping; cbn [heap]; now rewrite H2, H1).
  destruct (bind_succeeds fit_2Dpspec_sig [self; ("low_cut", arg a "low_cut"); ("high_cut", arg a "high_cut")] (look (heap w) rg)) as [ga [gm Bg]].
  { intros kv Hi. each_in Hi; subst kv; cbn [fst]; apply (keys_not _ _ _ K2); cbn; intuition discriminate. }
  { right. apply (keys_takes _ _ _ _ K2); [intros n Hn; each_in Hn; subst n; reflexivity|intros kv Hi; each_in Hi; subst kv; reflexivity]. }
  { intros p Hp. each_in Hp; subst p; try discriminate; reflexivity. }
  rewrite (thent_run _ _ _ _ _ _ _ (step_run o "fit_2Dpspec" _ _ _ _ ga gm Bg)). eexists. split; [reflexivity|]. cbn. congruence.
Qed.
