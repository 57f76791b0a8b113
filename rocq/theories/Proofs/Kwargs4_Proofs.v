(** Proofs about the keyword arguments of the distance constructors: what is accepted, what
    is rejected, objects given by the user, VCS. *)
From Coq Require Import Reals String List Arith Bool Lia Lra.
From Verif Require Import Lib.PyBase Model.FitUtils Model.Kwargs Spec.Kwargs Proofs.Kwargs_Proofs Proofs.Kwargs2_Proofs Proofs.Kwargs3_Proofs.
Import ListNotations.
Local Open Scope string_scope.
Local Open Scope list_scope.

(** ** A scalar Quantity as break *)
Lemma scalar_break : forall v i w, break_at (two_breaks (BScalarQ v)) i w = (w, Err TypeError).
Proof. reflexivity. Qed.
Lemma scalar_refused : forall ins d1 d2 v low high kw kw2 w, needs_run d1 = true -> limits_fine low high ->
  (forall cw, exists w', vca_distance ins d1 d2 cw (BScalarQ v) low high kw kw2 w = (w', Err TypeError)) /\
  (exists w', mvc_distance ins d1 d2 (BScalarQ v) low high kw kw2 w = (w', Err TypeError)) /\
  (forall w1 w2 r, kw = VDict r -> get (look (heap w) r) "fit_kwargs" = None ->
     exists w', pspec_distance ins d1 d2 w1 w2 (BScalarQ v) low high kw kw2 w = (w', Err TypeError)) /\
  (exists w', vcs_distance ins d1 d2 (BScalarQ v) kw kw2 w = (w', Err TypeError)).
Proof.
  intros ins d1 d2 v low high kw kw2 w Nr [La Lb]. destruct (limits_ok low high 0 La Lb) as [lo [hi Hl]].
  assert (Rad : forall k cls opts kw' w, exists w', radial_one ins k cls opts 0 d1 lo hi (two_breaks (BScalarQ v)) kw' w = (w', Err TypeError)).
  { intros k cls opts kw' w0. unfold radial_one. destruct (object_run 1 cls opts d1 w0) as [w1 [E1 _]].
    rewrite (thent_run _ _ _ _ _ _ _ E1). rewrite Nr. exists w1. now rewrite (thent_err _ _ _ _ _ _ _ (scalar_break v 0 w1)). }
  split; [|split; [|split]].
  - intros cw. unfold vca_distance. rewrite (thent_run _ _ (lift (check_fit_limits low high)) _ w w (lo, hi)) by (unfold lift; now rewrite Hl). cbn [fst snd].
    destruct (Rad VCA "VCA" [("channel_width", cw)] kw w) as [w' E]. exists w'. now rewrite (thent_err _ _ _ _ _ _ _ E).
  - unfold mvc_distance. rewrite (thent_run _ _ (lift (check_fit_limits low high)) _ w w (lo, hi)) by (unfold lift; now rewrite Hl). cbn [fst snd].
    destruct (Rad MVC "MVC" [] kw w) as [w' E]. exists w'. now rewrite (thent_err _ _ _ _ _ _ _ E).
  - intros w1 w2 r -> Gf. unfold pspec_distance. rewrite (thent_run _ _ (lift (check_fit_limits low high)) _ w w (lo, hi)) by (unfold lift; now rewrite Hl). cbn [fst snd].
    unfold pspec_one at 1. destruct (object_run 1 "PowerSpectrum" [("weights", w1)] d1 w) as [w3 [E3 [H3 _]]].
    assert (E : thent (object_of 1 "PowerSpectrum" [("weights", w1)] d1) (fun _ => if needs_run d1 then
      kd <~ (match VDict r with VDict _ => mapping (VDict r) | _ => raise AttributeError end) ;
      let this := without "fit_2D" (without "high_cut" (without "low_cut" kd)) in
      _ <~ match get this "fit_kwargs" with
           | None => ret tt
           | Some (VDict r) => fun w => (mk_w (put (heap w) r (without "brk" (look (heap w) r))) (steps w), Ok tt)
           | Some _ => raise AttributeError
           end ;
      bv <~ break_at (two_breaks (BScalarQ v)) 0 ;
      fk <~ fresh [("brk", bv)] ;
      run ins PSPEC 1 [("low_cut", limit_at lo 0); ("high_cut", limit_at hi 0); ("fit_kwargs", fk); ("fit_2D", VBool false)] this
      else ret tt) w = (w3, Err TypeError)).
    { rewrite (thent_run _ _ _ _ _ _ _ E3), Nr. rewrite (thent_run _ _ (mapping (VDict r)) _ w3 w3 (look (heap w) r)) by (unfold mapping; now rewrite H3).
      cbv zeta. rewrite !get_without. cbn [String.eqb Ascii.eqb Bool.eqb]. rewrite Gf. rewrite (thent_run _ _ (ret tt) _ w3 w3 tt) by reflexivity.
      now rewrite (thent_err _ _ _ _ _ _ _ (scalar_break v 0 w3)). }
    exists w3. now rewrite (thent_err _ _ _ _ _ _ _ E).
  - unfold vcs_distance, vcs_one at 1. destruct (object_run 1 "VCS" [] d1 w) as [w3 [E3 _]].
    exists w3. rewrite (thent_err _ _ _ _ w w3 TypeError); [reflexivity|]. rewrite (thent_run _ _ _ _ _ _ _ E3), Nr.
    now rewrite (thent_err _ _ _ _ _ _ _ (scalar_break v 0 w3)).
Qed.

(** ** Options of the radial spectrum given to PSpec_Distance *)
Lemma pspec_radial_refused : forall ins d1 d2 w1 w2 b low high kw2 w r n bv, needs_run d1 = true -> limits_fine low high ->
  break_for b 0 = Some bv -> (forall q, b <> BScalarQ q) ->
  get (look (heap w) r) "fit_kwargs" = None -> get (look (heap w) r) n <> None -> In n (names radial_from_dict) ->
  exists w', pspec_distance ins d1 d2 w1 w2 b low high (VDict r) kw2 w = (w', Err TypeError) /\ forall f l, new_calls w w' 1 f l -> In f ["pspec"; "fit_pspec"] -> l = [].
Proof.
  intros ins d1 d2 w1 w2 b low high kw2 w r n bv Nr [La Lb] Bv Nb Gf Gn Hn. destruct (limits_ok low high 0 La Lb) as [lo [hi Hl]].
  unfold pspec_distance. rewrite (thent_run _ _ (lift (check_fit_limits low high)) _ w w (lo, hi)) by (unfold lift; now rewrite Hl). cbn [fst snd].
  destruct (object_run 1 "PowerSpectrum" [("weights", w1)] d1 w) as [w3 [E3 [H3 D3]]].
  assert (E : pspec_one ins 0 d1 w1 lo hi (two_breaks b) (VDict r) w = (mk_w (heap w3 ++ [[("brk", bv)]]) (steps w3), Err TypeError)).
  { unfold pspec_one. rewrite (thent_run _ _ _ _ _ _ _ E3), Nr. rewrite (thent_run _ _ (mapping (VDict r)) _ w3 w3 (look (heap w) r)) by (unfold mapping; now rewrite H3).
    set (this := without "fit_2D" (without "high_cut" (without "low_cut" (look (heap w) r)))). cbv zeta.
    assert (Gt : get this "fit_kwargs" = None) by (unfold this; rewrite !get_without; exact Gf). rewrite Gt.
    rewrite (thent_run _ _ (ret tt) _ w3 w3 tt) by reflexivity.
    rewrite (thent_run _ _ _ _ w3 w3 bv) by (apply break_run; [lia|exact Nb|exact Bv]).
    rewrite (thent_run _ _ _ _ w3 (mk_w (heap w3 ++ [[("brk", bv)]]) (steps w3)) (VDict (length (heap w3)))) by reflexivity.
    apply (run_unknown _ _ _ _ _ _ n).
    - unfold this. rewrite !get_without. cbn in Hn. repeat (destruct Hn as [<-|Hn]; [exact Gn|]). destruct Hn.
    - cbn in Hn. repeat (destruct Hn as [<-|Hn]; [cbn; intuition discriminate|]). destruct Hn. }
  exists (mk_w (heap w3 ++ [[("brk", bv)]]) (steps w3)). split; [now rewrite (thent_err _ _ _ _ _ _ _ E)|].
  intros f l [evs [Es Fl]] Hf. cbn [steps] in Es. destruct (object_ok _ _ _ _ _ _ _ E3) as [_ [[Os|Os] _]].
  - rewrite Os in Es. rewrite <- (app_nil_r (steps w)) in Es at 1. apply app_inv_head in Es. subst evs. now rewrite <- Fl.
  - rewrite Os in Es. apply app_inv_head in Es. subst evs. rewrite <- Fl. destruct Hf as [<-|[<-|[]]]; reflexivity.
Qed.

(** ** Objects given by the user *)
Lemma fitted_untouched : forall ins f1 f2 b low high kw kw2 w, limits_fine low high ->
  (forall w1 w2, pspec_distance ins (Object true f1) (Object true f2) w1 w2 b low high kw kw2 w = (w, Ok tt)) /\
  (forall cw, vca_distance ins (Object true f1) (Object true f2) cw b low high kw kw2 w = (w, Ok tt)) /\
  mvc_distance ins (Object true f1) (Object true f2) b low high kw kw2 w = (w, Ok tt) /\
  vcs_distance ins (Object true f1) (Object true f2) b kw kw2 w = (w, Ok tt).
Proof.
  intros ins f1 f2 b low high kw kw2 w [La Lb]. destruct (limits_ok low high 0 La Lb) as [lo [hi Hl]].
  assert (L : forall (k : list (option R) * list (option R) -> task unit), thent (lift (check_fit_limits low high)) k w = k (lo, hi) w)
    by (intros k; apply thent_run; unfold lift; now rewrite Hl).
  repeat split.
  - intros. unfold pspec_distance. now rewrite L.
  - intros. unfold vca_distance. now rewrite L.
  - unfold mvc_distance. now rewrite L.
Qed.

(** ** What the constructors of VCA and MVC accept *)
Lemma radial_one_accepts : forall ins k cls opts i d lo hi b r w, i < 2 -> (exists rest, heap w = [] :: rest) -> break_fine b ->
  r < length (heap w) -> keys_in (look (heap w) r) (names radial_from_dict) ->
  exists w' l, radial_one ins k cls opts i d lo hi (two_breaks b) (VDict r) w = (w', Ok tt) /\ heap w' = heap w ++ l.
Proof.
  intros ins k cls opts i d lo hi b r w Hi [rest H0] [Nb Bv] Hr K. unfold radial_one.
  destruct (object_run (S i) cls opts d w) as [w1 [E1 [H1 _]]]. rewrite (thent_run _ _ _ _ _ _ _ E1).
  destruct (needs_run d); [|exists w1, []; rewrite app_nil_r; now split].
  destruct (Bv i Hi) as [v V]. rewrite (thent_run _ _ _ _ w1 w1 v) by now apply break_run.
  rewrite (thent_run _ _ _ _ w1 (mk_w (heap w1 ++ [[("brk", v)]]) (steps w1)) (VDict (length (heap w1)))) by reflexivity.
  set (e := [("fit_kwargs", VDict (length (heap w1))); ("low_cut", limit_at lo i); ("high_cut", limit_at hi i); ("radial_pspec_kwargs", VDict r); ("fit_2D", VBool false)]).
  destruct (run_accepts ins k (S i) e [] (mk_w (heap w1 ++ [[("brk", v)]]) (steps w1))) as [w' [E' H']].
  - cbn [heap]. now rewrite H1, H0.
  - cbn [heap]. unfold documented. rewrite app_nil_r. split; [|split; [reflexivity|split; [|split; [|split; [|split]]]]].
    + intros kv Hin. each_in Hin; subst kv; cbn; auto 20.
    + intros n Hn. each_in Hn; subst n; cbn; eauto.
    + intros n _. reflexivity.
    + unfold options_in. cbn. rewrite H1, app_nth1 by lia. exact K.
    + unfold options_in. cbn. rewrite app_nth2, Nat.sub_diag by lia. cbn. intros kv [<-|[]]. cbn. auto.
    + intros kv [].
  - exists w', [[("brk", v)]]. split; [exact E'|]. rewrite H'. cbn [heap]. now rewrite H1.
Qed.
Lemma mvc_accepts : forall ins d1 d2 b low high kw kw2 w, ready w -> limits_fine low high -> break_fine b ->
  known (heap w) kw -> kw2 = VNone \/ known (heap w) kw2 ->
  (forall i, keys_in (dict_for (heap w) kw kw2 i) (names radial_from_dict)) ->
  exists w', mvc_distance ins d1 d2 b low high kw kw2 w = (w', Ok tt) /\ firstn (length (heap w)) (heap w') = heap w.
Proof.
  intros ins d1 d2 b low high kw kw2 w [H0 _] [La Lb] Bf [r [-> Hr]] K2 K. destruct (limits_ok low high 0 La Lb) as [lo [hi Hl]].
  unfold mvc_distance. rewrite (thent_run _ _ (lift (check_fit_limits low high)) _ w w (lo, hi)) by (unfold lift; now rewrite Hl). cbn [fst snd].
  assert (R2 : exists r2, match kw2 with VNone => VDict r | _ => kw2 end = VDict r2 /\ r2 < length (heap w) /\ dict_for (heap w) (VDict r) kw2 1 = look (heap w) r2).
  { destruct K2 as [->|[r2 [-> Hr2]]]; eexists; repeat split; eassumption. }
  destruct R2 as [r2 [E2 [Hr2 Q2]]]. rewrite E2.
  destruct (radial_one_accepts ins MVC "MVC" [] 0 d1 lo hi b r w) as [w1 [l1 [F1 G1]]]; [lia|exact H0|exact Bf|exact Hr|destruct kw2; exact (K 0)|].
  rewrite (thent_run _ _ _ _ _ _ _ F1).
  destruct (radial_one_accepts ins MVC "MVC" [] 1 d2 lo hi b r2 w1) as [w2 [l2 [F2 G2]]]; [lia| |exact Bf| | |].
  - destruct H0 as [rest H0]. exists (rest ++ l1). now rewrite G1, H0.
  - rewrite G1, app_length. lia.
  - rewrite G1. unfold look. rewrite app_nth1 by exact Hr2. change (keys_in (look (heap w) r2) (names radial_from_dict)). rewrite <- Q2. apply K.
  - exists w2. split; [exact F2|]. rewrite G2, G1, <- app_assoc, firstn_app, Nat.sub_diag, firstn_all. cbn. now rewrite app_nil_r.
Qed.
Lemma vca_accepts : forall ins d1 d2 cw b low high kw kw2 w, ready w -> limits_fine low high -> break_fine b ->
  known (heap w) kw -> keys_in (dict_for (heap w) kw VNone 0) (names radial_from_dict) ->
  exists w', vca_distance ins d1 d2 cw b low high kw kw2 w = (w', Ok tt) /\ firstn (length (heap w)) (heap w') = heap w.
Proof.
  intros ins d1 d2 cw b low high kw kw2 w [H0 _] [La Lb] Bf [r [-> Hr]] K. destruct (limits_ok low high 0 La Lb) as [lo [hi Hl]].
  unfold vca_distance. rewrite (thent_run _ _ (lift (check_fit_limits low high)) _ w w (lo, hi)) by (unfold lift; now rewrite Hl). cbn [fst snd].
  destruct (radial_one_accepts ins VCA "VCA" [("channel_width", cw)] 0 d1 lo hi b r w) as [w1 [l1 [F1 G1]]]; [lia|exact H0|exact Bf|exact Hr|exact K|].
  rewrite (thent_run _ _ _ _ _ _ _ F1).
  destruct (radial_one_accepts ins VCA "VCA" [("channel_width", cw)] 1 d2 lo hi b r w1) as [w2 [l2 [F2 G2]]]; [lia| |exact Bf| | |].
  - destruct H0 as [rest H0]. exists (rest ++ l1). now rewrite G1, H0.
  - rewrite G1, app_length. lia.
  - rewrite G1. unfold look. rewrite app_nth1 by exact Hr. exact K.
  - exists w2. split; [exact F2|]. rewrite G2, G1, <- app_assoc, firstn_app, Nat.sub_diag, firstn_all. cbn. now rewrite app_nil_r.
Qed.

(** ** The second dictionary of VCA_Distance, and the channel width *)
Definition two_dicts : world := mk_w [[]; [("logspacing", VBool true)]] [].
Lemma two_dicts_ready : ready two_dicts.
Proof.
  split; [now eexists|]. intros d k r [<-|[<-|[]]] H; cbn in H; [discriminate|]. destruct (String.eqb k "logspacing"); discriminate.
Qed.
Lemma vca_second_ignored : ~ (forall ins d1 d2 cw b low high kw kw2 w w' u, ready w -> known (heap w) kw -> kw2 = VNone \/ known (heap w) kw2 ->
  vca_distance ins d1 d2 cw b low high kw kw2 w = (w', Ok u) ->
  as_documented w w' 0 d1 low high b (dict_for (heap w) kw kw2 0) /\ as_documented w w' 1 d2 low high b (dict_for (heap w) kw kw2 1)).
Proof.
  intros H. destruct (vca_accepts false Raw Raw VNone BNone LNone LNone (VDict 0) (VDict 1) two_dicts) as [w' [E _]].
  - apply two_dicts_ready.
  - split; eexists; reflexivity.
  - split; [discriminate|]. intros i _. eexists; reflexivity.
  - exists 0. split; [reflexivity|cbn; lia].
  - intros kv [].
  - assert (K1 : known (heap two_dicts) (VDict 0)) by (exists 0; split; [reflexivity|cbn; lia]).
    assert (K2 : known (heap two_dicts) (VDict 1)) by (exists 1; split; [reflexivity|cbn; lia]).
    destruct (H _ _ _ _ _ _ _ _ _ _ _ _ two_dicts_ready K1 (or_intror K2) E) as [_ D].
    destruct (vca_documented _ _ _ _ _ _ _ _ _ _ _ _ two_dicts_ready K1 E) as [_ D'].
    destruct D as (lo & hi & bv & _ & _ & _ & _ & [c [C1 C2]] & _). destruct D' as (lo' & hi' & bv' & _ & _ & _ & _ & [c' [C1' C2']] & _).
    destruct C1 as [evs [A1 A2]]. destruct C1' as [evs' [A1' A2']]. rewrite A1 in A1'. apply app_inv_head in A1'. subst evs'.
    assert (c' = c) as -> by congruence.
    assert (T1 := C2 "logspacing" (VBool false) (or_introl eq_refl)). assert (T2 := C2' "logspacing" (VBool false) (or_introl eq_refl)).
    cbn in T1, T2. congruence.
Qed.
Lemma vca_width_unchecked : exists ins width1 cw w, width1 <> cw /\ cw <> VNone /\
  vca_distance ins (Object true width1) (Object true cw) cw BNone LNone LNone (VDict 0) VNone w = (w, Ok tt).
Proof. exists false, (VQty 1), (VQty 2), two_dicts. repeat split; try discriminate. intros E. injection E as E. lra. Qed.

(** ** VCS *)
Lemma rfft_ok_vcs : forall ins o e m w w' u, rfft_to_fft ins o e m w = (w', Ok u) ->
  heap w' = heap w /\ exists evs, steps w' = steps w ++ evs /\ forall c, In c evs -> e_of c = o /\ (e_fun c = "rfft_to_fft" \/ e_fun c = "rfftn").
Proof.
  intros ins o e m w w' u H. unfold rfft_to_fft in H.
  apply thent_ok in H as [w1 [[a m'] [S1 H]]]. apply step_ok in S1 as [B ->]. cbn [heap steps fst snd] in H.
  destruct (truthy (heap w) (arg a "use_pyfftw") && ins)%bool.
  - apply thent_ok in H as [w2 [[a2 m2] [S2 H]]]. apply step_ok in S2 as [B2 ->]. cbn in H. injection H as <- _. cbn [heap steps].
    split; [reflexivity|]. rewrite <- app_assoc. eexists. split; [reflexivity|]. intros c [<-|[<-|[]]]; cbn; auto.
  - cbn in H. injection H as <- _. cbn [heap steps]. split; [reflexivity|]. eexists. split; [reflexivity|]. intros c [<-|[]]; cbn; auto.
Qed.
Lemma vcs_run_ok : forall ins o e x w w' u, vcs_run ins o e x w = (w', Ok u) ->
  drops (heap w) (heap w') ["threads"; "fit_unbinned"] /\
  (exists evs, steps w' = steps w ++ evs /\ forall c, In c evs -> e_of c = o) /\
  exists c, new_calls w w' o "fit_pspec" [c] /\ gets c vcs_fit_table (e ++ x) /\
    (forall k, ~ In k ("self" :: vcs_run_only ++ names vcs_fit_table) -> get (e_more c) k = get (e ++ x) k).
Proof.
  intros ins o e x w w' u H. unfold vcs_run in H. apply thent_ok in H as [w0 [[a am] [B H]]]. unfold lift in B.
  assert (w0 = w) as -> by congruence. assert (B' : bind_args vcs_run_sig (self :: e) x = Ok (a, am)) by congruence. clear B. cbv zeta in H. cbn [fst snd] in H.
  apply thent_ok in H as [w1 [u1 [D1 H]]]. destruct (drop_given_ok _ _ _ _ _ D1) as [S1 [[DL Dr] _]].
  apply thent_ok in H as [w2 [pk [M2 H]]]. apply mapping_ok in M2 as [-> _].
  apply thent_ok in H as [w3 [[ca cm] [C3 H]]]. apply step_ok in C3 as [Bc ->]. cbn [fst snd] in H.
  apply thent_ok in H as [w4 [u4 [R4 H]]]. destruct (rfft_ok_vcs _ _ _ _ _ _ _ R4) as [H4 [ffts [S4 F4]]]. cbn [heap steps] in H4, S4.
  apply thent_ok in H as [w5 [[fa fm] [F5 H]]]. apply step_ok in F5 as [Bf ->]. cbn [fst snd heap] in H.
  assert (W : heap w' = heap w1 /\ exists bt, steps w' = (steps w4 ++ [ev o "fit_pspec" fa fm]) ++ bt /\ forall c, In c bt -> e_of c = o /\ e_fun c = "residual_bootstrap").
  { destruct (truthy (heap w4) (arg fa "bootstrap")).
    - apply thent_ok in H as [w6 [[ba bm] [B6 H]]]. apply step_ok in B6 as [_ ->]. unfold ret in H. injection H as <- _. cbn [heap steps].
      split; [congruence|]. eexists. split; [reflexivity|]. intros c [<-|[]]. now split.
    - injection H as <- _. cbn [heap steps]. split; [congruence|]. exists []. rewrite app_nil_r. split; [reflexivity|intros c []]. }
  destruct W as [Hw [bt [Sw Fb]]]. rewrite S4, S1 in Sw.
  split; [|split].
  - rewrite Hw. split; [exact DL|]. intros r n. destruct (Dr r n) as [E|[[<-|[]] E]]; [now left|right; split; [now left|exact E]].
  - exists ([ev o "compute_pspec" ca cm] ++ ffts ++ [ev o "fit_pspec" fa fm] ++ bt). rewrite Sw, <- !app_assoc. split; [reflexivity|].
    intros c Hc. apply in_app_or in Hc as [[<-|[]]|Hc]; [reflexivity|]. apply in_app_or in Hc as [Hc|Hc]; [now apply F4|].
    apply in_app_or in Hc as [[<-|[]]|Hc]; [reflexivity|now apply Fb].
  - exists (ev o "fit_pspec" fa fm). split; [|split].
    + exists (ev o "compute_pspec" ca cm :: ffts ++ [ev o "fit_pspec" fa fm] ++ bt). rewrite Sw, <- !app_assoc. split; [reflexivity|].
      rewrite filter_evs.
      2: { intros c Hc E. destruct (F4 c Hc) as [_ [Q|Q]]; congruence. }
      cbn. rewrite andb_false_r, Nat.eqb_refl. cbn. f_equal. clear -Fb. induction bt as [|c bt IH]; [reflexivity|]. cbn.
      destruct (Fb c (or_introl eq_refl)) as [_ Q]. rewrite Q. cbn. rewrite andb_false_r. apply IH. intros c' Hc'. apply Fb. now right.
    + destruct (bind_ok_args _ _ _ _ _ Bf) as [Ba _]. destruct (bind_ok_args _ _ _ _ _ B') as [_ [Am _]].
      intros n v Hin. cbn [e_args]. unfold chosen. each_in Hin; injection Hin as <- <-; rewrite Ba; cbn; rewrite Am; cbn; destruct (get (e ++ x) _); reflexivity.
    + intros n N. cbn [e_more]. destruct (bind_ok_args _ _ _ _ _ Bf) as [_ [Fm _]]. destruct (bind_ok_args _ _ _ _ _ B') as [_ [Am _]].
      assert (T1 : takes vcs_fit_sig n = false).
      { apply not_true_iff_false. intros T. apply N. unfold takes in T. apply existsb_exists in T as [p [Hp Q]]. apply String.eqb_eq in Q. rewrite Q.
        cbn in Hp. repeat (destruct Hp as [<-|Hp]; [cbn; auto 20|]). destruct Hp. }
      assert (T2 : takes vcs_run_sig n = false).
      { apply not_true_iff_false. intros T. apply N. unfold takes in T. apply existsb_exists in T as [p [Hp Q]]. apply String.eqb_eq in Q. rewrite Q.
        cbn in Hp. repeat (destruct Hp as [<-|Hp]; [cbn; auto 20|]). destruct Hp. }
      rewrite Fm, T1. cbn [app get self]. destruct (String.eqb_spec n "self") as [->|_]; [elim N; now left|].
      rewrite Am, T2. cbn [app get self]. destruct (String.eqb_spec n "self") as [->|_]; [elim N; now left|reflexivity].
Qed.
Lemma vcs_one_ok : forall ins i d b r w w' u, i < 2 -> r < length (heap w) -> vcs_one ins i d (two_breaks b) (VDict r) w = (w', Ok u) ->
  later (heap w) (heap w') /\ (exists evs, steps w' = steps w ++ evs /\ forall c, In c evs -> e_of c = S i) /\
  (needs_run d = false -> w' = w) /\
  (needs_run d = true -> exists bv c, break_for b i = Some bv /\ (forall q, b <> BScalarQ q) /\ get (look (heap w) r) "breaks" = None /\
     new_calls w w' (S i) "fit_pspec" [c] /\ get (e_args c) "breaks" = Some bv /\ gets c (tl vcs_fit_table) (look (heap w) r)).
Proof.
  intros ins i d b r w w' u Hi Hr H. unfold vcs_one in H.
  apply thent_ok in H as [w1 [u1 [O H]]]. destruct (object_ok _ _ _ _ _ _ _ O) as [Oh [Os [On Or]]].
  destruct (needs_run d) eqn:Nr.
  2: { assert (Dn : d <> Raw) by (intros ->; discriminate). assert (w1 = w) as -> by now apply On.
       unfold ret in H. injection H as <- _. split; [apply later_refl|]. split; [exists []; rewrite app_nil_r; split; [reflexivity|intros c []]|]. split; [reflexivity|discriminate]. }
  apply thent_ok in H as [w2 [bv [Bk H]]]. apply break_ok in Bk as [-> [Bf Bn]]; [|exact Hi].
  apply thent_ok in H as [w3 [kd [M H]]]. apply mapping_ok in M as [-> [r' [Er ->]]]. assert (r' = r) as -> by congruence. rewrite Oh in H.
  assert (Nb : get (look (heap w) r) "breaks" = None).
  { unfold vcs_run in H. apply thent_ok in H as [w4 [am [B _]]]. unfold lift in B.
    assert (B' : bind_args vcs_run_sig [self; ("breaks", bv)] (look (heap w) r) = Ok am) by congruence. destruct am as [a m].
    destruct (bind_ok_args _ _ _ _ _ B') as [_ [_ [U _]]]. apply (U ("breaks", bv)). cbn; auto. }
  destruct (vcs_run_ok _ _ _ _ _ _ _ H) as [D [[evs [Es Eo]] [c [C1 [C2 _]]]]].
  split; [rewrite <- Oh; now apply drops_later|]. split; [|split; [discriminate|]].
  - destruct Os as [Os|Os]; rewrite Os in Es; [now exists evs|]. rewrite <- app_assoc in Es. eexists. split; [exact Es|].
    intros c' [<-|Hc]; [reflexivity|now apply Eo].
  - intros _. exists bv, c. split; [exact Bf|]. split; [exact Bn|]. split; [exact Nb|]. split; [|split].
    + destruct Os as [Os|Os].
      * destruct C1 as [evs' [E1 F1]]. rewrite Os in E1. exists evs'. now split.
      * apply (calls_build w w1 w' (S i) _ _ (ev (S i) "VCS" [] [])); [exact Os|discriminate|exact C1].
    + rewrite (C2 "breaks" VNone) by (cbn; auto). reflexivity.
    + intros n v Hin. rewrite (C2 n v) by (right; exact Hin). unfold chosen. cbn [app get].
      destruct (String.eqb_spec n "breaks") as [->|_]; [|reflexivity]. cbn in Hin. repeat (destruct Hin as [Q|Hin]; [discriminate|]). destruct Hin.
Qed.
Lemma vcs_documented : forall ins d1 d2 b kw kw2 w w' u, known (heap w) kw -> kw2 = VNone \/ known (heap w) kw2 ->
  vcs_distance ins d1 d2 b kw kw2 w = (w', Ok u) ->
  forall i d, nth_error [d1; d2] i = Some d ->
  if needs_run d then exists bv c, break_for b i = Some bv /\ new_calls w w' (S i) "fit_pspec" [c] /\ get (e_args c) "breaks" = Some bv /\
                                    gets c (tl vcs_fit_table) (dict_for (heap w) kw kw2 i)
  else forall evs, steps w' = steps w ++ evs -> forall c, In c evs -> e_of c <> S i.
Proof.
  intros ins d1 d2 b kw kw2 w w' u [r [-> Hr]] K2 H. unfold vcs_distance in H. cbv zeta in H.
  assert (R2 : exists r2, match kw2 with VNone => VDict r | _ => kw2 end = VDict r2 /\ r2 < length (heap w) /\ dict_for (heap w) (VDict r) kw2 1 = look (heap w) r2).
  { destruct K2 as [->|[r2 [-> Hr2]]]; eexists; repeat split; eassumption. }
  destruct R2 as [r2 [E2 [Hr2 Q2]]]. rewrite E2 in H. apply thent_ok in H as [w1 [u1 [F G]]].
  destruct (vcs_one_ok ins 0 d1 b r w w1 u1 ltac:(lia) Hr F) as [L1 [[e1 [S1 O1]] [N1 Y1]]].
  assert (Hr2' : r2 < length (heap w1)) by (destruct L1; lia).
  destruct (vcs_one_ok ins 1 d2 b r2 w1 w' u ltac:(lia) Hr2' G) as [L2 [[e2 [S2 O2]] [N2 Y2]]].
  intros [|[|i]] d Hd; [| |destruct i; discriminate]; injection Hd as <-.
  - destruct (needs_run d1).
    + destruct (Y1 eq_refl) as (bv & c & B1 & _ & _ & C1 & C2 & C3). exists bv, c. split; [exact B1|]. split; [now apply (calls_after w w1 w' 1 _ _ 2 e2)|]. split; [exact C2|].
      replace (dict_for (heap w) (VDict r) kw2 0) with (look (heap w) r) by (destruct kw2; reflexivity). exact C3.
    + apply object_events. exists e2. rewrite S2, (N1 eq_refl). split; [reflexivity|]. intros c Hc. now rewrite (O2 c Hc).
  - destruct (needs_run d2).
    + destruct (Y2 eq_refl) as (bv & c & B1 & _ & _ & C1 & C2 & C3). exists bv, c. split; [exact B1|]. split; [now apply (calls_before w w1 w' 2 _ _ 1 e1)|]. split; [exact C2|].
      rewrite Q2. intros n v Hin. rewrite (C3 n v Hin). unfold chosen. rewrite (later_get _ _ r2 n L1 Hr2); [reflexivity|].
      cbn in Hin. repeat (destruct Hin as [Q|Hin]; [injection Q as <- <-; cbn; intuition discriminate|]). destruct Hin.
    + apply object_events. exists e1. rewrite (N2 eq_refl), S1. split; [reflexivity|]. intros c Hc. now rewrite (O1 c Hc).
Qed.
Lemma vcs_breaks_twice : forall ins d1 d2 b r kw2 w v, needs_run d1 = true -> break_fine b -> get (look (heap w) r) "breaks" = Some v ->
  exists w', vcs_distance ins d1 d2 b (VDict r) kw2 w = (w', Err TypeError).
Proof.
  intros ins d1 d2 b r kw2 w v Nr [Nb Bv] G. unfold vcs_distance, vcs_one at 1. destruct (object_run 1 "VCS" [] d1 w) as [w1 [E1 [H1 _]]].
  exists w1. apply thent_err. rewrite (thent_run _ _ _ _ _ _ _ E1), Nr.
  destruct (Bv 0 ltac:(lia)) as [bv B]. rewrite (thent_run _ _ _ _ w1 w1 bv) by (apply break_run; [lia|exact Nb|exact B]).
  rewrite (thent_run _ _ _ _ w1 w1 (look (heap w) r)) by (unfold mapping; now rewrite H1).
  unfold vcs_run. apply thent_err. unfold lift. f_equal. apply (bind_twice _ _ _ ("breaks", bv)); [cbn; auto|]. cbn [fst]. now rewrite G.
Qed.
(** A misspelt keyword *)
Definition misspelt : world := mk_w [[]] [].
Lemma vcs_unknown_accepted : exists ins k v w w', ~ In k (vcs_run_only ++ names vcs_fit_table) /\ vcs_run ins 1 [(k, v)] [] w = (w', Ok tt).
Proof.
  exists false, "low_cutt", (VQty 1), misspelt. eexists. split; [cbn; intuition discriminate|]. unfold vcs_run. cbn. reflexivity.
Qed.
(** The transform of VCS gets the options of run *)
Lemma vcs_spectrum : forall ins o e x w w' u, vcs_run ins o e x w = (w', Ok u) -> forall f, f = "compute_pspec" \/ f = "rfft_to_fft" ->
  exists c, new_calls w w' o f [c] /\ gets c vcs_transform_table (e ++ x).
Proof.
  intros ins o e x w w' u H f Hfun. unfold vcs_run in H. apply thent_ok in H as [w0 [[a am] [B H]]]. unfold lift in B.
  assert (w0 = w) as -> by congruence. assert (B' : bind_args vcs_run_sig (self :: e) x = Ok (a, am)) by congruence. clear B. cbv zeta in H. cbn [fst snd] in H.
  apply thent_ok in H as [w1 [u1 [D1 H]]]. destruct (drop_given_ok _ _ _ _ _ D1) as [S1 _].
  apply thent_ok in H as [w2 [pk [M2 H]]]. apply mapping_ok in M2 as [-> _].
  apply thent_ok in H as [w3 [[ca cm] [C3 H]]]. apply step_ok in C3 as [Bc ->]. cbn [fst snd] in H.
  apply thent_ok in H as [w4 [u4 [R4 H]]]. unfold rfft_to_fft in R4. apply thent_ok in R4 as [w41 [[ra rm] [R41 R4]]]. apply step_ok in R41 as [Br ->]. cbn [fst snd heap steps] in R4.
  assert (S4 : exists more, steps w4 = (steps w1 ++ [ev o "compute_pspec" ca cm]) ++ ev o "rfft_to_fft" ra rm :: more /\ forall c, In c more -> e_fun c = "rfftn").
  { destruct (truthy (heap w1) (arg ra "use_pyfftw") && ins)%bool.
    - apply thent_ok in R4 as [w42 [[a2 m2] [S2 R4]]]. apply step_ok in S2 as [_ ->]. cbn in R4. injection R4 as <- _. cbn [steps]. rewrite <- (app_assoc _ [_] [_]). eexists. split; [reflexivity|]. intros c [<-|[]]. reflexivity.
    - injection R4 as <- _. cbn [steps]. exists []. split; [reflexivity|intros c []]. }
  destruct S4 as [more [S4 F4]].
  apply thent_ok in H as [w5 [[fa fm] [F5 H]]]. apply step_ok in F5 as [_ ->]. cbn [fst snd heap] in H.
  assert (W : exists bt, steps w' = (steps w4 ++ [ev o "fit_pspec" fa fm]) ++ bt /\ forall c, In c bt -> e_fun c = "residual_bootstrap").
  { destruct (truthy (heap w4) (arg fa "bootstrap")).
    - apply thent_ok in H as [w6 [[ba bm] [B6 H]]]. apply step_ok in B6 as [_ ->]. unfold ret in H. injection H as <- _. cbn [steps]. eexists. split; [reflexivity|]. intros c [<-|[]]. reflexivity.
    - injection H as <- _. cbn [steps]. exists []. rewrite app_nil_r. split; [reflexivity|intros c []]. }
  destruct W as [bt [Sw Fb]]. rewrite S4, S1 in Sw. rewrite <- !app_assoc in Sw. cbn [app] in Sw.
  assert (Q : forall l g, (forall c, In c l -> e_fun c = g) -> f <> g -> filter (fun c => Nat.eqb (e_of c) o && String.eqb (e_fun c) f)%bool l = []).
  { intros l g Hl N. induction l as [|c l IH]; [reflexivity|]. cbn [filter]. rewrite (Hl c (or_introl eq_refl)). destruct (String.eqb_spec g f); [congruence|]. rewrite andb_false_r. apply IH. intros c' Hc. apply Hl. now right. }
  destruct (bind_ok_args _ _ _ _ _ Bc) as [Ba _]. destruct (bind_ok_args _ _ _ _ _ B') as [Aa _]. destruct (bind_ok_args _ _ _ _ _ Br) as [Ra _].
  assert (QA : gets (ev o "compute_pspec" ca cm) vcs_transform_table (e ++ x)).
  { intros n v Hin. cbn [e_args]. unfold chosen. each_in Hin; injection Hin as <- <-; rewrite Ba; cbn; unfold arg; rewrite Aa; cbn; destruct (get (e ++ x) _); reflexivity. }
  destruct Hfun as [-> | ->].
  - exists (ev o "compute_pspec" ca cm). split; [|exact QA]. eexists. split; [exact Sw|]. cbn [filter e_of e_fun]. rewrite Nat.eqb_refl. cbn [String.eqb Ascii.eqb Bool.eqb andb].
    rewrite filter_app. cbn [filter e_of e_fun]. rewrite (Q more "rfftn" F4), (Q bt "residual_bootstrap" Fb) by discriminate. rewrite Nat.eqb_refl. reflexivity.
  - exists (ev o "rfft_to_fft" ra rm). split.
    + eexists. split; [exact Sw|]. cbn [filter e_of e_fun]. rewrite Nat.eqb_refl. cbn [String.eqb Ascii.eqb Bool.eqb andb].
      rewrite filter_app. cbn [filter e_of e_fun]. rewrite (Q more "rfftn" F4), (Q bt "residual_bootstrap" Fb) by discriminate. rewrite Nat.eqb_refl. reflexivity.
    + intros n v Hin. cbn [e_args]. specialize (QA n v Hin). cbn [e_args] in QA. each_in Hin; injection Hin as <- <-; rewrite Ra; cbn; unfold arg; rewrite QA; reflexivity.
Qed.
