(** Proofs about Model/RunOptions.v: options accepted, ignored and refused; the distance constructors. *)
From Coq Require Import Reals String List Arith Bool Lia Lra.
From Verif Require Import Lib.PyBase Model.FitUtils Model.Kwargs Model.RunOptions Spec.Kwargs Spec.RunOptions Proofs.Kwargs_Proofs Proofs.Kwargs2_Proofs Proofs.Kwargs3_Proofs Proofs.RunOptions_Proofs.
Import ListNotations.
Local Open Scope string_scope.
Local Open Scope list_scope.

(** ** The segmented fit *)
Lemma new_calls_same : forall w w' o f l l', new_calls w w' o f l -> new_calls w w' o f l' -> l = l'.
Proof. intros w w' o f l l' (e1 & E1 & F1) (e2 & E2 & F2). rewrite E1 in E2. apply app_inv_head in E2. congruence. Qed.
Lemma get_set : forall k v d n, get (set_key k v d) n = if String.eqb n k then Some v else get d n.
Proof.
  intros k v d n. unfold set_key. cbn. destruct (String.eqb_spec n k) as [->|N]; [reflexivity|]. rewrite get_without. destruct (String.eqb_spec k n); [congruence|reflexivity].
Qed.
Lemma segmented : forall py k o e x w w' u, run py k o e x w = (w', Ok u) -> nth 0 (heap w) [] = [] ->
  (chosen (e ++ x) "brk" VNone = VNone -> new_calls w w' o "fit_model" []) /\
  (chosen (e ++ x) "brk" VNone <> VNone -> exists c, new_calls w w' o "fit_model" [c] /\ gets c segmented_table (options_in (heap w) (e ++ x) "fit_kwargs") /\
     get (e_more c) "cov_type" = Some (VStr "HC3") /\
     get (e_args c) "verbose" = Some match k with DELTA => chosen (e ++ x) "verbose" (VBool false) | WAVELET => chosen (options_in (heap w) (e ++ x) "fit_kwargs") "verbose" (VBool true) end).
Proof.
  intros py k o e x w w' u H H0. destruct (run_trace _ _ _ _ _ _ _ _ H) as (a & am & ca & cm & va & vm & d & rf & fa & fm & tail & B & Bc & _ & _ & Ef & Bf & _ & E & F & [S1 S2]).
  destruct (calls_compute k o ca cm va vm fa fm tail w w' F E) as (_ & _ & _ & C4).
  destruct (fit_gets k o e x a am rf (heap w) fa fm B Ef H0 Bf) as [G1 _].
  assert (Q : arg fa "brk" = chosen (e ++ x) "brk" VNone) by (unfold arg; specialize (G1 "brk" VNone); cbn [e_args] in G1; rewrite G1; [reflexivity|destruct k; cbn; auto]).
  rewrite <- Q. split.
  - intros N. rewrite (S1 N) in C4. exact C4.
  - intros N. destruct (S2 N) as (la & lm & Bl & El). rewrite El in C4. eexists. split; [exact C4|]. cbn [e_args e_more]. destruct (bind_ok_args _ _ _ _ _ Bl) as (Ba & Bm & _).
    assert (A : arg a "fit_kwargs" = chosen (e ++ x) "fit_kwargs" (VDict 0)) by (apply (run_arg k e x a am); [exact B|apply in_or_app; right; apply in_or_app; right; now left]).
    rewrite (options_look (heap w) (e ++ x) "fit_kwargs" rf H0) by congruence. destruct (bind_ok_args _ _ _ _ _ Bf) as (_ & Bfm & Bd & _).
    assert (V : k = DELTA -> arg fa "verbose" = chosen (e ++ x) "verbose" (VBool false)).
    { intros ->. unfold arg. specialize (G1 "verbose" (VBool false)). cbn [e_args] in G1. rewrite G1; [reflexivity|cbn; auto 6]. }
    assert (G : forall n, In n ["tol"; "iter_max"; "h_step"; "epsil_0"; "constant"; "missing"] -> get (segmented_given k fa fm) n = get (look (heap w) rf) n).
    { intros n Hn. unfold segmented_given. rewrite get_set. assert (String.eqb n "cov_type" = false) as -> by (each_option Hn; subst n; reflexivity).
      assert (Fm : get fm n = get (look (heap w) rf) n) by (rewrite Bfm; destruct k; each_option Hn; subst n; reflexivity).
      destruct k; [|exact Fm]. rewrite get_set. assert (String.eqb n "verbose" = false) as -> by (each_option Hn; subst n; reflexivity). exact Fm. }
    split; [|split].
    + clear - Ba G. remember (segmented_given k fa fm) as sg eqn:Eg. clear Eg. intros n v Hin. cbn [e_args]. rewrite Ba. unfold chosen.
      each_option Hin; injection Hin as <- <-; rewrite <- G by (cbn; auto 10); cbn; destruct (get sg _); reflexivity.
    + rewrite Bm. remember (segmented_given k fa fm) as sg eqn:Eg. cbn. rewrite Eg. unfold segmented_given. now rewrite get_set.
    + rewrite Ba. remember (segmented_given k fa fm) as sg eqn:Eg. cbn. rewrite Eg. unfold segmented_given. rewrite get_set. change (String.eqb "verbose" "cov_type") with false. cbv iota.
      destruct k.
      * rewrite get_set. cbn. now rewrite V.
      * assert (Fm : get fm "verbose" = get (look (heap w) rf) "verbose") by (rewrite Bfm; reflexivity). rewrite Fm. unfold chosen. destruct (get (look (heap w) rf) "verbose"); reflexivity.
Qed.

(** ** Threads *)
Lemma convolve_same : forall py k o e x e' x' w w1 w2 u u' c1 c2, run py k o e x w = (w1, Ok u) -> run py k o e' x' w = (w2, Ok u') ->
  (forall n, n <> "threads" -> n <> "pyfftw_kwargs" -> get (e ++ x) n = get (e' ++ x') n) ->
  new_calls w w1 o "convolve_fft" [c1] -> new_calls w w2 o "convolve_fft" [c2] -> c1 = c2.
Proof.
  intros py k o e x e' x' w w1 w2 u u' c1 c2 H H' Same C1 C2.
  destruct (run_trace _ _ _ _ _ _ _ _ H) as (a & am & ca & cm & va & vm & d & rf & fa & fm & tail & B & Bc & Bv & D & _ & _ & _ & E & F & _).
  destruct (run_trace _ _ _ _ _ _ _ _ H') as (a' & am' & ca' & cm' & va' & vm' & d' & rf' & fa' & fm' & tail' & B' & Bc' & Bv' & D' & _ & _ & _ & E' & F' & _).
  destruct (calls_compute k o ca cm va vm fa fm tail w w1 F E) as (_ & _ & C3 & _). destruct (calls_compute k o ca' cm' va' vm' fa' fm' tail' w w2 F' E') as (_ & _ & C3' & _).
  pose proof (new_calls_same _ _ _ _ _ _ C1 C3) as Q1. pose proof (new_calls_same _ _ _ _ _ _ C2 C3') as Q2. injection Q1 as ->. injection Q2 as ->.
  pose proof (transform_gets k o e x a am ca cm B Bc) as T. pose proof (transform_gets k o e' x' a' am' ca' cm' B' Bc') as T'.
  assert (A : forall n v, In (n, v) (transform_table k) -> n <> "threads" -> n <> "pyfftw_kwargs" -> arg ca n = arg ca' n).
  { intros n v I N1 N2. specialize (T n v I). specialize (T' n v I). cbn [e_args] in T, T'. unfold arg. rewrite T, T'. unfold chosen. now rewrite Same. }
  assert (G : convolve_given py k (heap w) ca = convolve_given py k (heap w) ca').
  { unfold convolve_given. destruct k.
    - rewrite (A "use_pyfftw" (VBool false)), (A "boundary" (VStr "wrap")), (A "nan_treatment" (VStr "fill")), (A "allow_huge" (VBool false)); try reflexivity; try discriminate; cbn; auto 10.
    - rewrite (A "use_pyfftw" (VBool false)); try reflexivity; try discriminate; cbn; auto 10. }
  assert (Dd : d = d').
  { destruct k; [congruence|]. destruct D as (r & R & ->). destruct D' as (r' & R' & ->). rewrite (A "convolve_kwargs" (VDict 0)) in R; [|cbn; auto|discriminate|discriminate]. congruence. }
  rewrite G, Dd in Bv. congruence.
Qed.

(** ** Accepted *)
Lemma bind_more : forall s e x a m, bind_args s e x = Ok (a, m) -> m = filter (fun kv => negb (takes s (fst kv))) (e ++ x).
Proof. intros s e x a m. unfold bind_args. repeat match goal with |- context [if ?c then _ else _] => destruct c end; congruence. Qed.
Lemma step_accepts : forall o f s e x w, (forall kv, In kv e -> get x (fst kv) = None) -> (s_more s = true \/ forall kv, In kv (e ++ x) -> takes s (fst kv) = true) ->
  (forall p, In p (s_params s) -> snd p = None -> has e (fst p) = true) -> exists a m, bind_args s e x = Ok (a, m) /\ step o f s e x w = (mk_w (heap w) (steps w ++ [ev o f a m]), Ok (a, m)).
Proof. intros o f s e x w H1 H2 H3. destruct (bind_succeeds s e x H1 H2 H3) as (a & m & B). exists a, m. split; [exact B|]. now apply step_run. Qed.
Ltac params := let p := fresh "p" in let Hp := fresh "Hp" in let Sp := fresh "Sp" in
  intros p Hp Sp; cbn in Hp; repeat (destruct Hp as [Hp|Hp]; [subst p; first [discriminate | reflexivity]|]); contradiction.
Lemma method_accepts : forall s o f e x w, forallb (fun p => match snd p with Some _ => true | None => String.eqb (fst p) "self" end) (s_params s) = true ->
  (forall kv, In kv (self :: e) -> get x (fst kv) = None) -> (s_more s = true \/ forall kv, In kv (self :: e ++ x) -> takes s (fst kv) = true) ->
  exists a m, bind_args s (self :: e) x = Ok (a, m) /\ step o f s (self :: e) x w = (mk_w (heap w) (steps w ++ [ev o f a m]), Ok (a, m)).
Proof.
  intros s o f e x w P H1 H2. apply step_accepts; [exact H1|exact H2|]. intros p Hp Sp. rewrite forallb_forall in P. specialize (P p Hp). rewrite Sp in P. apply String.eqb_eq in P. rewrite P. reflexivity.
Qed.
Lemma keys_none : forall d l n, keys_in d l -> ~ In n l -> get d n = None.
Proof. intros d l n K N. now apply (keys_not d l). Qed.
Ltac each_kv H := cbn in H; repeat (destruct H as [<-|H]; [|]); try contradiction.
Ltac none_in K := apply (keys_none _ _ _ K); cbn; intros ?Q; repeat (destruct Q as [Q|Q]; [discriminate|]); exact Q.
Definition fit_explicit : list string := ["self"; "xlow"; "xhigh"; "brk"; "verbose"].
Lemma run_takes : forall py k o e x w, nth 0 (heap w) [] = [] -> keys_in (e ++ x) (options_of k) -> (forall kv, In kv e -> get x (fst kv) = None) ->
  (exists r, chosen (e ++ x) "fit_kwargs" (VDict 0) = VDict r) -> (forall n, In n fit_explicit -> get (options_in (heap w) (e ++ x) "fit_kwargs") n = None) ->
  (exists r, chosen (options_in (heap w) (e ++ x) "fit_kwargs") "bootstrap_kwargs" (VDict 0) = VDict r /\ get (nth r (heap w) []) "fit_model" = None) ->
  (k = WAVELET -> exists r, chosen (e ++ x) "convolve_kwargs" (VDict 0) = VDict r /\
     forall n, In n ["array"; "kernel"; "normalize_kernel"; "fftn"; "ifftn"; "nan_treatment"; "preserve_nan"] -> get (nth r (heap w) []) n = None) ->
  exists w', run py k o e x w = (w', Ok tt) /\ heap w' = heap w.
Proof.
  intros py k o e x w H0 K Tw (rf & Rf) Kf (rb & Rb & Nb) Wc. unfold run.
  assert (NS : get (e ++ x) "self" = None) by (destruct k; none_in K).
  assert (NSx : get x "self" = None) by (rewrite get_app in NS; destruct (get e "self"); [discriminate|exact NS]).
  (* run *)
  assert (B : exists a am, bind_args (run_sig k) (self :: e) x = Ok (a, am)).
  { edestruct (method_accepts (run_sig k) 0 "" e x w) as (a & am & B & _); [| | |exists a, am; exact B].
    - now destruct k.
    - intros kv [<-|I]; [exact NSx|now apply Tw].
    - destruct k; [right|now left]. intros kv I. destruct I as [<-|I]; [reflexivity|]. specialize (K kv I). destruct kv as [n v]. cbn [fst] in *. each_kv K; reflexivity. }
  destruct B as (a & am & B). rewrite (thent_run _ _ _ _ w w (a, am)) by (unfold lift; now rewrite B). cbn [fst snd].
  assert (Ra : forall n v, In (n, v) (transform_table k ++ fit_table k ++ [("fit_kwargs", VDict 0)]) -> arg a n = chosen (e ++ x) n v) by (intros n v; apply (run_arg k e x a am n v B)).
  (* transform *)
  edestruct (method_accepts (compute_sig k) o (compute_name k) (compute_args k a) [] w) as (ca & cm & Bc & S1); [| | |].
  4: { rewrite (thent_run _ _ _ _ _ _ _ S1). cbn [fst].
  (* convolution *)
  assert (Cv : exists w2, convolve py k o ca (mk_w (heap w) (steps w ++ [ev o (compute_name k) ca cm])) = (w2, Ok tt) /\ heap w2 = heap w).
  { destruct k; unfold convolve.
    - edestruct step_accepts as (va & vm & Bv & S2); [| | |]; [| | |rewrite (thent_run _ _ _ _ _ _ _ S2); eexists; split; [reflexivity|reflexivity]]; [intros kv I; reflexivity|now left|params].
    - destruct (Wc eq_refl) as (rc & Rc & Nc). assert (Ac : arg ca "convolve_kwargs" = VDict rc).
      { pose proof (transform_gets WAVELET o e x a am ca cm B Bc "convolve_kwargs" (VDict 0)) as T. cbn [e_args] in T. unfold arg. rewrite T by (cbn; auto). exact Rc. }
      rewrite Ac. unfold mapping at 1. rewrite (thent_run _ _ _ _ _ _ _ eq_refl).
      edestruct step_accepts as (va & vm & Bv & S2); [| | |]; [| | |rewrite (thent_run _ _ _ _ _ _ _ S2); eexists; split; [reflexivity|reflexivity]];
        [intros kv I; each_kv I; cbn [fst heap]; apply Nc; cbn; auto 10|now left|params]. }
  destruct Cv as (w2 & S2 & H2). rewrite (thent_run _ _ _ _ _ _ _ S2).
  (* fit *)
  assert (Af : arg a "fit_kwargs" = VDict rf) by (rewrite (Ra "fit_kwargs" (VDict 0)); [exact Rf|apply in_or_app; right; apply in_or_app; right; now left]).
  rewrite Af. unfold mapping at 1. rewrite (thent_run _ _ _ _ _ _ _ eq_refl). rewrite H2. rewrite (options_look (heap w) (e ++ x) "fit_kwargs" rf H0 Rf) in Kf, Rb.
  edestruct (method_accepts (fit_sig k) o (fit_name k) (fit_args k a) (look (heap w) rf) w2) as (fa & fm & Bf & S3); [| | |].
  4: { rewrite (thent_run _ _ _ _ _ _ _ S3). cbn [fst snd].
  (* segmented fit and bootstrap *)
  assert (Ab : arg fa "bootstrap_kwargs" = VDict rb).
  { destruct (fit_gets k o e x a am rf (heap w) fa fm B Af H0 Bf) as [_ G]. specialize (G "bootstrap_kwargs" (VDict 0)). cbn [e_args] in G. rewrite (options_look (heap w) (e ++ x) "fit_kwargs" rf H0 Rf) in G.
    unfold arg. rewrite G by (destruct k; cbn; auto). exact Rb. }
  assert (Sf : get fm "self" = None) by (destruct (bind_ok_args _ _ _ _ _ Bf) as (_ & Bm & _); rewrite Bm; destruct k; reflexivity).
  assert (Fb : forall w3, heap w3 = heap w -> exists w4, fit_body k o fa fm w3 = (w4, Ok tt) /\ heap w4 = heap w).
  { intros w3 H3. unfold fit_body.
    assert (S4 : exists w4, match arg fa "brk" with VNone => ret tt | _ => (_ <~ step o "fit_model" lm_seg_sig [self] (segmented_given k fa fm) ; ret tt) end w3 = (w4, Ok tt) /\ heap w4 = heap w).
    { assert (S5 : exists w4, (_ <~ step o "fit_model" lm_seg_sig [self] (segmented_given k fa fm) ; ret tt) w3 = (w4, Ok tt) /\ heap w4 = heap w).
      { edestruct (step_accepts o "fit_model" lm_seg_sig [self] (segmented_given k fa fm) w3) as (la & lm & Bl & S5); [| | |rewrite (thent_run _ _ _ _ _ _ _ S5); eexists; split; [reflexivity|exact H3]]; [|now left|params].
        intros kv [<-|[]]. cbn [fst self]. unfold segmented_given. rewrite get_set. change (String.eqb "self" "cov_type") with false. cbv iota. destruct k; [|exact Sf]. rewrite get_set. exact Sf. }
      destruct (arg fa "brk"); [eexists; split; [reflexivity|exact H3]|exact S5..]. }
    destruct S4 as (w4 & S4 & H4). assert (S4' : match arg fa "brk" with
       | VNone => ret tt
       | _ =>
           let kw := set_key "cov_type" (VStr "HC3") (match k with DELTA => set_key "verbose" (arg fa "verbose") fm | WAVELET => fm end) in
           _ <~ step o "fit_model" lm_seg_sig [self] kw ; ret tt
       end w3 = (w4, Ok tt)) by exact S4.
    rewrite (thent_run _ _ _ _ _ _ _ S4'). destruct (truthy (heap w4) (arg fa "bootstrap")); [|eexists; split; [reflexivity|exact H4]]. rewrite Ab. unfold mapping. rewrite (thent_run _ _ _ _ _ _ _ eq_refl).
    edestruct (step_accepts o "residual_bootstrap" bootstrap_sig [("fit_model", VObj 0)] (look (heap w4) rb) w4) as (ba & bm & Bb & S6); [| | |rewrite (thent_run _ _ _ _ _ _ _ S6); eexists; split; [reflexivity|exact H4]];
      [|now left|params]. intros kv [<-|[]]. cbn [fst]. rewrite H4. exact Nb. }
  destruct (Fb (mk_w (heap w2) (steps w2 ++ [ev o (fit_name k) fa fm])) H2) as (w5 & S5 & H5). rewrite (thent_run _ _ _ _ _ _ _ S5).
  (* plot *)
  destruct (truthy (heap w5) (arg a "verbose")); [|eexists; split; [reflexivity|exact H5]].
  apply bind_more in B. edestruct (method_accepts (plot_sig k) o "plot" [("save_name", arg a "save_name"); ("xunit", arg a "xunit")] am w5) as (pa & pm & Bp & S6); [| | |].
  4: { rewrite (thent_run _ _ _ _ _ _ _ S6). eexists. split; [reflexivity|exact H5]. }
  - reflexivity.
  - intros kv I. subst am. rewrite (get_filter (fun n => negb (takes (run_sig k) n))). each_kv I; destruct k; reflexivity.
  - right. intros kv I. destruct I as [<-|I]; [reflexivity|]. cbn [app] in I. destruct I as [<-|[<-|I]]; [reflexivity|reflexivity|]. subst am. apply filter_In in I as [I N]. destruct I as [<-|I]; [destruct k; discriminate|].
    specialize (K kv I). destruct kv as [n v]. cbn [fst] in *. destruct k; each_kv K; try reflexivity; discriminate. }
  - now destruct k.
  - intros kv I.
    destruct k; each_kv I; apply Kf; cbn; auto 10.
  - now left. }
  - now destruct k.
  - reflexivity.
  - right. intros kv I. rewrite app_nil_r in I. destruct k; each_kv I; reflexivity.
Qed.

Lemma run_accepts : forall py k o e x w, nth 0 (heap w) [] = [] -> documented (heap w) k e x -> exists w', run py k o e x w = (w', Ok tt) /\ heap w' = heap w.
Proof.
  intros py k o e x w H0 (K & Tw & Rf & Kf & Rb & Wc). apply run_takes; try assumption. intros n Hn. destruct k; each_kv Hn; none_in Kf.
Qed.

(** ** Refused *)
Lemma takes_options : forall n, takes (run_sig DELTA) n = true -> n = "self" \/ In n (options_of DELTA).
Proof. intros n H. unfold takes in H. apply existsb_exists in H as (p & Hp & Q). apply String.eqb_eq in Q. subst n. cbn in Hp. cbn. each_kv Hp; auto 20. Qed.
Lemma misspelt : forall py o e x w kv, In kv (e ++ x) -> ~ In (fst kv) (options_of DELTA) -> fst kv <> "self" -> run py DELTA o e x w = (w, Err TypeError).
Proof.
  intros py o e x w kv I N Q. unfold run. rewrite (thent_err _ _ _ _ w w TypeError); [reflexivity|]. unfold lift. rewrite (bind_unknown _ _ _ kv); [reflexivity|reflexivity|right; exact I|].
  destruct (takes (run_sig DELTA) (fst kv)) eqn:T; [|reflexivity]. apply takes_options in T as [T|T]; contradiction.
Qed.
Lemma get_none_in : forall (d : dict) n, get d n = None -> forall kv, In kv d -> fst kv <> n.
Proof. intros d n H kv I Q. apply in_get in I. unfold has in I. rewrite Q, H in I. discriminate. Qed.
Lemma bind_extra : forall s e x n v, s_more s = true -> takes s n = false -> get e n = None ->
  bind_args s e (x ++ [(n, v)]) = match bind_args s e x with Ok (a, m) => Ok (a, m ++ [(n, v)]) | Err r => Err r end.
Proof.
  intros s e x n v M T G. unfold bind_args. rewrite M. cbn [negb andb].
  assert (E1 : existsb (fun kv => has (x ++ [(n, v)]) (fst kv)) e = existsb (fun kv => has x (fst kv)) e).
  { pose proof (get_none_in _ _ G) as N. clear G. induction e as [|kv e IH]; [reflexivity|]. cbn [existsb]. rewrite IH by (intros k Hk; apply N; now right). f_equal.
    unfold has. rewrite get_app. destruct (get x (fst kv)); [reflexivity|]. cbn. destruct (String.eqb_spec (fst kv) n); [|reflexivity]. elim (N kv (or_introl eq_refl)). assumption. }
  rewrite E1. destruct (existsb (fun kv => has x (fst kv)) e); [reflexivity|].
  assert (Gt : forall p, In p (s_params s) -> get (e ++ x ++ [(n, v)]) (fst p) = get (e ++ x) (fst p)).
  { intros p Hp. rewrite !get_app. destruct (get e (fst p)); [reflexivity|]. destruct (get x (fst p)); [reflexivity|]. cbn. destruct (String.eqb_spec (fst p) n) as [Q|]; [|reflexivity].
    exfalso. unfold takes in T. assert (existsb (fun p => String.eqb n (fst p)) (s_params s) = true) as C by (apply existsb_exists; exists p; split; [exact Hp|rewrite Q; apply String.eqb_refl]). congruence. }
  assert (E2 : forall l, (forall p, In p l -> In p (s_params s)) -> existsb (fun p : string * option pv => match snd p with None => negb (has (e ++ x ++ [(n, v)]) (fst p)) | Some _ => false end) l =
     existsb (fun p => match snd p with None => negb (has (e ++ x) (fst p)) | Some _ => false end) l).
  { induction l as [|p l IH]; intros L; [reflexivity|]. cbn [existsb]. rewrite IH by (intros q Hq; apply L; now right). f_equal. destruct (snd p); [reflexivity|]. unfold has. rewrite Gt; [reflexivity|apply L; now left]. }
  rewrite E2 by auto. match goal with |- (if ?c then _ else _) = _ => destruct c; [reflexivity|] end. f_equal. f_equal.
  - apply map_ext_in. intros p Hp. now rewrite Gt.
  - rewrite app_assoc, filter_app. cbn. now rewrite T.
Qed.
Lemma takes_wavelet : forall n, takes (run_sig WAVELET) n = true -> n = "self" \/ In n (options_of WAVELET).
Proof. intros n H. unfold takes in H. apply existsb_exists in H as (p & Hp & Q). apply String.eqb_eq in Q. subst n. cbn in Hp. cbn. each_kv Hp; auto 20. Qed.
Lemma chosen_heap : forall A B (m : task A) (k k' : A -> task B) w, (forall a w1, m w = (w1, Ok a) -> k a w1 = k' a w1) -> thent m k w = thent m k' w.
Proof. intros A B m k k' w H. unfold thent. destruct (m w) as [w1 [a|r]] eqn:E; [now apply H|reflexivity]. Qed.
Lemma swallowed : forall py o e x w n v, ~ In n (options_of WAVELET) -> n <> "self" -> get e n = None -> chosen (e ++ x) "verbose" (VBool false) = VBool false ->
  run py WAVELET o e (x ++ [(n, v)]) w = run py WAVELET o e x w.
Proof.
  intros py o e x w n v N Q G V. unfold run. assert (T : takes (run_sig WAVELET) n = false).
  { destruct (takes (run_sig WAVELET) n) eqn:T; [|reflexivity]. apply takes_wavelet in T as [T|T]; contradiction. }
  unfold thent at 1. unfold thent at 7. unfold lift. rewrite bind_extra; [|reflexivity|exact T|cbn; destruct (String.eqb_spec n "self"); [contradiction|exact G]].
  destruct (bind_args (run_sig WAVELET) (self :: e) x) as [[a m]|r] eqn:B; [|reflexivity]. cbn [fst snd].
  assert (Va : arg a "verbose" = VBool false).
  { destruct (bind_ok_args _ _ _ _ _ B) as (Ba & _). unfold arg. rewrite Ba. unfold chosen in V. cbn. destruct (get (e ++ x) "verbose"); congruence. }
  rewrite Va. reflexivity.
Qed.
(** A name of the code's own in convolve_kwargs *)
Lemma convolve_refused : forall py o e x w r n, chosen (e ++ x) "convolve_kwargs" (VDict 0) = VDict r -> In n ["normalize_kernel"; "fftn"; "ifftn"; "nan_treatment"; "preserve_nan"] ->
  get (nth r (heap w) []) n <> None -> snd (run py WAVELET o e x w) = Err TypeError.
Proof.
  intros py o e x w r n C Hn G. unfold run. unfold thent at 1. unfold lift. destruct (bind_args (run_sig WAVELET) (self :: e) x) as [[a m]|q] eqn:B; [|apply bind_only_type in B; now subst q]. cbn [fst snd].
  destruct (bind_args (compute_sig WAVELET) (self :: compute_args WAVELET a) []) as [[ca cm]|q] eqn:Bc; [|pose proof (bind_only_type _ _ _ _ Bc) as ->; rewrite (thent_err _ _ _ _ _ _ _ (step_err o (compute_name WAVELET) _ _ _ w _ Bc)); reflexivity].
  rewrite (thent_run _ _ _ _ _ _ _ (step_run _ _ _ _ _ _ _ _ Bc)). cbn [fst].
  assert (Ac : arg ca "convolve_kwargs" = VDict r).
  { pose proof (transform_gets WAVELET o e x a m ca cm B Bc "convolve_kwargs" (VDict 0)) as T. cbn [e_args] in T. unfold arg. rewrite T by (cbn; auto). exact C. }
  unfold thent at 1. unfold convolve. rewrite Ac. unfold mapping at 1. rewrite (thent_run _ _ _ _ _ _ _ eq_refl). cbn [heap].
  rewrite (thent_err _ _ _ _ _ (mk_w (heap w) (steps w ++ [ev o (compute_name WAVELET) ca cm])) TypeError); [reflexivity|]. apply step_err.
  each_kv Hn.
  - apply (bind_twice _ _ _ ("normalize_kernel", VBool false)); [cbn; auto|exact G].
  - eapply (bind_twice _ _ _ ("fftn", _)); [cbn; auto|exact G].
  - eapply (bind_twice _ _ _ ("ifftn", _)); [cbn; auto 6|exact G].
  - apply (bind_twice _ _ _ ("nan_treatment", VStr "fill")); [cbn; auto 10|exact G].
  - apply (bind_twice _ _ _ ("preserve_nan", VBool true)); [cbn; auto 10|exact G].
Qed.
(** A name nothing takes, in fit_kwargs *)
Lemma ignored : forall py k o w r n v, nth 0 (heap w) [] = [] -> nth r (heap w) [] = [(n, v)] -> ~ In n fit_explicit -> n <> "bootstrap_kwargs" ->
  exists w', run py k o [("fit_kwargs", VDict r)] [] w = (w', Ok tt) /\ new_calls w w' o "fit_model" [].
Proof.
  intros py k o w r n v H0 Hr N Nb. assert (O : options_in (heap w) [("fit_kwargs", VDict r)] "fit_kwargs" = [(n, v)]) by (cbn; exact Hr).
  destruct (run_takes py k o [("fit_kwargs", VDict r)] [] w H0) as (w' & S1 & _).
  - intros kv [<-|[]]. destruct k; cbn; auto 20.
  - reflexivity.
  - now exists r.
  - intros m Hm. cbn [app]. rewrite O. cbn. destruct (String.eqb_spec m n) as [->|]; [contradiction|reflexivity].
  - exists 0. cbn [app]. rewrite O. unfold chosen. cbn [get]. destruct (String.eqb_spec "bootstrap_kwargs" n); [congruence|]. split; [reflexivity|]. now rewrite H0.
  - intros _. exists 0. split; [reflexivity|]. intros m _. now rewrite H0.
  - exists w'. split; [exact S1|]. now apply (segmented _ _ _ _ _ _ _ _ S1 H0).
Qed.

(** ** The distances *)
Lemma ran_before : forall w w1 w' k o opts o' evs, o <> o' -> steps w1 = steps w ++ evs -> (forall c, In c evs -> e_of c = o') -> heap w1 = heap w -> ran_with w1 w' k o opts -> ran_with w w' k o opts.
Proof.
  intros w w1 w' k o opts o' evs N E F H ((c & C1 & C2) & (c' & D1 & D2 & D3)). split; [exists c|exists c'].
  - split; [now apply (calls_before w w1 w' o _ _ o' evs)|exact C2].
  - split; [now apply (calls_before w w1 w' o _ _ o' evs)|]. rewrite <- H. auto.
Qed.
Lemma ran_after : forall w w1 w' k o opts o' evs, o <> o' -> steps w' = steps w1 ++ evs -> (forall c, In c evs -> e_of c = o') -> ran_with w w1 k o opts -> ran_with w w' k o opts.
Proof.
  intros w w1 w' k o opts o' evs N E F ((c & C1 & C2) & (c' & D1 & D2)). split; [exists c|exists c']; (split; [now apply (calls_after w w1 w' o _ _ o' evs)|assumption]).
Qed.
Lemma ran_build : forall w w1 w' k o opts c, steps w1 = steps w ++ [c] -> In (e_fun c) ["DeltaVariance"; "Wavelet"] -> heap w1 = heap w -> ran_with w1 w' k o opts -> ran_with w w' k o opts.
Proof.
  intros w w1 w' k o opts c E N H ((d & C1 & C2) & (d' & D1 & D2 & D3)). assert (N' : e_fun c <> compute_name k /\ e_fun c <> fit_name k) by (destruct k; each_kv N; split; discriminate).
  split; [exists d|exists d'].
  - split; [now apply (calls_build w w1 w' o _ _ c)|exact C2].
  - split; [now apply (calls_build w w1 w' o _ _ c)|]. rewrite <- H. auto.
Qed.
Lemma run_of : forall py k o e x w w' u, run py k o e x w = (w', Ok u) -> heap w' = heap w /\ exists evs, steps w' = steps w ++ evs /\ forall c, In c evs -> e_of c = o.
Proof.
  intros py k o e x w w' u H. destruct (run_trace _ _ _ _ _ _ _ _ H) as (a & am & ca & cm & va & vm & d & rf & fa & fm & tail & _ & _ & _ & _ & _ & _ & Hh & E & F & _). split; [exact Hh|].
  eexists. split; [exact E|]. intros c I. apply in_app_or in I as [I|I]; [each_kv I; reflexivity|]. rewrite Forall_forall in F. now apply F.
Qed.

Definition one_asked (f : task unit) (k : kind) (i : nat) (again : bool) (opts : list dict -> dict) : Prop :=
  forall w w' u, nth 0 (heap w) [] = [] -> f w = (w', Ok u) -> heap w' = heap w /\ (exists evs, steps w' = steps w ++ evs /\ forall c, In c evs -> e_of c = S i) /\ as_asked w w' k i again (opts (heap w)).
Lemma asked_run : forall py k i e r, one_asked (kd <~ mapping (VDict r) ; run py k (S i) e kd) k i true (fun h => e ++ nth r h []).
Proof.
  intros py k i e r w w' u H0 H. apply thent_ok in H as (w1 & d & M & H). apply mapping_ok in M as (-> & r' & Q & ->). injection Q as <-. destruct (run_of _ _ _ _ _ _ _ _ H) as [Hh Ev].
  split; [exact Hh|]. split; [exact Ev|]. exact (run_reaches _ _ _ _ _ _ _ _ H H0).
Qed.
Lemma asked_build : forall cls opts f k i o, In cls ["DeltaVariance"; "Wavelet"] -> one_asked f k i true o -> one_asked (_ <~ object_of (S i) cls opts Raw ; f) k i true o.
Proof.
  intros cls opts f k i o Hc F w w' u H0 H. apply thent_ok in H as (w1 & [] & B & H). destruct (object_ok _ _ _ _ _ _ _ B) as (Hh & _ & _ & E). specialize (E eq_refl).
  rewrite <- Hh in H0. destruct (F w1 w' u H0 H) as (H1 & (evs & E1 & F1) & A). split; [congruence|]. split.
  - exists (ev (S i) cls opts [] :: evs). rewrite E1, E, <- app_assoc. split; [reflexivity|]. intros c [<-|I]; [reflexivity|now apply F1].
  - rewrite <- Hh. exact (ran_build w w1 w' k (S i) _ _ E Hc Hh A).
Qed.
Lemma asked_ret : forall k i opts, one_asked (ret tt) k i false opts.
Proof.
  intros k i opts w w' u _ H. injection H as <-. split; [reflexivity|]. split; [exists []; split; [now rewrite app_nil_r|contradiction]|]. intros evs E. rewrite <- (app_nil_r (steps w)) in E at 1. apply app_inv_head in E. subst evs. contradiction.
Qed.
Lemma asked_pair : forall f g k a1 a2 o1 o2 w w' u, one_asked f k 0 a1 o1 -> one_asked g k 1 a2 o2 -> nth 0 (heap w) [] = [] -> thent f (fun _ => g) w = (w', Ok u) ->
  as_asked w w' k 0 a1 (o1 (heap w)) /\ as_asked w w' k 1 a2 (o2 (heap w)).
Proof.
  intros f g k a1 a2 o1 o2 w w' u F G H0 H. apply thent_ok in H as (w1 & v & H1 & H2). destruct (F _ _ _ H0 H1) as (Hh & (e1 & E1 & O1) & A1). rewrite <- Hh in H0.
  destruct (G _ _ _ H0 H2) as (Hh2 & (e2 & E2 & O2) & A2). split.
  - destruct a1; cbn [as_asked] in *.
    + apply (ran_after w w1 w' k 1 _ 2 e2); auto.
    + intros evs E c I Q. rewrite E2, E1, <- app_assoc in E. apply app_inv_head in E. subst evs. apply in_app_or in I as [I|I]; [exact (A1 _ E1 c I Q)|]. rewrite (O2 c I) in Q. discriminate.
  - destruct a2; cbn [as_asked] in *.
    + rewrite Hh in A2. apply (ran_before w w1 w' k 2 _ 1 e1); auto.
    + intros evs E c I Q. rewrite E2, E1, <- app_assoc in E. apply app_inv_head in E. subst evs. apply in_app_or in I as [I|I]; [rewrite (O1 c I) in Q; discriminate|exact (A2 _ E2 c I Q)].
Qed.
Lemma first_asked : forall py d wt dm lg r, one_asked (delta_first py d wt dm lg (VDict r)) DELTA 0 (to_run d) (fun h => nth r h []).
Proof.
  intros py d wt dm lg r. unfold delta_first. destruct d as [|f s].
  - apply asked_build; [now left|]. exact (asked_run py DELTA 0 [] r).
  - destruct s; cbn [negb]; [destruct f; cbn [negb to_run]|destruct f]; [apply asked_ret|exact (asked_run py DELTA 0 [] r)..].
Qed.
Lemma second_asked : forall py d wt dm lg r r2, d <> Obj false true \/ r2 = r -> one_asked (delta_second py d wt dm lg (VDict r) (VDict r2)) DELTA 1 (to_run d) (fun h => nth r2 h []).
Proof.
  intros py d wt dm lg r r2 C. unfold delta_second. destruct d as [|f s].
  - apply asked_build; [now left|]. exact (asked_run py DELTA 1 [] r2).
  - destruct s; cbn [negb]; [destruct f; cbn [negb to_run]|destruct f]; [apply asked_ret| |exact (asked_run py DELTA 1 [] r2)..]. destruct C as [C| ->]; [congruence|]. exact (asked_run py DELTA 1 [] r).
Qed.
Lemma delta_asked : forall py d1 d2 w1 w2 dm l1 l2 r kw2 w w' u, nth 0 (heap w) [] = [] -> (kw2 = VNone \/ exists r2, kw2 = VDict r2 /\ d2 <> Obj false true) ->
  delta_distance py d1 d2 w1 w2 dm l1 l2 true (VDict r) kw2 w = (w', Ok u) ->
  as_asked w w' DELTA 0 (to_run d1) (dict_for (heap w) (VDict r) kw2 0) /\ as_asked w w' DELTA 1 (to_run d2) (dict_for (heap w) (VDict r) kw2 1).
Proof.
  intros py d1 d2 w1 w2 dm l1 l2 r kw2 w w' u H0 C H. unfold delta_distance in H.
  assert (H' : (_ <~ delta_first py d1 w1 dm l1 (VDict r) ; delta_second py d2 w2 dm l2 (VDict r) (match kw2 with VNone => VDict r | _ => kw2 end)) w = (w', Ok u)) by (destruct d1, d2; first [exact H|discriminate]).
  clear H. destruct C as [->|(r2 & -> & N)].
  - exact (asked_pair _ _ _ _ _ _ _ _ _ _ (first_asked py d1 w1 dm l1 r) (second_asked py d2 w2 dm l2 r r (or_intror eq_refl)) H0 H').
  - exact (asked_pair _ _ _ _ _ _ _ _ _ _ (first_asked py d1 w1 dm l1 r) (second_asked py d2 w2 dm l2 r r2 (or_introl N)) H0 H').
Qed.
(** An unfitted second object with the common lags gets the dictionary of the first *)
Lemma delta_wrong : forall py f1 s1 w1 w2 dm l1 l2 r r2 w w' u, nth 0 (heap w) [] = [] -> delta_distance py (Obj f1 s1) (Obj false true) w1 w2 dm l1 l2 true (VDict r) (VDict r2) w = (w', Ok u) ->
  as_asked w w' DELTA 1 true (nth r (heap w) []).
Proof.
  intros py f1 s1 w1 w2 dm l1 l2 r r2 w w' u H0 H. apply (asked_pair _ _ _ _ _ _ _ _ _ _ (first_asked py (Obj f1 s1) w1 dm l1 r) (asked_run py DELTA 1 [] r) H0 H).
Qed.
(** Documented options are accepted *)
Definition one_fine (f : task unit) (h : list dict) : Prop := forall w, heap w = h -> exists w', f w = (w', Ok tt) /\ heap w' = h.
Lemma fine_run : forall py k o e r h, nth 0 h [] = [] -> documented h k e (nth r h []) -> one_fine (kd <~ mapping (VDict r) ; run py k o e kd) h.
Proof. intros py k o e r h H0 D w Hw. subst h. unfold mapping. rewrite (thent_run _ _ _ _ _ _ _ eq_refl). exact (run_accepts py k o e _ w H0 D). Qed.
Lemma fine_build : forall o cls opts d f h, one_fine f h -> one_fine (_ <~ object_of o cls opts d ; f) h.
Proof. intros o cls opts d f h F w Hw. destruct (object_run o cls opts d w) as (w1 & B & Hh & _). rewrite (thent_run _ _ _ _ _ _ _ B). apply F. congruence. Qed.
Lemma fine_ret : forall h, one_fine (ret tt) h.
Proof. intros h w Hw. now exists w. Qed.
Lemma fine_pair : forall f g h, one_fine f h -> one_fine g h -> one_fine (_ <~ f ; g) h.
Proof. intros f g h F G w Hw. destruct (F w Hw) as (w1 & E1 & H1). rewrite (thent_run _ _ _ _ _ _ _ E1). now apply G. Qed.
Lemma delta_fine : forall py d1 d2 w1 w2 dm l1 l2 r kw2 w, nth 0 (heap w) [] = [] -> both_data_or_objects d1 d2 -> (kw2 = VNone \/ exists r2, kw2 = VDict r2) ->
  documented (heap w) DELTA [] (dict_for (heap w) (VDict r) kw2 0) -> documented (heap w) DELTA [] (dict_for (heap w) (VDict r) kw2 1) ->
  exists w', delta_distance py d1 d2 w1 w2 dm l1 l2 true (VDict r) kw2 w = (w', Ok tt) /\ heap w' = heap w.
Proof.
  intros py d1 d2 w1 w2 dm l1 l2 r kw2 w H0 B C D1 D2.
  assert (Q : exists r2, (match kw2 with VNone => VDict r | _ => kw2 end) = VDict r2 /\ nth r2 (heap w) [] = dict_for (heap w) (VDict r) kw2 1) by (destruct C as [->|(r2 & ->)]; [exists r|exists r2]; split; reflexivity).
  destruct Q as (r2 & Q & E2). rewrite <- E2 in D2. change (dict_for (heap w) (VDict r) kw2 0) with (nth r (heap w) []) in D1.
  assert (F : one_fine (_ <~ delta_first py d1 w1 dm l1 (VDict r) ; delta_second py d2 w2 dm l2 (VDict r) (VDict r2)) (heap w)).
  { apply fine_pair; unfold delta_first, delta_second; [destruct d1 as [|[] []]|destruct d2 as [|[] []]]; cbn [negb]; try apply fine_build; first [apply fine_ret|now apply fine_run]. }
  destruct (F w eq_refl) as (w' & S1 & H1). exists w'. split; [|exact H1]. unfold delta_distance. rewrite Q. destruct d1, d2; try contradiction; exact S1.
Qed.
(** The wavelet transform *)
Lemma wavelet_one_asked : forall py i d sc lo hi r, one_asked (wavelet_one py i d sc lo hi (VDict r)) WAVELET i (needs_run d) (fun h => [("xlow", limit_at lo i); ("xhigh", limit_at hi i)] ++ nth r h []).
Proof.
  intros py i d sc lo hi r. unfold wavelet_one. destruct d as [|f width]; cbn [needs_run].
  - apply asked_build; [right; now left|]. apply asked_run.
  - destruct f; cbn [negb object_of].
    + intros w w' u H0 H. rewrite (thent_run _ _ _ _ _ _ _ eq_refl) in H. exact (asked_ret WAVELET i (fun h => [("xlow", limit_at lo i); ("xhigh", limit_at hi i)] ++ nth r h []) w w' u H0 H).
    + intros w w' u H0 H. rewrite (thent_run _ _ _ _ _ _ _ eq_refl) in H. exact (asked_run py WAVELET i _ r w w' u H0 H).
Qed.
Lemma wavelet_asked : forall py d1 d2 sc low high r kw2 w w' u, nth 0 (heap w) [] = [] -> (kw2 = VNone \/ exists r2, kw2 = VDict r2) ->
  wavelet_distance py d1 d2 sc low high (VDict r) kw2 w = (w', Ok u) ->
  exists lo hi, (forall i, i < 2 -> limit_for low i = Some (lo i) /\ limit_for high i = Some (hi i)) /\
  as_asked w w' WAVELET 0 (needs_run d1) ([("xlow", lo 0); ("xhigh", hi 0)] ++ dict_for (heap w) (VDict r) kw2 0) /\
  as_asked w w' WAVELET 1 (needs_run d2) ([("xlow", lo 1); ("xhigh", hi 1)] ++ dict_for (heap w) (VDict r) kw2 1).
Proof.
  intros py d1 d2 sc low high r kw2 w w' u H0 C H. unfold wavelet_distance in H. apply thent_ok in H as (w1 & [lo hi] & L & H). unfold lift in L. assert (L' : check_fit_limits low high = Ok (lo, hi) /\ w1 = w) by (split; congruence).
  destruct L' as [L' ->]. exists (limit_at lo), (limit_at hi). split; [intros i Hi; now apply limits_at|]. cbn [fst snd] in H.
  assert (Q : exists r2, (match kw2 with VNone => VDict r | _ => kw2 end) = VDict r2 /\ nth r2 (heap w) [] = dict_for (heap w) (VDict r) kw2 1) by (destruct C as [->|(r2 & ->)]; [exists r|exists r2]; split; reflexivity).
  destruct Q as (r2 & Q & E2). rewrite Q in H. rewrite <- E2.
  exact (asked_pair _ _ _ _ _ _ _ _ _ _ (wavelet_one_asked py 0 d1 sc lo hi r) (wavelet_one_asked py 1 d2 sc lo hi r2) H0 H).
Qed.
Lemma wavelet_fine : forall py d1 d2 sc low high r kw2 w lo hi, nth 0 (heap w) [] = [] -> (kw2 = VNone \/ exists r2, kw2 = VDict r2) ->
  (forall i, i < 2 -> limit_for low i = Some (lo i) /\ limit_for high i = Some (hi i)) ->
  (forall i, i < 2 -> documented (heap w) WAVELET [("xlow", lo i); ("xhigh", hi i)] (dict_for (heap w) (VDict r) kw2 i)) ->
  exists w', wavelet_distance py d1 d2 sc low high (VDict r) kw2 w = (w', Ok tt) /\ heap w' = heap w.
Proof.
  intros py d1 d2 sc low high r kw2 w lo hi H0 C Li D. destruct (Li 0) as [A1 A2]; [lia|]. destruct (limits_ok low high 0) as (l & h & L); [eauto|eauto|].
  assert (Lh : forall i, i < 2 -> lo i = limit_at l i /\ hi i = limit_at h i) by (intros i Hi; destruct (limits_at _ _ _ _ i L Hi); destruct (Li i Hi); split; congruence).
  unfold wavelet_distance. rewrite (thent_run _ _ _ _ w w (l, h)) by (unfold lift; now rewrite L). cbn [fst snd].
  assert (Q : exists r2, (match kw2 with VNone => VDict r | _ => kw2 end) = VDict r2 /\ nth r2 (heap w) [] = dict_for (heap w) (VDict r) kw2 1) by (destruct C as [->|(r2 & ->)]; [exists r|exists r2]; split; reflexivity).
  destruct Q as (r2 & Q & E2). rewrite Q. pose proof (D 0 ltac:(lia)) as D1. pose proof (D 1 ltac:(lia)) as D2. rewrite <- E2 in D2. change (dict_for (heap w) (VDict r) kw2 0) with (nth r (heap w) []) in D1.
  destruct (Lh 0 ltac:(lia)) as [P1 P2]. destruct (Lh 1 ltac:(lia)) as [P3 P4]. rewrite P1, P2 in D1. rewrite P3, P4 in D2.
  assert (F : forall i d r, documented (heap w) WAVELET [("xlow", limit_at l i); ("xhigh", limit_at h i)] (nth r (heap w) []) -> one_fine (wavelet_one py i d sc l h (VDict r)) (heap w)).
  { intros i d q Dq. unfold wavelet_one. apply fine_build. destruct (needs_run d); [now apply fine_run|apply fine_ret]. }
  exact (fine_pair _ _ _ (F 0 d1 r D1) (F 1 d2 r2 D2) w eq_refl).
Qed.
Lemma limits_twice : forall py d1 d2 sc low high r kw2 w, limits_fine low high -> needs_run d1 = true ->
  get (nth r (heap w) []) "xlow" <> None \/ get (nth r (heap w) []) "xhigh" <> None -> snd (wavelet_distance py d1 d2 sc low high (VDict r) kw2 w) = Err TypeError.
Proof.
  intros py d1 d2 sc low high r kw2 w [L1 L2] N G. destruct (limits_ok low high 0 L1 L2) as (lo & hi & L). unfold wavelet_distance. rewrite (thent_run _ _ _ _ w w (lo, hi)) by (unfold lift; now rewrite L). cbn [fst snd].
  destruct (object_run 1 "Wavelet" [("scales", sc)] d1 w) as (w1 & B & Hh & _).
  assert (E : wavelet_one py 0 d1 sc lo hi (VDict r) w = (w1, Err TypeError)).
  { unfold wavelet_one. rewrite (thent_run _ _ _ _ _ _ _ B), N. unfold mapping. rewrite (thent_run _ _ _ _ _ _ _ eq_refl). unfold run. rewrite (thent_err _ _ _ _ w1 w1 TypeError); [reflexivity|]. unfold lift. f_equal. rewrite Hh.
    destruct G as [G|G]; [apply (bind_twice _ _ _ ("xlow", limit_at lo 0))|apply (bind_twice _ _ _ ("xhigh", limit_at hi 0))]; try exact G; cbn; auto. }
  now rewrite (thent_err _ _ _ _ _ _ _ E).
Qed.
