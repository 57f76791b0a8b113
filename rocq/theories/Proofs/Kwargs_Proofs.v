(** Proofs about the keyword arguments of run and of the distance constructors. *)
From Coq Require Import Reals String List Arith Bool Lia.
From Verif Require Import Lib.PyBase Model.FitUtils Model.Kwargs Spec.Kwargs.
Import ListNotations.
Local Open Scope string_scope.
Local Open Scope list_scope.

(** ** The monad *)
Lemma thent_ok : forall A B (m : task A) (k : A -> task B) w w' b, thent m k w = (w', Ok b) ->
  exists w1 a, m w = (w1, Ok a) /\ k a w1 = (w', Ok b).
Proof.
  intros A B m k w w' b H. unfold thent in H. destruct (m w) as [w1 [a|e]]; [|discriminate].
  now exists w1, a.
Qed.
Lemma thent_run : forall A B (m : task A) (k : A -> task B) w w1 a, m w = (w1, Ok a) -> thent m k w = k a w1.
Proof. intros A B m k w w1 a H. unfold thent. now rewrite H. Qed.
Lemma thent_err : forall A B (m : task A) (k : A -> task B) w w1 e, m w = (w1, Err e) -> thent m k w = (w1, Err e).
Proof. intros A B m k w w1 e H. unfold thent. now rewrite H. Qed.

(** ** Dictionaries *)
Lemma get_app : forall d1 d2 k, get (d1 ++ d2) k = match get d1 k with Some v => Some v | None => get d2 k end.
Proof.
  induction d1 as [|[k' v] d1 IH]; intros d2 k; [reflexivity|]. cbn. destruct (String.eqb k k'); [reflexivity|apply IH].
Qed.
Lemma get_filter : forall (P : string -> bool) d k,
  get (filter (fun kv => P (fst kv)) d) k = if P k then get d k else None.
Proof.
  intros P d k. induction d as [|[k' v] d IH]; [now destruct (P k)|]. cbn [filter fst].
  destruct (P k') eqn:E.
  - cbn [get]. destruct (String.eqb_spec k k'); [subst; now rewrite E|exact IH].
  - cbn [get]. destruct (String.eqb_spec k k'); [subst; rewrite E in IH; rewrite E; exact IH|exact IH].
Qed.
Lemma get_without : forall k d k', get (without k d) k' = if String.eqb k k' then None else get d k'.
Proof. intros. unfold without. rewrite (get_filter (fun x => negb (String.eqb k x))). now destruct (String.eqb k k'). Qed.
Lemma get_map : forall (F : string * option pv -> pv) l k,
  get (map (fun p => (fst p, F p)) l) k = option_map F (find (fun p => String.eqb k (fst p)) l).
Proof.
  intros F l k. induction l as [|[n d] l IH]; [reflexivity|]. cbn. destruct (String.eqb k n); [reflexivity|exact IH].
Qed.
Lemma get_in : forall d k v, get d k = Some v -> exists kv, In kv d /\ fst kv = k.
Proof.
  induction d as [|[k' v'] d IH]; intros k v H; [discriminate|]. cbn in H. destruct (String.eqb_spec k k').
  - exists (k', v'). cbn. split; [now left|now subst].
  - destruct (IH _ _ H) as [kv [Hi He]]. exists kv. split; [now right|exact He].
Qed.
Lemma in_get : forall d kv, In kv d -> has d (fst kv) = true.
Proof.
  induction d as [|[k' v'] d IH]; intros [k v] H; [destruct H|]. unfold has. cbn. destruct (String.eqb_spec k k'); [reflexivity|].
  destruct H as [E|H]; [injection E as E1 E2; now subst|]. exact (IH (k, v) H).
Qed.
Lemma keys_get : forall d l k, keys_in d l -> get d k <> None -> In k l.
Proof.
  intros d l k H G. destruct (get d k) as [v|] eqn:E; [|now elim G]. destruct (get_in _ _ _ E) as [kv [Hi He]].
  rewrite <- He. now apply H.
Qed.
Lemma keys_not : forall d l k, keys_in d l -> ~ In k l -> get d k = None.
Proof. intros d l k H N. destruct (get d k) as [v|] eqn:E; [|reflexivity]. elim N. apply (keys_get d); [exact H|now rewrite E]. Qed.

Lemma look_put : forall h r d r', look (put h r d) r' = if Nat.eqb r' r then (if Nat.ltb r (length h) then d else []) else look h r'.
Proof.
  intros h. induction h as [|x h IH]; intros r d r'.
  - unfold look. cbn. destruct r'; destruct (Nat.eqb _ r); reflexivity.
  - destruct r as [|r]; destruct r' as [|r']; try reflexivity. cbn [put]. unfold look in *. cbn [nth length].
    rewrite (IH r d r'). reflexivity.
Qed.
Lemma look_out : forall h r, length h <= r -> look h r = [].
Proof. intros h r H. now apply nth_overflow. Qed.
Lemma look_app : forall h d r, r < length h -> look (h ++ [d]) r = look h r.
Proof. intros. unfold look. now apply app_nth1. Qed.
Lemma look_fresh : forall h d, look (h ++ [d]) (length h) = d.
Proof. intros. unfold look. rewrite app_nth2 by lia. now rewrite Nat.sub_diag. Qed.

(** ** Binding *)
Lemma bind_ok_args : forall s e x a m, bind_args s e x = Ok (a, m) ->
  (forall k, get a k = option_map (fun p => match get (e ++ x) (fst p), snd p with Some v, _ => v | None, Some d => d | None, None => VNone end)
                                  (find (fun p => String.eqb k (fst p)) (s_params s))) /\
  (forall k, get m k = if takes s k then None else get (e ++ x) k) /\
  (forall kv, In kv e -> get x (fst kv) = None) /\
  (s_more s = false -> forall kv, In kv (e ++ x) -> takes s (fst kv) = true).
Proof.
  intros s e x a m H. unfold bind_args in H.
  destruct (existsb (fun kv => has x (fst kv)) e) eqn:E1; [discriminate|].
  destruct (negb (s_more s) && existsb (fun kv => negb (takes s (fst kv))) (e ++ x))%bool eqn:E2; [discriminate|].
  match type of H with (if ?c then _ else _) = _ => destruct c eqn:E3; [discriminate|] end.
  injection H as <- <-. repeat split.
  - intros k. apply get_map.
  - intros k. rewrite (get_filter (fun n => negb (takes s n))). now destruct (takes s k).
  - intros kv Hi. destruct (get x (fst kv)) eqn:G; [|reflexivity]. exfalso.
    assert (T : existsb (fun kv => has x (fst kv)) e = true) by (apply existsb_exists; exists kv; split; [exact Hi|unfold has; now rewrite G]).
    congruence.
  - intros Hm kv Hi. rewrite Hm in E2. cbn in E2. destruct (takes s (fst kv)) eqn:T; [reflexivity|]. exfalso.
    assert (T2 : existsb (fun kv => negb (takes s (fst kv))) (e ++ x) = true)
      by (apply existsb_exists; exists kv; split; [exact Hi|now rewrite T]).
    congruence.
Qed.
Lemma bind_twice : forall s e x kv, In kv e -> get x (fst kv) <> None -> bind_args s e x = Err TypeError.
Proof.
  intros s e x kv Hi G. unfold bind_args.
  assert (T : existsb (fun kv => has x (fst kv)) e = true)
    by (apply existsb_exists; exists kv; split; [exact Hi|unfold has; destruct (get x (fst kv)); congruence]).
  now rewrite T.
Qed.
Lemma bind_unknown : forall s e x kv, s_more s = false -> In kv (e ++ x) -> takes s (fst kv) = false -> bind_args s e x = Err TypeError.
Proof.
  intros s e x kv Hm Hi G. unfold bind_args. destruct (existsb (fun kv => has x (fst kv)) e); [reflexivity|].
  assert (T2 : existsb (fun kv => negb (takes s (fst kv))) (e ++ x) = true)
    by (apply existsb_exists; exists kv; split; [exact Hi|now rewrite G]).
  now rewrite Hm, T2.
Qed.
Lemma bind_succeeds : forall s e x,
  (forall kv, In kv e -> get x (fst kv) = None) ->
  (s_more s = true \/ forall kv, In kv (e ++ x) -> takes s (fst kv) = true) ->
  (forall p, In p (s_params s) -> snd p = None -> has e (fst p) = true) ->
  exists a m, bind_args s e x = Ok (a, m).
Proof.
  intros s e x H1 H2 H3. unfold bind_args.
  assert (E1 : existsb (fun kv => has x (fst kv)) e = false).
  { apply not_true_iff_false. intros T. apply existsb_exists in T as [kv [Hi Hh]]. unfold has in Hh. rewrite (H1 kv Hi) in Hh. discriminate. }
  assert (E2 : (negb (s_more s) && existsb (fun kv => negb (takes s (fst kv))) (e ++ x))%bool = false).
  { destruct H2 as [->|H2]; [reflexivity|]. apply andb_false_intro2. apply not_true_iff_false. intros T.
    apply existsb_exists in T as [kv [Hi Hh]]. rewrite (H2 kv Hi) in Hh. discriminate. }
  rewrite E1, E2.
  match goal with |- context [if ?c then _ else _] => destruct c eqn:E3 end.
  - exfalso. apply existsb_exists in E3 as [p [Hi Hp]]. destruct (snd p) eqn:Sp; [discriminate|].
    assert (T := H3 p Hi Sp). unfold has in *. rewrite get_app in Hp. destruct (get e (fst p)); discriminate.
  - eauto.
Qed.
Lemma bind_only_type : forall s e x r, bind_args s e x = Err r -> r = TypeError.
Proof.
  intros s e x r. unfold bind_args.
  repeat match goal with |- context [if ?c then _ else _] => destruct c end; congruence.
Qed.

(** ** Steps *)
Lemma step_ok : forall o f s e x w w' a m, step o f s e x w = (w', Ok (a, m)) ->
  bind_args s e x = Ok (a, m) /\ w' = mk_w (heap w) (steps w ++ [ev o f a m]).
Proof.
  intros o f s e x w w' a m H. unfold step in H. destruct (bind_args s e x) as [[a' m']|]; [|discriminate].
  injection H as <- <- <-. now split.
Qed.
Lemma step_run : forall o f s e x w a m, bind_args s e x = Ok (a, m) ->
  step o f s e x w = (mk_w (heap w) (steps w ++ [ev o f a m]), Ok (a, m)).
Proof. intros. unfold step. now rewrite H. Qed.
Lemma step_err : forall o f s e x w r, bind_args s e x = Err r -> step o f s e x w = (w, Err r).
Proof. intros. unfold step. now rewrite H. Qed.

(** Dictionaries lose at most some keys *)
Definition drops (h h' : list dict) (l : list string) : Prop :=
  length h' = length h /\ forall r k, get (look h' r) k = get (look h r) k \/ (In k l /\ get (look h' r) k = None).
Lemma drops_refl : forall h l, drops h h l.
Proof. intros. split; [reflexivity|now left]. Qed.
Lemma put_length : forall h r d, length (put h r d) = length h.
Proof. induction h as [|x h IH]; intros [|r] d; cbn; auto. Qed.
Lemma drop_given_ok : forall v k w w' u, drop_given v k w = (w', Ok u) ->
  steps w' = steps w /\ drops (heap w) (heap w') [k] /\
  exists r, v = VDict r /\
    (get (look (heap w) r) k = None -> heap w' = heap w) /\
    (get (look (heap w) r) k <> None -> get (look (heap w) r) k <> Some VNone ->
       forall r', look (heap w') r' = if Nat.eqb r' r then without k (look (heap w) r) else look (heap w) r') /\
    (get (look (heap w) r) k = Some VNone -> heap w' = heap w).
Proof.
  intros v k w w' u H. unfold drop_given in H. destruct v; try discriminate.
  assert (Keep : (w, Ok tt) = (w', Ok u) -> steps w' = steps w /\ drops (heap w) (heap w') [k] /\ heap w' = heap w).
  { intros E. injection E as <-. repeat split. apply drops_refl. }
  destruct (get (look (heap w) r) k) as [x|] eqn:G.
  2: { destruct (Keep H) as [H1 [H2 H3]]. split; [exact H1|]. split; [exact H2|]. exists r. repeat split; auto; congruence. }
  assert (N : r < length (heap w)).
  { destruct (Nat.ltb_spec r (length (heap w))); [assumption|]. rewrite look_out in G by assumption. discriminate. }
  assert (Drop : w' = mk_w (put (heap w) r (without k (look (heap w) r))) (steps w) ->
     steps w' = steps w /\ drops (heap w) (heap w') [k] /\
     forall r', look (heap w') r' = if Nat.eqb r' r then without k (look (heap w) r) else look (heap w) r').
  { intros ->. cbn [heap steps]. split; [reflexivity|].
    assert (V : forall r', look (put (heap w) r (without k (look (heap w) r))) r' = if Nat.eqb r' r then without k (look (heap w) r) else look (heap w) r').
    { intros r'. rewrite look_put. destruct (Nat.eqb r' r); [|reflexivity]. now destruct (Nat.ltb_spec r (length (heap w))); [|lia]. }
    split; [|exact V]. split; [apply put_length|]. intros r' k'. rewrite V. destruct (Nat.eqb_spec r' r); [|now left]. subst r'.
    rewrite get_without. destruct (String.eqb_spec k k'); [right; split; [now left|reflexivity]|now left]. }
  destruct x; try (assert (E : w' = mk_w (put (heap w) r (without k (look (heap w) r))) (steps w)) by congruence;
    destruct (Drop E) as [H1 [H2 H3]]; split; [exact H1|]; split; [exact H2|]; exists r; repeat split; auto; congruence).
  destruct (Keep H) as [H1 [H2 H3]]. split; [exact H1|]. split; [exact H2|]. exists r. repeat split; auto; congruence.
Qed.
Lemma mapping_ok : forall v w w' d, mapping v w = (w', Ok d) -> w' = w /\ exists r, v = VDict r /\ d = look (heap w) r.
Proof. intros v w w' d H. unfold mapping in H. destruct v; try discriminate. injection H as <- <-. split; [reflexivity|]. now exists r. Qed.

(** ** The steps of run *)
Definition fft_calls (o : nat) (more : dict) (evs : list event) : Prop :=
  forall x, In x evs -> e_of x = o /\
    (e_fun x = "rfft_to_fft" \/
     e_fun x = "rfftn" /\ get (e_args x) "threads" = None /\ get (e_more x) "threads" = None /\
     (forall k, In k ["a"; "threads"; "image"; "keep_rfft"; "use_pyfftw"] \/ get (e_more x) k = get more k)).
Lemma fft_calls_app : forall o m l1 l2, fft_calls o m l1 -> fft_calls o m l2 -> fft_calls o m (l1 ++ l2).
Proof. intros o m l1 l2 H1 H2 x Hx. apply in_app_or in Hx as [Hx|Hx]; auto. Qed.

Lemma rfft_ok : forall ins o e m w w' u, rfft_to_fft ins o e m w = (w', Ok u) ->
  (forall kv, In kv e -> In (fst kv) ["keep_rfft"; "use_pyfftw"; "threads"]) ->
  heap w' = heap w /\ exists evs, steps w' = steps w ++ evs /\ fft_calls o m evs.
Proof.
  intros ins o e m w w' u H He. unfold rfft_to_fft in H.
  apply thent_ok in H as [w1 [[a m'] [S1 H]]]. apply step_ok in S1 as [B ->]. cbn [heap steps fst snd] in H.
  destruct (bind_ok_args _ _ _ _ _ B) as [_ [Bm _]].
  assert (R : fft_calls o m [ev o "rfft_to_fft" a m']).
  { intros x [<-|[]]. cbn. split; [reflexivity|now left]. }
  destruct (truthy (heap w) (arg a "use_pyfftw") && ins)%bool.
  - apply thent_ok in H as [w2 [[a2 m2] [S2 H]]]. apply step_ok in S2 as [B2 ->]. cbn in H. injection H as <- _. cbn [heap steps].
    split; [reflexivity|]. exists ([ev o "rfft_to_fft" a m'] ++ [ev o "rfftn" a2 m2]). rewrite app_assoc. split; [reflexivity|].
    apply fft_calls_app; [exact R|]. intros x [<-|[]]. cbn [e_of e_fun e_args e_more]. split; [reflexivity|]. right. split; [reflexivity|].
    destruct (bind_ok_args _ _ _ _ _ B2) as [Ba2 [Bm2 _]]. split; [rewrite Ba2; reflexivity|].
    assert (G : forall k, In k ["a"; "threads"; "image"; "keep_rfft"; "use_pyfftw"] \/ get m2 k = get m k).
    { intros k. rewrite Bm2. cbn [takes rfftn_sig s_params existsb fst get app]. rewrite orb_false_r.
      destruct (String.eqb_spec k "a"); [left; cbn; auto|].
      rewrite Bm. cbn [takes rfft_sig s_params existsb fst].
      destruct (String.eqb_spec k "image"); [left; cbn; auto|]. destruct (String.eqb_spec k "keep_rfft"); [left; cbn; auto|].
      destruct (String.eqb_spec k "use_pyfftw"); [left; cbn; auto 6|]. destruct (String.eqb_spec k "threads"); [left; cbn; auto|].
      cbn [orb]. right. rewrite get_app. cbn [get]. destruct (String.eqb_spec k "image"); [contradiction|].
      destruct (get e k) as [v|] eqn:G; [|reflexivity]. exfalso. destruct (get_in _ _ _ G) as [kv [Hi <-]].
      destruct (He kv Hi) as [|[|[|[]]]]; congruence. }
    split; [|exact G]. rewrite Bm2. cbn [takes rfftn_sig s_params existsb fst get app String.eqb]. cbn. rewrite Bm. reflexivity.
  - cbn in H. injection H as <- _. cbn [heap steps]. split; [reflexivity|]. exists [ev o "rfft_to_fft" a m']. now split.
Qed.

Lemma compute_ok : forall ins k o e x w w' u, compute_pspec ins k o e x w = (w', Ok u) ->
  heap w' = heap w /\ exists a m ffts, bind_args compute_sig (self :: e) x = Ok (a, m) /\
    steps w' = steps w ++ ev o "compute_pspec" a m :: ffts /\ fft_calls o m ffts.
Proof.
  intros ins k o e x w w' u H. unfold compute_pspec in H.
  apply thent_ok in H as [w1 [[a m] [S1 H]]]. apply step_ok in S1 as [B ->]. cbn [fst snd] in H.
  assert (N : forall kv, In kv [("use_pyfftw", arg a "use_pyfftw"); ("threads", arg a "threads")] -> In (fst kv) ["keep_rfft"; "use_pyfftw"; "threads"]).
  { intros kv [<-|[<-|[]]]; cbn; auto. }
  apply thent_ok in H as [w2 [u2 [S2 H]]]. destruct (rfft_ok _ _ _ _ _ _ _ S2 N) as [Hh [evs [He Hf]]]. cbn [heap steps] in *.
  destruct k.
  1, 2: cbn in H; injection H as <- _; split; [exact Hh|]; exists a, m, evs; rewrite He, <- app_assoc; exact (conj B (conj eq_refl Hf)).
  destruct (rfft_ok _ _ _ _ _ _ _ H N) as [Hh2 [evs2 [He2 Hf2]]]. split; [congruence|]. exists a, m, (evs ++ evs2).
  rewrite He2, He, <- !app_assoc. split; [exact B|]. split; [reflexivity|]. now apply fft_calls_app.
Qed.
Lemma radial_ok : forall o x w w' u, compute_radial_pspec o x w = (w', Ok u) ->
  heap w' = heap w /\ exists a m a2 m2, bind_args radial_sig [self] x = Ok (a, m) /\
    bind_args pspec_sig [("psd2", VObj 0); ("return_stddev", VBool true); ("logspacing", arg a "logspacing"); ("max_bin", arg a "max_bin")] m = Ok (a2, m2) /\
    steps w' = steps w ++ [ev o "compute_radial_pspec" a m; ev o "pspec" a2 m2].
Proof.
  intros o x w w' u H. unfold compute_radial_pspec in H.
  apply thent_ok in H as [w1 [[a m] [S1 H]]]. apply step_ok in S1 as [B ->]. cbn [fst snd] in H.
  apply thent_ok in H as [w2 [[a2 m2] [S2 H]]]. apply step_ok in S2 as [B2 ->]. cbn [heap steps] in H. injection H as <- _.
  split; [reflexivity|]. exists a, m, a2, m2. cbn [steps]. rewrite <- app_assoc. now repeat split.
Qed.

Definition run_compute_args (a : dict) : dict :=
  [("apodize_kernel", arg a "apodize_kernel"); ("alpha", arg a "alpha"); ("beta", arg a "beta");
   ("beam_correct", arg a "beam_correct"); ("use_pyfftw", arg a "use_pyfftw"); ("threads", arg a "threads")].
Definition run_fit_args (a : dict) : dict :=
  [self; ("fit_unbinned", arg a "fit_unbinned"); ("low_cut", arg a "low_cut"); ("high_cut", arg a "high_cut")].

Lemma drops_trans : forall h1 h2 h3 l1 l2, drops h1 h2 l1 -> drops h2 h3 l2 -> drops h1 h3 (l1 ++ l2).
Proof.
  intros h1 h2 h3 l1 l2 [L1 D1] [L2 D2]. split; [congruence|]. intros r k.
  destruct (D2 r k) as [E2|[I2 E2]]; [|right; split; [apply in_or_app; now right|exact E2]].
  rewrite E2. destruct (D1 r k) as [E1|[I1 E1]]; [now left|right; split; [apply in_or_app; now left|exact E1]].
Qed.

(** The calls of a run that ends normally *)
Lemma run_trace : forall ins k o e x w w' u, run ins k o e x w = (w', Ok u) ->
  exists a am, bind_args run_sig (self :: e) x = Ok (a, am) /\
  drops (heap w) (heap w') ("threads" :: match k with MVC => [] | _ => ["fit_unbinned"] end) /\
  exists rp rr rf ca cm ffts ra rm pa pm fa fm f2,
    arg a "pyfftw_kwargs" = VDict rp /\ arg a "radial_pspec_kwargs" = VDict rr /\ arg a "fit_kwargs" = VDict rf /\
    bind_args compute_sig (self :: run_compute_args a) (look (heap w') rp) = Ok (ca, cm) /\
    fft_calls o cm ffts /\
    bind_args radial_sig [self] (look (heap w') rr) = Ok (ra, rm) /\
    bind_args pspec_sig [("psd2", VObj 0); ("return_stddev", VBool true); ("logspacing", arg ra "logspacing"); ("max_bin", arg ra "max_bin")] rm = Ok (pa, pm) /\
    bind_args fit_pspec_sig (run_fit_args a) (look (heap w') rf) = Ok (fa, fm) /\
    steps w' = steps w ++ ev o "compute_pspec" ca cm :: ffts ++ [ev o "compute_radial_pspec" ra rm; ev o "pspec" pa pm; ev o "fit_pspec" fa fm] ++ f2 /\
    (truthy (heap w') (arg a "fit_2D") = false -> f2 = []) /\
    (truthy (heap w') (arg a "fit_2D") = true -> exists rg ga gm, arg a "fit_2D_kwargs" = VDict rg /\
       bind_args fit_2Dpspec_sig [self; ("low_cut", arg a "low_cut"); ("high_cut", arg a "high_cut")] (look (heap w') rg) = Ok (ga, gm) /\
       f2 = [ev o "fit_2Dpspec" ga gm]).
Proof.
  intros ins k o e x w w' u H. unfold run in H. apply thent_ok in H as [w0 [[a am] [B H]]]. unfold lift in B. injection B as <- B.
  cbn [fst] in H. exists a, am. split; [exact B|]. clear B. unfold run_body in H.
  apply thent_ok in H as [w1 [u1 [D1 H]]]. destruct (drop_given_ok _ _ _ _ _ D1) as [S1 [Dr1 [rp [Ep _]]]].
  apply thent_ok in H as [w2 [u2 [D2 H]]].
  assert (T2 : steps w2 = steps w1 /\ drops (heap w1) (heap w2) match k with MVC => [] | _ => ["fit_unbinned"] end).
  { destruct k; try (destruct (drop_given_ok _ _ _ _ _ D2) as [S2 [Dr2 _]]; now split).
    unfold ret in D2. injection D2 as <- _. split; [reflexivity|apply drops_refl]. }
  destruct T2 as [S2 Dr2]. clear D2.
  apply thent_ok in H as [w3 [pk [M3 H]]]. apply mapping_ok in M3 as [-> [rp' [Ep' ->]]].
  assert (rp' = rp) as -> by congruence. clear Ep'.
  apply thent_ok in H as [w4 [u4 [C4 H]]]. destruct (compute_ok _ _ _ _ _ _ _ _ C4) as [H4 [ca [cm [ffts [Bc [S4 Hf]]]]]].
  apply thent_ok in H as [w5 [rk [M5 H]]]. apply mapping_ok in M5 as [-> [rr [Er ->]]].
  apply thent_ok in H as [w6 [u6 [R6 H]]]. destruct (radial_ok _ _ _ _ _ R6) as [H6 [ra [rm [pa [pm [Br [Bp S6]]]]]]].
  apply thent_ok in H as [w7 [fk [M7 H]]]. apply mapping_ok in M7 as [-> [rf [Ef ->]]].
  apply thent_ok in H as [w8 [[fa fm] [F8 H]]]. apply step_ok in F8 as [Bf ->]. cbn [heap steps] in H.
  assert (Hw : heap w' = heap w2 /\ exists f2, steps w' = (steps w6 ++ [ev o "fit_pspec" fa fm]) ++ f2 /\
    (truthy (heap w') (arg a "fit_2D") = false -> f2 = []) /\
    (truthy (heap w') (arg a "fit_2D") = true -> exists rg ga gm, arg a "fit_2D_kwargs" = VDict rg /\
       bind_args fit_2Dpspec_sig [self; ("low_cut", arg a "low_cut"); ("high_cut", arg a "high_cut")] (look (heap w') rg) = Ok (ga, gm) /\
       f2 = [ev o "fit_2Dpspec" ga gm])).
  { destruct (truthy (heap w6) (arg a "fit_2D")) eqn:T.
    - apply thent_ok in H as [w9 [gk [M9 H]]]. apply mapping_ok in M9 as [-> [rg [Eg ->]]]. cbn [heap] in H.
      apply thent_ok in H as [w10 [[ga gm] [F10 H]]]. apply step_ok in F10 as [Bg ->]. cbn [heap steps] in H. injection H as <- _. cbn [heap steps].
      split; [congruence|]. exists [ev o "fit_2Dpspec" ga gm]. split; [reflexivity|]. split; [congruence|]. intros _. exists rg, ga, gm. now repeat split.
    - injection H as <- _. cbn [heap steps]. split; [congruence|]. exists []. rewrite app_nil_r. split; [reflexivity|]. split; [reflexivity|congruence]. }
  destruct Hw as [Hw [f2 [Sf [N2 Y2]]]].
  split.
  { rewrite Hw. change ("threads" :: match k with MVC => [] | _ => ["fit_unbinned"] end) with (["threads"] ++ match k with MVC => [] | _ => ["fit_unbinned"] end).
    now apply (drops_trans _ (heap w1)). }
  exists rp, rr, rf, ca, cm, ffts, ra, rm, pa, pm, fa, fm, f2.
  assert (Q2 : heap w' = heap w4) by congruence. assert (Q6 : heap w' = heap w6) by congruence.
  split; [exact Ep|]. split; [exact Er|]. split; [exact Ef|]. split; [rewrite Hw; exact Bc|]. split; [exact Hf|].
  split; [rewrite Q2; exact Br|]. split; [exact Bp|]. split; [rewrite Q6; exact Bf|]. split; [|exact (conj N2 Y2)].
  rewrite Sf, S6, S4, S2, S1. cbn [app]. rewrite <- ?app_assoc. cbn [app]. rewrite <- ?app_assoc. reflexivity.
Qed.

(** ** Which options reach which step *)
Definition run_table : table :=
  compute_from_run ++ fit_from_run ++
  [("verbose", VBool false); ("pyfftw_kwargs", VDict 0); ("radial_pspec_kwargs", VDict 0); ("fit_kwargs", VDict 0); ("fit_2D", VBool true);
   ("fit_2D_kwargs", VDict 0); ("xunit", VObj 3); ("save_name", VNone); ("use_wavenumber", VBool false)].
Ltac each_in H := cbn in H; repeat (destruct H as [H|H]; [|]); try contradiction.
Lemma run_arg : forall e x a am k v, bind_args run_sig (self :: e) x = Ok (a, am) -> In (k, v) run_table -> arg a k = chosen (e ++ x) k v.
Proof.
  intros e x a am k v B Hin. destruct (bind_ok_args _ _ _ _ _ B) as [Ba _]. unfold arg, chosen.
  each_in Hin; injection Hin as <- <-; rewrite Ba; cbn; destruct (get (e ++ x) _); reflexivity.
Qed.
Lemma options_look : forall h opts k r, nth 0 h [] = [] -> chosen opts k (VDict 0) = VDict r -> options_in h opts k = look h r.
Proof.
  intros h opts k r H0 H. unfold chosen in H. unfold options_in, look. destruct (get opts k) as [v|].
  - now subst v.
  - assert (r = 0) as -> by congruence. symmetry. exact H0.
Qed.
Lemma drops_get : forall h h' l r k, drops h h' l -> ~ In k l -> get (look h' r) k = get (look h r) k.
Proof. intros h h' l r k [_ D] N. destruct (D r k) as [E|[I _]]; [exact E|contradiction]. Qed.

Lemma filter_evs : forall o f (c : event) ffts (l : list event), (forall x, In x ffts -> e_fun x <> f) ->
  filter (fun e => Nat.eqb (e_of e) o && String.eqb (e_fun e) f) (c :: ffts ++ l) =
  (if Nat.eqb (e_of c) o && String.eqb (e_fun c) f then [c] else []) ++ filter (fun e => Nat.eqb (e_of e) o && String.eqb (e_fun e) f) l.
Proof.
  intros o f c ffts l H. cbn [filter].
  assert (E : filter (fun e => Nat.eqb (e_of e) o && String.eqb (e_fun e) f) (ffts ++ l) = filter (fun e => Nat.eqb (e_of e) o && String.eqb (e_fun e) f) l).
  { rewrite filter_app. replace (filter _ ffts) with (@nil event); [reflexivity|]. symmetry. induction ffts as [|y ffts IH]; [reflexivity|]. cbn.
    destruct (String.eqb_spec (e_fun y) f) as [Q|Q]; [elim (H y (or_introl eq_refl)); exact Q|]. rewrite andb_false_r. apply IH. intros z Hz. apply H. now right. }
  rewrite E. now destruct (Nat.eqb (e_of c) o && String.eqb (e_fun c) f)%bool.
Qed.
Lemma ffts_names : forall o m ffts f, fft_calls o m ffts -> f <> "rfft_to_fft" -> f <> "rfftn" -> forall x, In x ffts -> e_fun x <> f.
Proof. intros o m ffts f H N1 N2 x Hx E. destruct (H x Hx) as [_ [Q|[Q _]]]; congruence. Qed.

Section Reach.
Variables (ins : bool) (k : stat) (o : nat) (e x : dict) (w w' : world) (u : unit).
Hypothesis Run : run ins k o e x w = (w', Ok u).
Hypothesis Empty : nth 0 (heap w) [] = [].

Lemma fit_reach : exists c, new_calls w w' o "fit_pspec" [c] /\ gets c fit_from_run (e ++ x) /\
  gets c fit_from_dict (options_in (heap w) (e ++ x) "fit_kwargs").
Proof.
  destruct (run_trace _ _ _ _ _ _ _ _ Run) as (a & am & B & D & rp & rr & rf & ca & cm & ffts & ra & rm & pa & pm & fa & fm & f2 & Ep & Er & Ef & Bc & Hf & Br & Bp & Bf & St & N2 & Y2).
  exists (ev o "fit_pspec" fa fm). split; [|split].
  - eexists. split; [exact St|]. rewrite filter_evs by (apply (ffts_names o cm); [exact Hf|discriminate|discriminate]).
    cbn. rewrite Nat.eqb_refl. cbn. f_equal.
    destruct (truthy (heap w') (arg a "fit_2D")) eqn:T; [|now rewrite (N2 eq_refl)].
    destruct (Y2 eq_refl) as (rg & ga & gm & _ & _ & ->). cbn. now rewrite andb_false_r.
  - destruct (bind_ok_args _ _ _ _ _ Bf) as [Ba _]. intros n v Hin. cbn [e_args].
    assert (R : arg a n = chosen (e ++ x) n v) by (apply (run_arg e x a am); [exact B|unfold run_table; apply in_or_app; right; apply in_or_app; now left]).
    rewrite <- R. each_in Hin; injection Hin as <- <-; rewrite Ba; reflexivity.
  - assert (O := options_look (heap w) (e ++ x) "fit_kwargs" rf Empty).
    rewrite (run_arg e x a am "fit_kwargs" (VDict 0) B) in Ef by (cbn; auto 20). rewrite (O Ef).
    destruct (bind_ok_args _ _ _ _ _ Bf) as [Ba _]. intros n v Hin. cbn [e_args]. unfold chosen.
    rewrite <- (drops_get _ _ _ rf n D) by (each_in Hin; injection Hin as <- <-; destruct k; cbn; intuition discriminate).
    each_in Hin; injection Hin as <- <-; rewrite Ba; cbn; destruct (get (look (heap w') rf) _); reflexivity.
Qed.
Lemma compute_reach : exists c, new_calls w w' o "compute_pspec" [c] /\ gets c compute_from_run (e ++ x).
Proof.
  destruct (run_trace _ _ _ _ _ _ _ _ Run) as (a & am & B & D & rp & rr & rf & ca & cm & ffts & ra & rm & pa & pm & fa & fm & f2 & Ep & Er & Ef & Bc & Hf & Br & Bp & Bf & St & N2 & Y2).
  exists (ev o "compute_pspec" ca cm). split.
  - eexists. split; [exact St|]. rewrite filter_evs by (apply (ffts_names o cm); [exact Hf|discriminate|discriminate]).
    cbn. rewrite Nat.eqb_refl. cbn. f_equal.
    destruct (truthy (heap w') (arg a "fit_2D")) eqn:T; [|now rewrite (N2 eq_refl)].
    destruct (Y2 eq_refl) as (rg & ga & gm & _ & _ & ->). cbn. now rewrite andb_false_r.
  - destruct (bind_ok_args _ _ _ _ _ Bc) as [Ba _]. intros n v Hin. cbn [e_args].
    assert (R : arg a n = chosen (e ++ x) n v) by (apply (run_arg e x a am); [exact B|unfold run_table; apply in_or_app; now left]).
    rewrite <- R. each_in Hin; injection Hin as <- <-; rewrite Ba; reflexivity.
Qed.
Lemma radial_reach : exists c, new_calls w w' o "pspec" [c] /\ gets c radial_from_dict (options_in (heap w) (e ++ x) "radial_pspec_kwargs") /\
  get (e_args c) "return_stddev" = Some (VBool true).
Proof.
  destruct (run_trace _ _ _ _ _ _ _ _ Run) as (a & am & B & D & rp & rr & rf & ca & cm & ffts & ra & rm & pa & pm & fa & fm & f2 & Ep & Er & Ef & Bc & Hf & Br & Bp & Bf & St & N2 & Y2).
  exists (ev o "pspec" pa pm). split; [|split].
  - eexists. split; [exact St|]. rewrite filter_evs by (apply (ffts_names o cm); [exact Hf|discriminate|discriminate]).
    cbn. rewrite Nat.eqb_refl. cbn. f_equal.
    destruct (truthy (heap w') (arg a "fit_2D")) eqn:T; [|now rewrite (N2 eq_refl)].
    destruct (Y2 eq_refl) as (rg & ga & gm & _ & _ & ->). cbn. now rewrite andb_false_r.
  - assert (O := options_look (heap w) (e ++ x) "radial_pspec_kwargs" rr Empty).
    rewrite (run_arg e x a am "radial_pspec_kwargs" (VDict 0) B) in Er by (cbn; auto 20). rewrite (O Er).
    destruct (bind_ok_args _ _ _ _ _ Bp) as [Ba _]. destruct (bind_ok_args _ _ _ _ _ Br) as [Ra [Rm _]].
    intros n v Hin. cbn [e_args]. unfold chosen.
    rewrite <- (drops_get _ _ _ rr n D) by (each_in Hin; injection Hin as <- <-; destruct k; cbn; intuition discriminate).
    each_in Hin; injection Hin as <- <-; rewrite Ba; cbn; unfold arg; rewrite ?Ra, ?Rm; cbn; destruct (get (look (heap w') rr) _); reflexivity.
  - destruct (bind_ok_args _ _ _ _ _ Bp) as [Ba _]. cbn [e_args]. now rewrite Ba.
Qed.
Lemma fit2D_reach : forall b, chosen (e ++ x) "fit_2D" (VBool true) = VBool b ->
  if b then exists c, new_calls w w' o "fit_2Dpspec" [c] /\ gets c fit2D_from_run (e ++ x) /\
                      gets c fit2D_from_dict (options_in (heap w) (e ++ x) "fit_2D_kwargs")
  else new_calls w w' o "fit_2Dpspec" [].
Proof.
  intros b Hb.
  destruct (run_trace _ _ _ _ _ _ _ _ Run) as (a & am & B & D & rp & rr & rf & ca & cm & ffts & ra & rm & pa & pm & fa & fm & f2 & Ep & Er & Ef & Bc & Hf & Br & Bp & Bf & St & N2 & Y2).
  assert (A2 := run_arg e x a am "fit_2D" (VBool true) B). rewrite A2, Hb in N2, Y2 by (cbn; auto 20). cbn [truthy] in N2, Y2.
  destruct b.
  - destruct (Y2 eq_refl) as (rg & ga & gm & Eg & Bg & ->).
    exists (ev o "fit_2Dpspec" ga gm). split; [|split].
    + eexists. split; [exact St|]. rewrite filter_evs by (apply (ffts_names o cm); [exact Hf|discriminate|discriminate]).
      cbn. rewrite !andb_false_r. cbn. now rewrite Nat.eqb_refl.
    + destruct (bind_ok_args _ _ _ _ _ Bg) as [Ba _]. intros n v Hin. cbn [e_args].
      assert (R : arg a n = chosen (e ++ x) n v).
      { apply (run_arg e x a am); [exact B|]. each_in Hin; injection Hin as <- <-; cbn; auto 20. }
      rewrite <- R. each_in Hin; injection Hin as <- <-; rewrite Ba; reflexivity.
    + assert (O := options_look (heap w) (e ++ x) "fit_2D_kwargs" rg Empty).
      rewrite (run_arg e x a am "fit_2D_kwargs" (VDict 0) B) in Eg by (cbn; auto 20). rewrite (O Eg).
      destruct (bind_ok_args _ _ _ _ _ Bg) as [Ba _]. intros n v Hin. cbn [e_args]. unfold chosen.
      rewrite <- (drops_get _ _ _ rg n D) by (each_in Hin; injection Hin as <- <-; destruct k; cbn; intuition discriminate).
      each_in Hin; injection Hin as <- <-; rewrite Ba; cbn; destruct (get (look (heap w') rg) _); reflexivity.
  - eexists. split; [exact St|]. rewrite filter_evs by (apply (ffts_names o cm); [exact Hf|discriminate|discriminate]).
    rewrite (N2 eq_refl). cbn. now rewrite !andb_false_r.
Qed.
Lemma threads_lost : forall evs c, steps w' = steps w ++ evs -> In c evs -> e_fun c = "rfftn" ->
  get (e_args c) "threads" = None /\ get (e_more c) "threads" = None.
Proof.
  intros evs c He Hc Hn.
  destruct (run_trace _ _ _ _ _ _ _ _ Run) as (a & am & B & D & rp & rr & rf & ca & cm & ffts & ra & rm & pa & pm & fa & fm & f2 & Ep & Er & Ef & Bc & Hf & Br & Bp & Bf & St & N2 & Y2).
  rewrite St in He. apply app_inv_head in He. subst evs.
  destruct Hc as [<-|Hc]; [discriminate|]. apply in_app_or in Hc as [Hc|Hc].
  - destruct (Hf c Hc) as [_ [Q|[_ [Q1 [Q2 _]]]]]; [congruence|now split].
  - apply in_app_or in Hc as [Hc|Hc]; [destruct Hc as [<-|[<-|[<-|[]]]]; discriminate|].
    destruct (truthy (heap w') (arg a "fit_2D")) eqn:T; [|rewrite (N2 eq_refl) in Hc; destruct Hc].
    destruct (Y2 eq_refl) as (rg & ga & gm & _ & _ & E2). rewrite E2 in Hc. destruct Hc as [<-|[]]; discriminate.
Qed.
End Reach.
