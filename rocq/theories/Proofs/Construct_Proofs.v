From Coq Require Import Reals List Arith Bool Lia Lra.
From Verif Require Import Lib.PyBase Lib.Fl Model.InputData Model.Construct Spec.Construct.
Import ListNotations.
Local Open Scope R_scope.

(** ** The store *)
Lemma read_app st l r : (r < length st)%nat -> read (st ++ l) r = read st r.
Proof. intros H. unfold read. now apply app_nth1. Qed.
Lemma read_new st v : read (st ++ [v]) (length st) = v.
Proof. unfold read. rewrite app_nth2 by lia. now rewrite Nat.sub_diag. Qed.
Lemma write_length st r v : length (write st r v) = length st.
Proof. revert r. induction st as [|x st IH]; intros [|r]; cbn; auto. Qed.
Lemma read_write_other st r v k : r <> k -> read (write st r v) k = read st k.
Proof.
  unfold read. revert r k. induction st as [|x st IH]; intros [|r] [|k] H; cbn; auto; first [lia | apply IH; lia].
Qed.
Lemma read_write_same st r v : (r < length st)%nat -> read (write st r v) r = v.
Proof.
  unfold read. revert r. induction st as [|x st IH]; intros [|r] H; cbn in *; first [lia | reflexivity | apply IH; lia].
Qed.
Lemma write_same st r : write st r (read st r) = st.
Proof. unfold read. revert r. induction st as [|x st IH]; intros [|r]; cbn; auto. now rewrite IH. Qed.

(** ** Calls that keep the first [n] arrays (but [w]) *)
Definition keeps {A} (n : nat) (w : option nat) (Q : A -> Prop) (m : call A) : Prop :=
  forall st, (n <= length st)%nat ->
    (forall r, (r < n)%nat -> Some r <> w -> read (fst (m st)) r = read st r) /\
    (length st <= length (fst (m st)))%nat /\
    match snd (m st) with Ok a => Q a | Err _ => True end.

Lemma keeps_ret {A} n w (Q : A -> Prop) a : Q a -> keeps n w Q (ret a).
Proof. intros H st Hn. cbn. auto. Qed.
Lemma keeps_raise {A} n w (Q : A -> Prop) e : keeps n w Q (@raise A e).
Proof. intros st Hn. cbn. auto. Qed.
Lemma keeps_then {A B} n w (P : A -> Prop) (Q : B -> Prop) m k :
  keeps n w P m -> (forall a, P a -> keeps n w Q (k a)) -> keeps n w Q (thenc m k).
Proof.
  intros Hm Hk st Hn. destruct (Hm st Hn) as [H1 [H2 H3]]. unfold thenc.
  destruct (m st) as [st' [a|e]] eqn:E; cbn [fst snd] in *.
  - destruct (Hk a H3 st' ltac:(lia)) as [K1 [K2 K3]]. split; [|split; [lia|exact K3]].
    intros r Hr Hw. rewrite K1 by auto. now apply H1.
  - auto.
Qed.
Lemma keeps_weaken {A} n w (P Q : A -> Prop) m : keeps n w P m -> (forall a, P a -> Q a) -> keeps n w Q m.
Proof.
  intros H I st Hn. destruct (H st Hn) as [H1 [H2 H3]]. split; [exact H1|]. split; [exact H2|].
  destruct (snd (m st)); auto.
Qed.

Lemma keeps_new n w v : keeps n w (fun c => (n <= c)%nat) (new v).
Proof.
  intros st Hn. cbn. split; [|split; [rewrite app_length; lia|lia]].
  intros r Hr _. apply read_app. lia.
Qed.
Lemma keeps_copy n w r : keeps n w (fun c => (n <= c)%nat) (copy r).
Proof.
  intros st Hn. cbn. split; [|split; [rewrite app_length; lia|lia]].
  intros k Hr _. apply read_app. lia.
Qed.
Lemma keeps_isnan n w r : keeps n w (fun _ => True) (isnan r).
Proof. intros st Hn. cbn. auto. Qed.
Lemma keeps_set_zero n w r mask : (n <= r)%nat \/ w = Some r -> keeps n w (fun _ => True) (set_zero r mask).
Proof.
  intros H st Hn. unfold set_zero. destruct (negb _); cbn; auto.
  rewrite write_length. split; [|split; auto]. intros k Hk Hw. apply read_write_other.
  intros ->. destruct H as [H|H]; [lia|congruence].
Qed.
(** the same when nothing is blank *)
Lemma zero_where_false mask l : length mask = length l -> (forall b, In b mask -> b = false) -> zero_where mask l = l.
Proof.
  revert l. induction mask as [|b mask IH]; intros [|v l] L H; try discriminate; [reflexivity|].
  unfold zero_where in *. cbn [map2]. rewrite (H b) by (now left). rewrite IH; [reflexivity|cbn in L; lia|].
  intros c Hc. apply H. now right.
Qed.
Lemma keeps_set_zero_false n w r mask : (forall b, In b mask -> b = false) -> keeps n w (fun _ => True) (set_zero r mask).
Proof.
  intros H st Hn. unfold set_zero. destruct (negb (length mask =? length (read st r))%nat) eqn:E; cbn; auto.
  apply negb_false_iff, Nat.eqb_eq in E. rewrite (zero_where_false _ _ E H), write_same. auto.
Qed.

Lemma keeps_input n w src nh : keeps n w (fun _ => True) (input src nh false).
Proof.
  intros st Hn. unfold input, input_data.
  destruct src; cbn; destruct nh; cbn; auto; try (destruct l as [|a [|b [|c l]]]; cbn; auto).
Qed.
Lemma keeps_set_data n w d : keeps n w (fun _ => True) (set_data d).
Proof. destruct d; [apply keeps_ret; exact I|apply keeps_raise|apply keeps_raise]. Qed.
Lemma keeps_set_header n w d : keeps n w (fun _ => True) (set_header d).
Proof. destruct d; [apply keeps_raise|apply keeps_ret; exact I|apply keeps_raise]. Qed.

Ltac kp := first
  [ apply keeps_input | apply keeps_set_data | apply keeps_set_header | apply keeps_isnan
  | (eapply keeps_weaken; [apply keeps_new|intros; exact I]) | (apply keeps_ret; exact I) | apply keeps_raise ].

Lemma keeps_input_data_header n w src q h : keeps n w (fun _ => True) (input_data_header src q h).
Proof.
  unfold input_data_header.
  assert (K : keeps n w (fun _ => True) (dh <~ input src false false ; r <~ set_data (fst dh) ;
    match snd dh with Some h => n0 <~ set_header h ; ret (r, n0) | None => raise OtherError end)).
  { eapply keeps_then; [kp|]. intros dh _. eapply keeps_then; [kp|]. intros r _.
    destruct (snd dh); [|kp]. eapply keeps_then; [kp|]. intros; kp. }
  destruct h as [h|].
  - eapply keeps_then; [kp|]. intros dh _. eapply keeps_then; [kp|]. intros r _. eapply keeps_then; [kp|]. intros; kp.
  - destruct src; try exact K. destruct q; [exact K|kp].
Qed.

Lemma keeps_zero_blanks n w r : keeps n w (fun _ => True) (zero_blanks r).
Proof.
  unfold zero_blanks. eapply keeps_then; [kp|]. intros m _. destruct (existsb _ m); [|kp].
  eapply keeps_then; [apply keeps_copy|]. intros c Hc. eapply keeps_then; [apply keeps_set_zero; now left|].
  intros; kp.
Qed.

(** Blanks are zeroed: the value of the result. *)
Lemma existsb_id_false m : existsb (fun b : bool => b) m = false -> forall b, In b m -> b = false.
Proof.
  induction m as [|a m IH]; intros H b Hb; [destruct Hb|]. cbn in H. apply orb_false_iff in H. destruct H as [Ha Hm].
  destruct Hb as [<-|Hb]; [exact Ha|now apply IH].
Qed.

Lemma zero_where_isnan l : zero_where (map is_nan l) l = blanks_to_zero l.
Proof.
  induction l as [|v l IH]; [reflexivity|]. unfold zero_where, blanks_to_zero in *. cbn [map map2]. rewrite IH.
  destruct v; reflexivity.
Qed.
Lemma no_blanks_same l : existsb (fun b : bool => b) (map is_nan l) = false -> blanks_to_zero l = l.
Proof.
  intros H. rewrite <- zero_where_isnan. apply zero_where_false; [now rewrite map_length|]. now apply existsb_id_false.
Qed.

Lemma zero_blanks_value r st : (r < length st)%nat -> exists st' r', zero_blanks r st = (st', Ok r') /\
  (r' < length st')%nat /\ (length st <= length st')%nat /\ read st' r' = blanks_to_zero (read st r) /\
  (forall k, (k < length st)%nat -> read st' k = read st k) /\
  (r' = r \/ (length st <= r')%nat).
Proof.
  intros Hr. unfold zero_blanks, thenc, isnan. destruct (existsb (fun b : bool => b) (map is_nan (read st r))) eqn:E.
  - unfold copy, set_zero. rewrite read_new, map_length, Nat.eqb_refl. cbn [negb]. rewrite zero_where_isnan.
    eexists. exists (length st). split; [reflexivity|]. rewrite write_length, app_length. cbn [length].
    split; [lia|]. split; [lia|]. split; [apply read_write_same; rewrite app_length; cbn; lia|]. split; [|now right].
    intros k Hk. rewrite read_write_other by lia. apply read_app. lia.
  - exists st, r. split; [reflexivity|]. rewrite no_blanks_same by exact E. auto 10.
Qed.

(** ** Inputs unchanged *)
Theorem construct_unchanged c st : (forall s q h w, c <> CPowerSpectrum s q h (Some w)) -> unchanged st (fst (construct c st)).
Proof.
  intros N r Hr.
  assert (K : keeps (length st) None (fun _ => True) (construct c)).
  { destruct c as [s q h w|s q h|s q h|s q h|s|s h s1 s2|s q h w|s q h|s q h|s q h|s q h w|s|s|s m w]; cbn [construct].
    - destruct w as [w|]; [now destruct (N s q h w)|]. unfold power_spectrum.
      eapply keeps_then; [apply keeps_input_data_header|]. intros rh _. eapply keeps_then; [apply keeps_zero_blanks|].
      intros r1 _. eapply keeps_then; [kp|]. intros; kp.
    - unfold with_header. eapply keeps_then; [apply keeps_input_data_header|]. intros rh _. eapply keeps_then; [apply keeps_zero_blanks|]. intros; kp.
    - unfold with_header. eapply keeps_then; [apply keeps_input_data_header|]. intros rh _. eapply keeps_then; [apply keeps_zero_blanks|]. intros; kp.
    - unfold with_header. eapply keeps_then; [apply keeps_input_data_header|]. intros rh _. eapply keeps_then; [apply keeps_zero_blanks|]. intros; kp.
    - unfold bispectrum. eapply keeps_then; [kp|]. intros dh _. eapply keeps_then; [kp|]. intros r0 _. eapply keeps_then; [apply keeps_zero_blanks|]. intros; kp.
    - unfold mvc. eapply keeps_then.
      { instantiate (1 := fun _ => True). destruct h as [h|].
        - eapply keeps_then; [kp|]. intros dh _. eapply keeps_then; [kp|]. intros; kp.
        - set (body := (dh <~ input s false false ; match snd dh with Some h => n <~ set_header h ; ret (fst dh, Some n) | None => raise OtherError end)).
          assert (B : keeps (length st) None (fun _ => True) body).
          { unfold body. eapply keeps_then; [kp|]. intros dh _. destruct (snd dh); [|kp]. eapply keeps_then; [kp|]. intros; kp. }
          assert (W : keeps (length st) None (fun _ => True) (dh <~ input s true false ; ret (fst dh, @None nat))).
          { eapply keeps_then; [kp|]. intros; kp. }
          intros s0 Hn. destruct (B s0 Hn) as [B1 [B2 B3]]. destruct (body s0) as [s1' [a|e]] eqn:Eb; cbn [fst snd] in *; [auto|].
          destruct (W s1' ltac:(lia)) as [W1 [W2 W3]].
          destruct e; cbn [fst snd]; auto.
          split; [|split; [lia|exact W3]]. intros k Hk Hw. rewrite W1 by auto. now apply B1. }
      intros ch _. eapply keeps_then; [kp|]. intros c _. eapply keeps_then; [kp|]. intros m0 _. eapply keeps_then; [kp|]. intros m _.
      eapply keeps_then; [kp|]. intros lw _. eapply keeps_then; [kp|]. intros l _.
      intros s0 Hn. destruct (negb _); [cbn; auto|]. revert s0 Hn.
      eapply keeps_then; [kp|]. intros ic _. eapply keeps_then; [kp|]. intros im _. eapply keeps_then; [kp|]. intros il _.
      cbv zeta. destruct (existsb _ _); [|kp].
      eapply keeps_then; [apply keeps_copy|]. intros c' Hc. eapply keeps_then; [apply keeps_set_zero; now left|]. intros _ _.
      eapply keeps_then; [apply keeps_copy|]. intros m' Hm. eapply keeps_then; [apply keeps_set_zero; now left|]. intros _ _.
      eapply keeps_then; [apply keeps_copy|]. intros l' Hl. eapply keeps_then; [apply keeps_set_zero; now left|]. intros _ _. kp.
    - unfold delta_variance. eapply keeps_then; [apply keeps_input_data_header|]. intros rh _. eapply keeps_then.
      { instantiate (1 := fun _ => True). destruct w; [|kp]. eapply keeps_then; [kp|]. intros; kp. }
      intros w' _ s0 Hn. destruct (negb _); cbn; auto.
    - unfold as_given. eapply keeps_then; [apply keeps_input_data_header|]. intros; kp.
    - unfold as_given. eapply keeps_then; [apply keeps_input_data_header|]. intros; kp.
    - unfold as_given. eapply keeps_then; [apply keeps_input_data_header|]. intros; kp.
    - unfold stat_moments. eapply keeps_then; [apply keeps_input_data_header|]. intros rh _. eapply keeps_then.
      { instantiate (1 := fun _ => True). destruct w; [|kp]. eapply keeps_then; [kp|]. intros; kp. }
      intros; kp.
    - unfold genus. destruct s; (eapply keeps_then; [kp|]; intros dh _; eapply keeps_then; [kp|]; intros ? _;
        first [kp | destruct (snd dh); [eapply keeps_then; [kp|intros; kp]|kp]]).
    - unfold pca. eapply keeps_then; [kp|]. intros dh _. eapply keeps_then; [kp|]. intros r0 _.
      destruct (snd dh); [|kp]. eapply keeps_then; [kp|]. intros; kp.
    - unfold pdf. eapply keeps_then; [kp|]. intros dh _. eapply keeps_then; [kp|]. intros r0 _ s0 Hn. revert s0 Hn.
      intros s0. cbv zeta. set (keep := map _ (read s0 r0)). clearbody keep. revert s0. change (keeps (length st) None (fun _ : obj => True)
        (d <~ new (fun st => select keep (read st r0)) ;
         match w with
         | None => ret (mk_obj d [] None)
         | Some ws =>
             wh <~ input ws true false ; w <~ set_data (fst wh) ;
             fun st =>
               if negb (Nat.eqb (length keep) (length (read st w))) then (st, Err IndexError)
               else (kw <~ new (fun st => select keep (read st w)) ;
                     fun st =>
                       let fin := map is_fin (read st kw) in
                       (d' <~ new (fun st => map2 fmul (select fin (read st d)) (select fin (read st kw))) ;
                        ret (mk_obj d' [kw] None)) st) st
         end)).
      eapply keeps_then; [kp|]. intros d _. destruct w as [ws|]; [|kp].
      eapply keeps_then; [kp|]. intros wh _. eapply keeps_then; [kp|]. intros w1 _ s0 Hn.
      destruct (negb _); [cbn; auto|]. revert s0 Hn. eapply keeps_then; [kp|]. intros kw _ s0. cbv zeta.
      set (fin := map is_fin (read s0 kw)). clearbody fin. revert s0.
      change (keeps (length st) None (fun _ : obj => True) (d' <~ new (fun st => map2 fmul (select fin (read st d)) (select fin (read st kw))) ;
                        ret (mk_obj d' [kw] None))).
      eapply keeps_then; [kp|]. intros; kp. }
  destruct (K st (le_n _)) as [K1 _]. apply K1; [exact Hr|discriminate].
Qed.

(** ** Weights *)
Lemma input_data_header_rule src q h st : input_data_header src q h st = (st, header_rule src q h).
Proof.
  unfold input_data_header, header_rule, thenc, input, input_data.
  destruct h as [[r|n|]|]; destruct src as [r0 h0|r0 h0|r0 h0|l|r0|]; try destruct q; cbn; try reflexivity;
  destruct l as [|[a|a|] [|[b|b|] [|c l]]]; cbn; reflexivity.
Qed.

Lemma header_rule_exists st src q h r n : source_exists st src -> header_rule src q h = Ok (r, n) ->
  (r < length st)%nat /\ array_of src = Some r.
Proof.
  intros E H. assert (A : array_of src = Some r).
  { unfold header_rule in H. destruct h as [[k|k|]|]; try discriminate.
    - destruct (array_of src); [|discriminate]. now injection H as -> _.
    - assert (X : match array_of src, header_of src with Some r, Some h => Ok (r, h) | _, _ => Err TypeError end = Ok (r, n)).
      { destruct src; try exact H. destruct q; [exact H|discriminate]. }
      destruct (array_of src) as [r0|]; [|discriminate]. destruct (header_of src); [|discriminate]. now injection X as -> _. }
  split; [|exact A]. destruct src; cbn in *; try (injection A as ->; exact E).
  - destruct l as [|[a|a|] [|b [|c l]]]; try discriminate. injection A as ->. apply E. now left.
  - discriminate.
Qed.

Lemma weighted_blanks v w : blankable v -> blankable w ->
  fmul (match v with NaN => Fin 0 | _ => v end) (match w with NaN => Fin 0 | _ => w end) = weighted v w.
Proof.
  destruct v, w; try contradiction; intros _ _; cbn; f_equal; ring.
Qed.
Lemma map2_weighted a b : Forall blankable a -> Forall blankable b ->
  map2 fmul (blanks_to_zero a) (blanks_to_zero b) = map2 weighted a b.
Proof.
  intros A. revert b. induction A as [|v a Hv A IH]; intros b B; [reflexivity|].
  destruct B as [|w b Hw B]; [reflexivity|]. unfold blanks_to_zero in *. cbn [map map2]. rewrite IH by exact B. f_equal.
  now apply weighted_blanks.
Qed.
Lemma isnan_zeroed l b : In b (map is_nan (blanks_to_zero l)) -> b = false.
Proof.
  intros H. apply in_map_iff in H. destruct H as [v [<- Hv]]. apply in_map_iff in Hv. destruct Hv as [u [<- _]]. now destruct u.
Qed.

Lemma thenc_ok {A B} (m : call A) (k : A -> call B) st st' a : m st = (st', Ok a) -> thenc m k st = k a st'.
Proof. intros H. unfold thenc. now rewrite H. Qed.
Lemma thenc_err {A B} (m : call A) (k : A -> call B) st st' e : m st = (st', Err e) -> thenc m k st = (st', Err e).
Proof. intros H. unfold thenc. now rewrite H. Qed.

(** PowerSpectrum, all arrays afterwards. *)
Lemma power_spectrum_run s q h w st : source_exists st s -> (w < length st)%nat ->
  match header_rule s q h with
  | Err e => power_spectrum s q h (Some w) st = (st, Err e)
  | Ok (r, n) =>
      exists st', fst (power_spectrum s q h (Some w) st) = st' /\
      read st' w = blanks_to_zero (read st w) /\
      (forall k, (k < length st)%nat -> k <> w -> read st' k = read st k) /\
      if Nat.eqb (length (read st r)) (length (read st w)) then
        exists o wd, snd (power_spectrum s q h (Some w) st) = Ok o /\ o_other o = [wd] /\ o_header o = Some n /\
          read st' (o_data o) = blanks_to_zero (read st r) /\
          read st' wd = map2 fmul (blanks_to_zero (read st r)) (blanks_to_zero (read st w))
      else snd (power_spectrum s q h (Some w) st) = Err IndexError
  end.
Proof.
  intros E Hw. unfold power_spectrum. destruct (header_rule s q h) as [[r n]|e] eqn:HR.
  2:{ apply thenc_err. now rewrite input_data_header_rule, HR. }
  destruct (header_rule_exists st s q h r n E HR) as [Hr _].
  destruct (zero_blanks_value r st Hr) as [st1 [r1 [Z [Hr1 [L [V [K Al]]]]]]].
  erewrite thenc_ok by (rewrite input_data_header_rule, HR; reflexivity). cbn [fst snd].
  rewrite (thenc_ok _ _ _ _ _ Z).
  set (st2 := write st1 w (blanks_to_zero (read st w))).
  assert (S1 : set_zero w (map is_nan (read st1 w)) st1 = (st2, Ok tt)).
  { unfold set_zero. rewrite (K w Hw), map_length, Nat.eqb_refl. cbn [negb]. now rewrite zero_where_isnan. }
  assert (R1 : read st2 r1 = read st1 r1).
  { unfold st2. destruct (Nat.eq_dec w r1) as [->|D]; [|now apply read_write_other].
    rewrite read_write_same by lia. destruct Al as [->|A]; [now rewrite V|lia]. }
  assert (W2 : read st2 w = blanks_to_zero (read st w)) by (unfold st2; apply read_write_same; lia).
  assert (M : forall b, In b (map is_nan (read st1 r1)) -> b = false) by (rewrite V; apply isnan_zeroed).
  assert (K2 : forall k, (k < length st)%nat -> k <> w -> read st2 k = read st k).
  { intros k Hk D. unfold st2. rewrite read_write_other by auto. now apply K. }
  assert (L1 : length (read st1 r1) = length (read st r)) by (rewrite V; apply map_length).
  assert (LB : length (blanks_to_zero (read st w)) = length (read st w)) by apply map_length.
  set (body := (m <~ isnan r1 ; wm <~ isnan w ; _ <~ set_zero w wm ; _ <~ set_zero w m ; _ <~ set_zero r1 m ;
       new (fun st => map2 fmul (read st r1) (read st w)))).
  destruct (Nat.eqb_spec (length (read st r)) (length (read st w))) as [EL|NL].
  - assert (S2 : set_zero w (map is_nan (read st1 r1)) st2 = (st2, Ok tt)).
    { unfold set_zero. rewrite W2, map_length, L1, LB, EL, Nat.eqb_refl. cbn [negb].
      rewrite zero_where_false; [|rewrite map_length, L1, LB; exact EL|exact M]. rewrite <- W2. now rewrite write_same. }
    assert (S3 : set_zero r1 (map is_nan (read st1 r1)) st2 = (st2, Ok tt)).
    { unfold set_zero. rewrite R1, map_length, Nat.eqb_refl. cbn [negb].
      rewrite zero_where_false; [|apply map_length|exact M]. rewrite <- R1. now rewrite write_same. }
    assert (B : body st1 = (st2 ++ [map2 fmul (read st2 r1) (read st2 w)], Ok (length st2))).
    { unfold body. erewrite thenc_ok by reflexivity. erewrite thenc_ok by reflexivity.
      rewrite (thenc_ok _ _ _ _ _ S1), (thenc_ok _ _ _ _ _ S2), (thenc_ok _ _ _ _ _ S3). reflexivity. }
    rewrite (thenc_ok _ _ _ _ _ B). unfold ret. cbn [fst snd].
    assert (L2 : length st2 = length st1) by apply write_length.
    eexists. split; [reflexivity|]. split; [rewrite read_app by lia; exact W2|]. split.
    { intros k Hk D. rewrite read_app by lia. now apply K2. }
    eexists. exists (length st2). split; [reflexivity|]. cbn [o_other o_header o_data]. split; [reflexivity|]. split; [reflexivity|].
    split; [rewrite read_app by lia; now rewrite R1, V|]. rewrite read_new. now rewrite R1, V, W2.
  - assert (S2 : set_zero w (map is_nan (read st1 r1)) st2 = (st2, Err IndexError)).
    { unfold set_zero. rewrite W2, map_length, L1, LB. apply Nat.eqb_neq in NL. now rewrite NL. }
    assert (B : body st1 = (st2, Err IndexError)).
    { unfold body. erewrite thenc_ok by reflexivity. erewrite thenc_ok by reflexivity.
      rewrite (thenc_ok _ _ _ _ _ S1), (thenc_err _ _ _ _ _ S2). reflexivity. }
    rewrite (thenc_err _ _ _ _ _ B). cbn [fst snd]. exists st2. auto.
Qed.

(** ** The properties *)
Lemma power_spectrum_others s q h w st : source_exists st s -> (w < length st)%nat ->
  unchanged_but w st (fst (construct (CPowerSpectrum s q h (Some w)) st)).
Proof.
  intros E Hw. cbn [construct]. generalize (power_spectrum_run s q h w st E Hw).
  destruct (header_rule s q h) as [[r n]|e].
  - intros [st' [-> [_ [K _]]]]. exact K.
  - intros ->. intros k _ _. reflexivity.
Qed.
Lemma blanks_to_zero_same l : (forall v, In v l -> v <> NaN) -> blanks_to_zero l = l.
Proof.
  intros H. unfold blanks_to_zero. rewrite <- (map_id l) at 2. apply map_ext_in. intros v Hv. specialize (H v Hv). now destruct v.
Qed.
Lemma power_spectrum_no_blanks s q h w st : source_exists st s -> (w < length st)%nat ->
  (forall v, In v (read st w) -> v <> NaN) ->
  unchanged st (fst (construct (CPowerSpectrum s q h (Some w)) st)).
Proof.
  intros E Hw NB k Hk. cbn [construct]. generalize (power_spectrum_run s q h w st E Hw).
  destruct (header_rule s q h) as [[r n]|e].
  - intros [st' [-> [W [K _]]]]. destruct (Nat.eq_dec k w) as [->|D]; [|now apply K].
    rewrite W. now apply blanks_to_zero_same.
  - intros ->. reflexivity.
Qed.
(** after the call, whatever it returned, once the data have been read *)
Lemma power_spectrum_weights_zeroed s q h w st : source_exists st s -> (w < length st)%nat ->
  is_ok (header_rule s q h) = true ->
  read (fst (construct (CPowerSpectrum s q h (Some w)) st)) w = blanks_to_zero (read st w).
Proof.
  intros E Hw. cbn [construct]. generalize (power_spectrum_run s q h w st E Hw).
  destruct (header_rule s q h) as [[r n]|e]; [|discriminate].
  intros [st' [-> [W _]]] _. exact W.
Qed.

(** The data kept. *)
Lemma header_rule_array src q h r n : header_rule src q h = Ok (r, n) -> array_of src = Some r.
Proof.
  intros H. unfold header_rule in H. destruct h as [[k|k|]|]; try discriminate.
  - destruct (array_of src); [|discriminate]. now injection H as -> _.
  - assert (X : match array_of src, header_of src with Some r, Some h => Ok (r, h) | _, _ => Err TypeError end = Ok (r, n)).
    { destruct src; try exact H. destruct q; [exact H|discriminate]. }
    destruct (array_of src) as [r0|]; [|discriminate]. destruct (header_of src); [|discriminate]. now injection X as -> _.
Qed.
Lemma input_value src nh st r : array_of src = Some r -> nh = true \/ header_of src <> None ->
  input src nh false st = (st, Ok (IArray r, if nh then None else match header_of src with Some h => Some (IHeader h) | None => None end)).
Proof.
  intros A H. unfold input, input_data.
  destruct src as [r0 h0|r0 h0|r0 h0|l|r0|]; cbn in *; try (injection A as ->); try (destruct nh; reflexivity).
  - destruct l as [|[a|a|] [|b [|c l]]]; try discriminate. injection A as ->. destruct nh; [reflexivity|]. destruct H as [H|H]; [discriminate|]. destruct b; cbn in *; [contradiction|reflexivity|contradiction].
  - destruct H as [->|H]; [reflexivity|contradiction].
  - discriminate.
Qed.
Lemma set_data_array_ok src st : forall d, d = IArray src -> set_data d st = (st, Ok src).
Proof. intros d ->. reflexivity. Qed.

Lemma input_err_or src nh st : (exists e, input src nh false st = (st, Err e)) \/
  (exists d h, input src nh false st = (st, Ok (d, h)) /\
     (forall r, d = IArray r -> array_of src = Some r) /\
     (nh = false -> exists h0, h = Some h0 /\ forall n, h0 = IHeader n -> header_of src = Some n)).
Proof.
  unfold input, input_data.
  destruct src as [r0 h0|r0 h0|r0 h0|l|r0|]; cbn; try (left; eexists; reflexivity).
  1-3: right; destruct nh; eexists; eexists; (split; [reflexivity|]); split; try discriminate;
       try (intros r [= ->]; reflexivity); intros _; eexists; (split; [reflexivity|]); now intros n [= ->].
  - destruct l as [|a [|b [|c l]]]; cbn; try (left; eexists; reflexivity).
    right. destruct nh; eexists; eexists; (split; [reflexivity|]); split; try discriminate;
      try (intros r ->; reflexivity). intros _. eexists. split; [reflexivity|]. intros n ->. now destruct a.
  - destruct nh; cbn; [|left; eexists; reflexivity]. right. eexists. eexists. split; [reflexivity|]. split; [|discriminate].
    now intros r [= ->].
Qed.

Ltac hd_rule st s q h HR r n :=
  destruct (header_rule s q h) as [[r n]|?e] eqn:HR;
  [erewrite thenc_ok by (rewrite input_data_header_rule, HR; reflexivity); cbn [fst snd]
  |erewrite thenc_err by (rewrite input_data_header_rule, HR; reflexivity)].

Theorem construct_data c st st' o t r :
  source_exists st (source_of c) -> (forall s q h w, c = CPowerSpectrum s q h (Some w) -> (w < length st)%nat) ->
  construct c st = (st', Ok o) -> treatment c = Some t -> array_of (source_of c) = Some r ->
  read st' (o_data o) = treat t (read st r).
Proof.
  intros E Hw H T A.
  assert (ZH : forall s q h, source_exists st s -> array_of s = Some r -> with_header s q h st = (st', Ok o) ->
    read st' (o_data o) = blanks_to_zero (read st r)).
  { intros s q h Es As. unfold with_header. hd_rule st s q h HR r0 n; [|discriminate].
    rewrite (header_rule_array _ _ _ _ _ HR) in As. injection As as ->.
    destruct (header_rule_exists st s q h r n Es HR) as [Hr _].
    destruct (zero_blanks_value r st Hr) as [st1 [r1 [Z [Hr1 [L [V _]]]]]].
    rewrite (thenc_ok _ _ _ _ _ Z). intros [= <- <-]. exact V. }
  assert (AG : forall s q h, array_of s = Some r -> as_given s q h st = (st', Ok o) -> read st' (o_data o) = read st r).
  { intros s q h As. unfold as_given. hd_rule st s q h HR r0 n; [|discriminate].
    rewrite (header_rule_array _ _ _ _ _ HR) in As. injection As as ->. now intros [= <- <-]. }
  assert (GP : forall s nh (K : nat -> option item -> call obj), array_of s = Some r ->
     (forall r0 h st0 st1 o0, K r0 h st0 = (st1, Ok o0) -> st1 = st0 /\ o_data o0 = r0) ->
     thenc (input s nh false) (fun dh => thenc (set_data (fst dh)) (fun r0 => K r0 (snd dh))) st = (st', Ok o) ->
     read st' (o_data o) = read st r).
  { intros s nh K As HK. destruct (input_err_or s nh st) as [[e X]|[d [h [X [D _]]]]].
    - now rewrite (thenc_err _ _ _ _ _ X).
    - rewrite (thenc_ok _ _ _ _ _ X). cbn [fst snd]. destruct d as [r0| |]; try discriminate.
      rewrite (D r0 eq_refl) in As. injection As as ->. unfold set_data. erewrite thenc_ok by reflexivity.
      intros Y. apply HK in Y. destruct Y as [-> ->]. reflexivity. }
  destruct c as [s q h w|s q h|s q h|s q h|s|s h s1 s2|s q h w|s q h|s q h|s q h|s q h w|s|s|s m w]; cbn [construct treatment source_of] in *;
    try discriminate T; injection T as <-; cbn [treat]; eauto.
  - destruct w as [w|].
    + assert (Hw' : (w < length st)%nat) by (eapply Hw; reflexivity).
      generalize (power_spectrum_run s q h w st E Hw'). rewrite H. destruct (header_rule s q h) as [[r0 n]|e] eqn:HR; [|discriminate].
      rewrite (header_rule_array _ _ _ _ _ HR) in A. injection A as ->.
      intros [st2 [<- [_ [_ X]]]]. cbn [snd fst] in *. destruct (Nat.eqb _ _); [|discriminate].
      destruct X as [o' [wd [[= <-] [_ [_ [X _]]]]]]. exact X.
    + revert H. unfold power_spectrum. hd_rule st s q h HR r0 n; [|discriminate].
      rewrite (header_rule_array _ _ _ _ _ HR) in A. injection A as ->.
      destruct (header_rule_exists st s q h r n E HR) as [Hr _].
      destruct (zero_blanks_value r st Hr) as [st1 [r1 [Z [Hr1 [L [V _]]]]]].
      rewrite (thenc_ok _ _ _ _ _ Z). unfold new. erewrite thenc_ok by reflexivity. intros [= <- <-]. cbn [o_data].
      now rewrite read_app.
  - revert H. unfold bispectrum. destruct (input_err_or s true st) as [[e X]|[d [h [X [D _]]]]].
    + now rewrite (thenc_err _ _ _ _ _ X).
    + rewrite (thenc_ok _ _ _ _ _ X). cbn [fst snd]. destruct d as [r0| |]; try discriminate.
      rewrite (D r0 eq_refl) in A. injection A as ->. unfold set_data. erewrite thenc_ok by reflexivity.
      assert (Hr : (r < length st)%nat).
      { destruct s; cbn in *; try discriminate (D r eq_refl); try (pose proof (D r eq_refl) as Y; injection Y as ->; exact E).
        apply E. pose proof (D r eq_refl) as Y. destruct l as [|[a|a|] [|b [|c l]]]; try discriminate. injection Y as ->. now left. }
      destruct (zero_blanks_value r st Hr) as [st1 [r1 [Z [Hr1 [L [V _]]]]]].
      rewrite (thenc_ok _ _ _ _ _ Z). intros [= <- <-]. exact V.
  - revert H. unfold delta_variance. hd_rule st s q h HR r0 n; [|discriminate].
    destruct (header_rule_exists st s q h r0 n E HR) as [Hr A']. rewrite A in A'. injection A' as <-.
    destruct w as [ws|].
    + destruct (input_err_or ws true st) as [[e X]|[d [h0 [X _]]]].
      * erewrite thenc_err by (apply thenc_err; exact X). discriminate.
      * destruct d as [w| |].
        2,3: erewrite thenc_err by (rewrite (thenc_ok _ _ _ _ _ X); reflexivity); discriminate.
        erewrite thenc_ok by (rewrite (thenc_ok _ _ _ _ _ X); reflexivity).
        destruct (negb _); [discriminate|]. now intros [= <- <-].
    + unfold new. erewrite thenc_ok by reflexivity. destruct (negb _); [discriminate|]. intros [= <- <-]. cbn [o_data].
      now rewrite read_app.
  - revert H. unfold stat_moments. hd_rule st s q h HR r0 n; [|discriminate].
    destruct (header_rule_exists st s q h r0 n E HR) as [Hr A']. rewrite A in A'. injection A' as <-.
    destruct w as [ws|].
    + destruct (input_err_or ws true st) as [[e X]|[d [h0 [X _]]]].
      * erewrite thenc_err by (apply thenc_err; exact X). discriminate.
      * destruct d as [w| |].
        2,3: erewrite thenc_err by (rewrite (thenc_ok _ _ _ _ _ X); reflexivity); discriminate.
        erewrite thenc_ok by (rewrite (thenc_ok _ _ _ _ _ X); reflexivity). now intros [= <- <-].
    + unfold new. erewrite thenc_ok by reflexivity. intros [= <- <-]. cbn [o_data]. now rewrite read_app.
  - revert H. unfold genus.
    assert (K1 : forall r0 (h : option item) st0 st1 o0, (fun r0 _ => ret (mk_obj r0 [] None)) r0 h st0 = (st1, Ok o0) -> st1 = st0 /\ o_data o0 = r0)
      by (intros r0 h st0 st1 o0 [= <- <-]; auto).
    assert (K2 : forall r0 (h : option item) st0 st1 o0,
      (fun r0 h => match h with Some h => n <~ set_header h ; ret (mk_obj r0 [] (Some n)) | None => raise OtherError end) r0 h st0 = (st1, Ok o0) -> st1 = st0 /\ o_data o0 = r0).
    { intros r0 [[k|k|]|] st0 st1 o0; cbn; try discriminate. intros [= <- <-]. auto. }
    destruct s; intros X; first [exact (GP _ _ _ A K1 X) | exact (GP _ _ _ A K2 X)].
  - revert H. unfold pca.
    assert (K2 : forall r0 (h : option item) st0 st1 o0,
      (fun r0 h => match h with Some h => n <~ set_header h ; ret (mk_obj r0 [] (Some n)) | None => raise OtherError end) r0 h st0 = (st1, Ok o0) -> st1 = st0 /\ o_data o0 = r0).
    { intros r0 [[k|k|]|] st0 st1 o0; cbn; try discriminate. intros [= <- <-]. auto. }
    intros X. exact (GP _ _ _ A K2 X).
Qed.

(** ** Header *)
Lemma weights_header n (ws : option source) (d : store -> list fl) st1 st' (o : obj) (K : nat -> call obj) :
  (forall w s0 s1 o1, K w s0 = (s1, Ok o1) -> o_header o1 = Some n) ->
  thenc (match ws with None => new d | Some ws => dh <~ input ws true false ; set_data (fst dh) end) K st1 = (st', Ok o) ->
  o_header o = Some n.
Proof.
  intros HK. unfold thenc at 1. destruct (match ws with None => new d | Some _ => _ end st1) as [s2 [w|e]]; [|discriminate].
  intros H. exact (HK _ _ _ _ H).
Qed.
Lemma thenc_ret_header (m : call nat) r n st1 st' o :
  thenc m (fun wd => ret (mk_obj r [wd] (Some n))) st1 = (st', Ok o) -> o_header o = Some n.
Proof. unfold thenc. destruct (m st1) as [st2 [wd|e]]; [|discriminate]. now intros [= <- <-]. Qed.
Theorem construct_header c st q h : header_arg c = Some (q, h) ->
  match header_rule (source_of c) q h with
  | Err e => construct c st = (st, Err e)
  | Ok (r, n) => forall st' o, construct c st = (st', Ok o) -> o_header o = Some n
  end.
Proof.
  destruct c as [s q0 h0 w|s q0 h0|s q0 h0|s q0 h0|s|s h0 s1 s2|s q0 h0 w|s q0 h0|s q0 h0|s q0 h0|s q0 h0 w|s|s|s m w];
    cbn [header_arg source_of construct]; try discriminate; intros [= -> ->];
    destruct (header_rule s q h) as [[r n]|e] eqn:HR;
    try (apply thenc_err; now rewrite input_data_header_rule, HR);
    intros st' o;
    [unfold power_spectrum|unfold with_header|unfold with_header|unfold with_header|unfold delta_variance
    |unfold as_given|unfold as_given|unfold as_given|unfold stat_moments];
    erewrite thenc_ok by (rewrite input_data_header_rule, HR; reflexivity); cbn [fst snd].
  - unfold thenc at 1. destruct (zero_blanks r st) as [st1 [r1|e]]; [|discriminate].
    apply thenc_ret_header.
  - unfold thenc at 1. destruct (zero_blanks r st) as [st1 [r1|e]]; [|discriminate]. now intros [= <- <-].
  - unfold thenc at 1. destruct (zero_blanks r st) as [st1 [r1|e]]; [|discriminate]. now intros [= <- <-].
  - unfold thenc at 1. destruct (zero_blanks r st) as [st1 [r1|e]]; [|discriminate]. now intros [= <- <-].
  - apply weights_header. intros w0 s0 s1 o1. destruct (negb _); [discriminate|]. now intros [= <- <-].
  - now intros [= <- <-].
  - now intros [= <- <-].
  - now intros [= <- <-].
  - apply weights_header. now intros w0 s0 s1 o1 [= <- <-].
Qed.

(** accepted data give an object, when no weights are given *)
Theorem construct_accepts c st q h : header_arg c = Some (q, h) -> source_exists st (source_of c) ->
  is_ok (header_rule (source_of c) q h) = true ->
  (forall s q h w, c <> CPowerSpectrum s q h (Some w)) -> (forall s q h w, c <> CDeltaVariance s q h (Some w)) ->
  (forall s q h w, c <> CStatMoments s q h (Some w)) ->
  exists st' o, construct c st = (st', Ok o).
Proof.
  destruct c as [s q0 h0 w|s q0 h0|s q0 h0|s q0 h0|s|s h0 s1 s2|s q0 h0 w|s q0 h0|s q0 h0|s q0 h0|s q0 h0 w|s|s|s m w];
    cbn [header_arg source_of construct]; try discriminate; intros [= -> ->] E A N1 N2 N3;
    (destruct (header_rule s q h) as [[r n]|e] eqn:HR; [clear A|discriminate]);
    destruct (header_rule_exists st s q h r n E HR) as [Hr _];
    destruct (zero_blanks_value r st Hr) as [st1 [r1 [Z _]]];
    [unfold power_spectrum|unfold with_header|unfold with_header|unfold with_header|unfold delta_variance
    |unfold as_given|unfold as_given|unfold as_given|unfold stat_moments];
    erewrite thenc_ok by (rewrite input_data_header_rule, HR; reflexivity); cbn [fst snd].
  - destruct w; [now destruct (N1 s q h n0)|]. rewrite (thenc_ok _ _ _ _ _ Z). eexists. eexists. reflexivity.
  - rewrite (thenc_ok _ _ _ _ _ Z). eexists. eexists. reflexivity.
  - rewrite (thenc_ok _ _ _ _ _ Z). eexists. eexists. reflexivity.
  - rewrite (thenc_ok _ _ _ _ _ Z). eexists. eexists. reflexivity.
  - destruct w; [now destruct (N2 s q h s0)|]. unfold new. erewrite thenc_ok by reflexivity.
    rewrite read_new, read_app, map_length, Nat.eqb_refl by exact Hr. cbn [negb]. eexists. eexists. reflexivity.
  - eexists. eexists. reflexivity.
  - eexists. eexists. reflexivity.
  - eexists. eexists. reflexivity.
  - destruct w; [now destruct (N3 s q h s0)|]. unfold new. erewrite thenc_ok by reflexivity. eexists. eexists. reflexivity.
Qed.

(** PowerSpectrum with weights *)
Theorem weighted_data_value s q h w st r n : source_exists st s -> (w < length st)%nat -> header_rule s q h = Ok (r, n) ->
  Forall blankable (read st r) -> Forall blankable (read st w) ->
  (length (read st w) = length (read st r) ->
   exists st' o wd, construct (CPowerSpectrum s q h (Some w)) st = (st', Ok o) /\ o_other o = [wd] /\
     read st' wd = map2 weighted (read st r) (read st w)) /\
  (length (read st w) <> length (read st r) -> snd (construct (CPowerSpectrum s q h (Some w)) st) = Err IndexError).
Proof.
  intros E Hw HR B1 B2. cbn [construct]. generalize (power_spectrum_run s q h w st E Hw). rewrite HR.
  intros [st' [S1 [_ [_ X]]]]. destruct (Nat.eqb_spec (length (read st r)) (length (read st w))) as [L|L]; (split; intros L'; try congruence; try lia).
  destruct X as [o [wd [X1 [X2 [_ [_ X3]]]]]]. exists st', o, wd. split; [rewrite <- S1, <- X1; apply surjective_pairing|].
  split; [exact X2|]. rewrite X3. now apply map2_weighted.
Qed.
Theorem unweighted_data_value s q h st st' o r n : source_exists st s -> header_rule s q h = Ok (r, n) ->
  Forall blankable (read st r) -> construct (CPowerSpectrum s q h None) st = (st', Ok o) ->
  exists wd, o_other o = [wd] /\ read st' wd = blanks_to_zero (read st r).
Proof.
  intros E HR B. cbn [construct]. unfold power_spectrum. erewrite thenc_ok by (rewrite input_data_header_rule, HR; reflexivity).
  destruct (header_rule_exists st s q h r n E HR) as [Hr _]. cbn [fst snd].
  destruct (zero_blanks_value r st Hr) as [st1 [r1 [Z [Hr1 [L [V _]]]]]].
  rewrite (thenc_ok _ _ _ _ _ Z). unfold new. erewrite thenc_ok by reflexivity. intros [= <- <-]. cbn [o_other].
  exists (length st1). split; [reflexivity|]. rewrite read_new, V. unfold blanks_to_zero. rewrite map_map. apply map_ext_in.
  intros v Hv. rewrite Forall_forall in B. specialize (B v Hv). destruct v; try contradiction; cbn; f_equal; ring.
Qed.

(** ** Genus *)
Lemma genus_header s st r n : array_of s = Some r -> header_of s = Some n -> (forall r h, s <> LowerDim r h) ->
  exists o, construct (CGenus s) st = (st, Ok o) /\ o_header o = Some n.
Proof.
  intros A H N. cbn [construct]. unfold genus.
  assert (X : input s false false st = (st, Ok (IArray r, Some (IHeader n)))).
  { rewrite (input_value s false st r A) by (right; rewrite H; discriminate). now rewrite H. }
  destruct s; cbn in H; try discriminate; try (now destruct (N r0 h)); (rewrite (thenc_ok _ _ _ _ _ X)); eexists; (split; [reflexivity|]); reflexivity.
Qed.
Lemma genus_no_header s st st' o : (exists r, s = Array r) \/ (exists r h, s = LowerDim r h) ->
  construct (CGenus s) st = (st', Ok o) -> o_header o = None.
Proof. intros [[r ->]|[r [h ->]]]; cbn; now intros [= <- <-]. Qed.

(** ** MVC *)
Lemma map2_nth {A B C} (f : A -> B -> C) d da db : f da db = d -> forall l1 l2 i, length l1 = length l2 ->
  nth i (map2 f l1 l2) d = f (nth i l1 da) (nth i l2 db).
Proof.
  intros D. induction l1 as [|x l1 IH]; intros [|y l2] i L; try discriminate; destruct i; cbn; auto.
Qed.
Lemma map2_length {A B C} (f : A -> B -> C) l1 l2 : length l1 = length l2 -> length (map2 f l1 l2) = length l1.
Proof. revert l2. induction l1 as [|x l1 IH]; intros [|y l2] L; try discriminate; cbn; auto. Qed.

Lemma all_blank_length ca mo li : length ca = length mo -> length ca = length li ->
  length (map2 andb (map2 andb (map is_nan ca) (map is_nan mo)) (map is_nan li)) = length ca.
Proof.
  intros L1 L2. assert (L3 : length (map2 andb (map is_nan ca) (map is_nan mo)) = length ca).
  { rewrite map2_length; [apply map_length|]. now rewrite !map_length. }
  rewrite map2_length; [exact L3|]. now rewrite L3, map_length.
Qed.
Lemma zero_all ca mo li a : length ca = length mo -> length ca = length li -> length a = length ca ->
  zero_where (map2 andb (map2 andb (map is_nan ca) (map is_nan mo)) (map is_nan li)) a = cleaned ca mo li a.
Proof.
  revert mo li a. induction ca as [|c ca IH]; intros [|m mo] [|l li] [|v a] L1 L2 L3; try discriminate; [reflexivity|].
  unfold zero_where in *. cbn [map map2 cleaned]. rewrite IH by (cbn in *; lia). f_equal. now destruct c, m, l.
Qed.
Lemma cleaned_none ca mo li a : length ca = length mo -> length ca = length li -> length a = length ca ->
  existsb (fun b : bool => b) (map2 andb (map2 andb (map is_nan ca) (map is_nan mo)) (map is_nan li)) = false ->
  cleaned ca mo li a = a.
Proof.
  intros L1 L2 L3 H. rewrite <- zero_all by assumption. apply zero_where_false; [|now apply existsb_id_false].
  now rewrite all_blank_length by assumption.
Qed.

Theorem mvc_data sc h sm sl st st' o c m l :
  source_exists st sc -> source_exists st sm -> source_exists st sl ->
  array_of sc = Some c -> array_of sm = Some m -> array_of sl = Some l ->
  construct (CMvc sc h sm sl) st = (st', Ok o) ->
  let clean := cleaned (read st c) (read st m) (read st l) in
  exists m' l', o_other o = [m'; l'] /\
    read st' (o_data o) = clean (read st c) /\ read st' m' = clean (read st m) /\ read st' l' = clean (read st l).
Proof.
  intros Ec Em El Ac Am Al. cbn [construct]. unfold mvc.
  assert (Ex : forall s r, source_exists st s -> array_of s = Some r -> (r < length st)%nat).
  { intros s r E A. destruct s; cbn in *; try discriminate; try (injection A as ->; exact E).
    destruct l0 as [|[a|a|] [|b [|d l0]]]; try discriminate. injection A as ->. apply E. now left. }
  pose proof (Ex _ _ Ec Ac) as Hc. pose proof (Ex _ _ Em Am) as Hm. pose proof (Ex _ _ El Al) as Hl.
  match goal with |- thenc ?f ?k st = _ -> _ => set (first := f); set (rest := k) end.
  assert (F : (exists e, first st = (st, Err e)) \/ exists n, first st = (st, Ok (IArray c, n))).
  { unfold first. destruct h as [h|].
    - rewrite (thenc_ok _ _ _ _ _ (input_value sc true st c Ac (or_introl eq_refl))).
      destruct h as [k|k|]; [left; eexists; reflexivity|right; eexists; reflexivity|left; eexists; reflexivity].
    - cbv zeta beta. destruct (header_of sc) as [n|] eqn:Hh.
      + erewrite thenc_ok by (apply input_value; [exact Ac|right; congruence]). rewrite Hh. right. eexists. reflexivity.
      + assert (W : (dh <~ input sc true false ; ret (fst dh, @None nat)) st = (st, Ok (IArray c, None))).
        { now rewrite (thenc_ok _ _ _ _ _ (input_value sc true st c Ac (or_introl eq_refl))). }
        assert (B : (dh <~ input sc false false ; match snd dh with Some h => n <~ set_header h ; ret (fst dh, Some n) | None => raise OtherError end) st = (st, Err TypeError)).
        { destruct sc as [r0 h0|r0 h0|r0 h0|li|r0|]; cbn in *; try discriminate.
          - destruct li as [|[a|a|] [|b [|d li]]]; try discriminate. destruct b; try discriminate; reflexivity.
          - reflexivity. }
        rewrite B. right. exists None. exact W. }
  destruct F as [[e F]|[n F]]; [now rewrite (thenc_err _ _ _ _ _ F)|]. rewrite (thenc_ok _ _ _ _ _ F). unfold rest.
  clear F rest first. cbn [fst snd]. unfold set_data at 1. erewrite thenc_ok by reflexivity.
  rewrite (thenc_ok _ _ _ _ _ (input_value sm true st m Am (or_introl eq_refl))). cbn [fst]. unfold set_data at 1. erewrite thenc_ok by reflexivity.
  rewrite (thenc_ok _ _ _ _ _ (input_value sl true st l Al (or_introl eq_refl))). cbn [fst]. unfold set_data at 1. erewrite thenc_ok by reflexivity.
  destruct (Nat.eqb_spec (length (read st c)) (length (read st m))) as [L1|L1]; [|discriminate].
  destruct (Nat.eqb_spec (length (read st c)) (length (read st l))) as [L2|L2]; [|discriminate].
  cbn [andb negb]. unfold isnan. do 3 (erewrite thenc_ok by reflexivity). cbv zeta.
  set (all := map2 andb _ _).
  assert (LA : length all = length (read st c)).
  { now apply all_blank_length. }
  assert (CZ : forall a, length a = length (read st c) -> zero_where all a = cleaned (read st c) (read st m) (read st l) a)
    by (intros a La; now apply zero_all).
  destruct (existsb (fun b : bool => b) all) eqn:EX.
  - assert (CP : forall s r, (length st <= length s)%nat -> (r < length st)%nat -> read s r = read st r -> length (read st r) = length (read st c) ->
      forall (K : nat -> call obj), thenc (copy r) (fun x => thenc (set_zero x all) (fun _ => K x)) s =
        K (length s) (s ++ [zero_where all (read st r)])).
    { intros s r Ls Hr Rr Lr K. unfold copy. erewrite thenc_ok by reflexivity. erewrite thenc_ok.
      2:{ unfold set_zero. rewrite read_new, Rr, Lr, LA, Nat.eqb_refl. cbn [negb]. reflexivity. }
      f_equal. clear. induction s as [|x s IH]; cbn; [reflexivity|]. now rewrite IH. }
    rewrite CP by (auto; lia). rewrite CP; [|rewrite app_length; lia|exact Hm|now apply read_app|lia].
    rewrite CP; [|rewrite !app_length; lia|exact Hl|rewrite !read_app; [reflexivity|lia|rewrite app_length; lia]|lia].
    intros [= <- <-]. cbn [o_other o_data]. eexists. eexists. split; [reflexivity|].
    rewrite !CZ by lia. rewrite read_new. split; [|split; [|reflexivity]].
    + rewrite read_app by (rewrite !app_length; cbn; lia). rewrite read_app by (rewrite !app_length; cbn; lia). apply read_new.
    + rewrite read_app by (rewrite !app_length; cbn; lia). apply read_new.
  - intros [= <- <-]. cbn [o_other o_data]. exists m, l. split; [reflexivity|]. rewrite !cleaned_none by (try lia; exact EX). auto.
Qed.

(** ** Beam *)
Lemma load_beam_history header from_header args cur :
  beam_after header from_header cur args = last_some cur (map (beam_found header from_header) args).
Proof.
  revert cur. induction args as [|a args IH]; intros cur; [reflexivity|]. cbn [beam_after map last_some]. rewrite IH.
  destruct a as [|b|]; cbn; try reflexivity. destruct header as [h|]; [|reflexivity]. now destruct (from_header h).
Qed.

(** ** PDF *)
Lemma select_filter f l : select (map f l) l = filter f l.
Proof. induction l as [|v l IH]; [reflexivity|]. cbn [map select filter]. destruct (f v); now rewrite IH. Qed.
Lemma select_products m l w : length w = length l ->
  let k := map (used m) l in
  map2 fmul (select (map is_fin (select k w)) (select k l)) (select (map is_fin (select k w)) (select k w)) = pdf_values m l w.
Proof.
  revert w. induction l as [|v l IH]; intros [|x w] L; try discriminate; [reflexivity|]. cbv zeta in *.
  cbn [map select pdf_values]. destruct (used m v); cbn [andb map select]; [|apply IH; cbn in L; lia].
  destruct (is_fin x); cbn [select map2]; rewrite IH by (cbn in L; lia); reflexivity.
Qed.
Theorem pdf_unweighted s m st st' o r : array_of s = Some r -> construct (CPdf s m None) st = (st', Ok o) ->
  read st' (o_data o) = filter (used m) (read st r).
Proof.
  intros A. cbn [construct]. unfold pdf. rewrite (thenc_ok _ _ _ _ _ (input_value s true st r A (or_introl eq_refl))).
  cbn [fst]. unfold set_data. erewrite thenc_ok by reflexivity. cbv zeta. unfold new. erewrite thenc_ok by reflexivity.
  intros [= <- <-]. cbn [o_data]. rewrite read_new. apply select_filter.
Qed.
Theorem pdf_weighted s m ws st r w : source_exists st ws -> source_exists st s -> array_of s = Some r -> array_of ws = Some w ->
  (length (read st w) = length (read st r) ->
   exists st' o, construct (CPdf s m (Some ws)) st = (st', Ok o) /\ read st' (o_data o) = pdf_values m (read st r) (read st w)) /\
  (length (read st w) <> length (read st r) -> snd (construct (CPdf s m (Some ws)) st) = Err IndexError).
Proof.
  intros Ew Es A Aw.
  assert (Ex : forall s r, source_exists st s -> array_of s = Some r -> (r < length st)%nat).
  { intros s0 r0 E A0. destruct s0; cbn in *; try discriminate; try (injection A0 as ->; exact E).
    destruct l as [|[a|a|] [|b [|d l]]]; try discriminate. injection A0 as ->. apply E. now left. }
  pose proof (Ex _ _ Es A) as Hr. pose proof (Ex _ _ Ew Aw) as Hw.
  set (k := map (used m) (read st r)). set (st1 := st ++ [select k (read st r)]).
  assert (Rw : read st1 w = read st w) by (apply read_app; exact Hw).
  assert (Lk : length k = length (read st r)) by apply map_length.
  set (st2 := st1 ++ [select k (read st w)]).
  assert (R2 : read st2 (length st1) = select k (read st w)) by apply read_new.
  assert (R3 : read st2 (length st) = select k (read st r)).
  { unfold st2. rewrite read_app by (unfold st1; rewrite app_length; cbn; lia). apply read_new. }
  assert (RUN : construct (CPdf s m (Some ws)) st =
    if Nat.eqb (length (read st r)) (length (read st w))
    then (st2 ++ [pdf_values m (read st r) (read st w)], Ok (mk_obj (length st2) [length st1] None)) else (st1, Err IndexError)).
  { cbn [construct]. unfold pdf. rewrite (thenc_ok _ _ _ _ _ (input_value s true st r A (or_introl eq_refl))).
    cbn [fst]. unfold set_data at 1. erewrite thenc_ok by reflexivity. cbv zeta. unfold new at 1. erewrite thenc_ok by reflexivity.
    change (fun v => is_fin v && fltb m v) with (used m). fold k. fold st1.
    rewrite (thenc_ok _ _ _ _ _ (input_value ws true st1 w Aw (or_introl eq_refl))). cbn [fst]. unfold set_data. erewrite thenc_ok by reflexivity.
    rewrite Rw, Lk. destruct (Nat.eqb_spec (length (read st r)) (length (read st w))) as [L|L]; cbn [negb]; [|reflexivity].
    unfold new at 1. erewrite thenc_ok by reflexivity. rewrite Rw. fold st2. unfold new. erewrite thenc_ok by reflexivity.
    rewrite R2, R3. unfold k. rewrite select_products by auto. reflexivity. }
  rewrite RUN. destruct (Nat.eqb_spec (length (read st r)) (length (read st w))) as [L|L]; split; intros L'; try congruence; [|reflexivity].
  eexists. eexists. split; [reflexivity|]. cbn [o_data]. apply read_new.
Qed.
