(** The lags of an SCF object and the loop that fills the surface. *)
From Coq Require Import String Reals List ZArith Arith Bool Lia Lra.
From Verif Require Import Lib.PyBase Lib.PyStr Lib.Arr Lib.Fl Model.Units Spec.ScfSpectrum Spec.ScfPairs Spec.ScfLags Model.Psds Model.Scf Model.ScfSpectrum Model.ScfPairs Model.ScfLags
  Proofs.Scf_Proofs Proofs.Scf2_Proofs Proofs.ScfPairs_Proofs.
Import ListNotations.
Local Open Scope R_scope.

(** ** The lags *)
Lemma set_pix s l : set_lags s (mk_q l pix) = Ok (mk_q l pix).
Proof. reflexivity. Qed.
Lemma default_around s size k : size = (2 * k + 1)%nat \/ size = (2 * k + 2)%nat -> scf_lags s size NoLags = Ok (mk_q (around_zero k) pix).
Proof.
  intros H. unfold scf_lags. rewrite set_pix. f_equal. f_equal. unfold init_lags, default_lags, around_zero, tab1.
  assert (E : (if Nat.even size then (size - 1)%nat else size) = (2 * k + 1)%nat).
  { destruct H as [->| ->].
    - rewrite Nat.add_comm. cbn [Nat.add]. rewrite Nat.even_succ, Nat.odd_mul. reflexivity.
    - replace (2 * k + 2)%nat with (2 * (k + 1))%nat by lia. rewrite Nat.even_mul. cbn [Nat.even orb]. lia. }
  rewrite E. apply map_ext_in. intros i _. do 2 f_equal. replace (2 * k + 1)%nat with (1 + k * 2)%nat by lia. rewrite Nat.div_add by lia. reflexivity.
Qed.
Lemma odd_kept l size : Nat.Odd (length l) -> init_lags (Some l) size = l.
Proof. intros H. unfold init_lags. apply Nat.odd_spec in H. rewrite <- Nat.negb_odd, H. reflexivity. Qed.
Lemma even_cut l x size : Nat.Odd (length l) -> init_lags (Some (l ++ [x])) size = l.
Proof.
  intros H. unfold init_lags. rewrite app_length, Nat.add_comm. cbn [length Nat.add]. rewrite Nat.even_succ. apply Nat.odd_spec in H. rewrite H.
  now rewrite removelast_last.
Qed.
Lemma lags_as_given s size q p : Nat.Odd (length (q_vals q)) -> to_pixel s q = Ok p ->
  scf_lags s size (QuantityLags q) = Ok q.
Proof. intros H P. unfold scf_lags. rewrite odd_kept by assumption. destruct q as [v u]. cbn [q_vals q_unit]. unfold set_lags. now rewrite P. Qed.
Lemma surface_as_given s nz ny nx cube size q p b : Nat.Odd (length (q_vals q)) -> to_pixel s q = Ok p ->
  lags_surface s nz ny nx cube size (QuantityLags q) b = compute_surface nz ny nx cube (q_vals p) b.
Proof. intros H P. unfold lags_surface. rewrite (lags_as_given s size q p H P). cbn [bind]. now rewrite P. Qed.
Lemma array_as_given s nz ny nx cube size l b : Nat.Odd (length l) ->
  lags_surface s nz ny nx cube size (ArrayLags l) b = compute_surface nz ny nx cube l b.
Proof. intros H. unfold lags_surface, scf_lags. rewrite odd_kept by assumption. reflexivity. Qed.
Lemma angle_lags s a theta u : pixel_of s a -> u_pix u = 0%Z -> u_ang u = 1%Z -> u_len u = 0%Z -> u_other u = 0%Z ->
  to_pixel s (mk_q theta u) = Ok (mk_q (map (fun v => v * u_factor u / a) theta) pix).
Proof.
  intros [Hh Ha] E1 E2 E3 E4. destruct u as [up ua ul uo f]. cbn [u_pix u_ang u_len u_other u_factor] in *. subst.
  unfold to_pixel. cbn [q_unit is_equivalent u_pix u_ang u_len u_other pix deg Z.eqb Pos.eqb andb].
  cbv [is_equivalent pix deg u_pix u_ang u_len u_other]. cbn [Z.eqb Pos.eqb andb].
  unfold to_angular, ang_size. rewrite Hh. cbn [bind]. unfold convert. cbv [is_equivalent pix deg u_pix u_ang u_len u_other q_unit q_vals u_factor]. cbn [Z.eqb Pos.eqb andb].
  do 2 f_equal. apply map_ext. intros v. rewrite Rabs_pos_eq by lra. field. lra.
Qed.
Lemma angle_surface s nz ny nx cube size a theta u b : pixel_of s a -> u_pix u = 0%Z -> u_ang u = 1%Z -> u_len u = 0%Z -> u_other u = 0%Z ->
  Nat.Odd (length theta) ->
  lags_surface s nz ny nx cube size (QuantityLags (mk_q theta u)) b = compute_surface nz ny nx cube (map (fun v => v * u_factor u / a) theta) b.
Proof. intros H E1 E2 E3 E4 O. now apply (surface_as_given s nz ny nx cube size (mk_q theta u) _ b O (angle_lags s a theta u H E1 E2 E3 E4)). Qed.
Lemma symmetric_lost l x : NoDup (l ++ [x]) -> Nat.Odd (length l) -> symmetric (l ++ [x]) -> x <> 0 -> ~ symmetric l.
Proof.
  intros N O S X C. assert (I : In (- x) (l ++ [x])) by (apply S, in_or_app; right; now left).
  apply in_app_or in I. destruct I as [I|[I|[]]]; [|lra]. apply C in I. rewrite Ropp_involutive in I.
  apply NoDup_remove_2 in N. rewrite app_nil_r in N. contradiction.
Qed.

(** ** The loop *)
Lemma write_square n s j i v : square_array n s -> (j < n)%nat -> square_array n (write s j i v).
Proof.
  intros [L Rw] Hj. unfold write. split; [now rewrite upd_length|]. intros r H. apply In_nth with (d := []) in H. destruct H as [k [Hk <-]].
  rewrite upd_length in Hk. rewrite upd_nth by lia. destruct (Nat.eqb _ _).
  - rewrite upd_length. apply Rw, nth_In. lia.
  - apply Rw, nth_In. lia.
Qed.
Lemma write_at n s j i v j' i' : square_array n s -> (j < n)%nat -> (i < n)%nat ->
  at2 NaN (write s j i v) j' i' = if Nat.eqb j' j && Nat.eqb i' i then v else at2 NaN s j' i'.
Proof.
  intros [L Rw] Hj Hi. unfold at2, write. rewrite upd_nth by lia. rewrite (Nat.eqb_sym j' j). destruct (Nat.eqb_spec j j') as [<-|N]; cbn [andb]; [|reflexivity].
  rewrite upd_nth by (rewrite Rw; [lia|apply nth_In; lia]). rewrite (Nat.eqb_sym i' i). reflexivity.
Qed.
Lemma zeros_square n : square_array n (zeros n).
Proof. split; [apply tab1_length|]. intros r H. unfold zeros, tab2, tab1 in H. apply in_map_iff in H. destruct H as [j [<- _]]. apply tab1_length. Qed.
Lemma zeros_at n j i : (j < n)%nat -> (i < n)%nat -> at2 NaN (zeros n) j i = Fin 0.
Proof. intros Hj Hi. unfold at2, zeros, tab2. rewrite (nth_indep _ [] (tab1 n (fun _ => Fin 0))) by now rewrite tab1_length. rewrite tab1_nth by assumption. now rewrite tab1_nth by assumption. Qed.

Definition place (p : (nat * R) * (nat * R)) : nat * nat := (fst (snd p), fst (fst p)).
Lemma loop_spec value size pairs : forall s s' e, square_array size s -> NoDup (map place pairs) -> fill_loop value size pairs s = (s', e) ->
  square_array size s' /\
  (forall j i, (forall p, In p pairs -> place p <> (j, i)) -> at2 NaN s' j i = at2 NaN s j i) /\
  (e = None -> forall i x j y, In ((i, x), (j, y)) pairs -> (j < size)%nat /\ (i < size)%nat /\ value x y = Ok (at2 NaN s' j i)) /\
  (e <> None -> exists i x j y, In ((i, x), (j, y)) pairs /\ ((exists e', value x y = Err e') \/ (size <= j)%nat \/ (size <= i)%nat)) /\
  (e <> None -> forall ps i x j y, pairs = ps ++ [((i, x), (j, y))] -> Reqb x 0 && Reqb y 0 = false -> at2 NaN s' j i = at2 NaN s j i).
Proof.
  induction pairs as [|[[i x] [j y]] rest IH]; intros s s' e Sq ND H.
  - cbn in H. injection H as <- <-. split; [exact Sq|]. split; [reflexivity|]. split; [easy|]. split; intros C; now contradiction C.
  - cbn [fill_loop] in H. inversion ND as [|? ? Nin ND']; subst. change (~ In (j, i) (map place rest)) in Nin.
    destruct (Nat.ltb_spec j size) as [Hj|Hj]; [destruct (Nat.ltb_spec i size) as [Hi|Hi]|].
    + cbn [andb negb] in H. rewrite andb_false_r in H.
      set (s0 := if Reqb x 0 && Reqb y 0 then write s j i (Fin 1) else s) in H.
      assert (Sq0 : square_array size s0) by (unfold s0; destruct (_ && _); [now apply write_square|assumption]).
      assert (A0 : forall j' i', (j', i') <> (j, i) -> at2 NaN s0 j' i' = at2 NaN s j' i').
      { intros j' i' D. unfold s0. destruct (_ && _); [|reflexivity]. rewrite (write_at size) by assumption.
        destruct (Nat.eqb_spec j' j) as [->|]; [|reflexivity]. destruct (Nat.eqb_spec i' i) as [->|]; [now contradiction D|reflexivity]. }
      destruct (value x y) as [v|er] eqn:EV.
      * destruct (IH _ _ _ (write_square size s0 j i v Sq0 Hj) ND' H) as [I1 [I2 [I3 [I4 I5]]]].
        assert (A1 : forall j' i', (j', i') <> (j, i) -> at2 NaN (write s0 j i v) j' i' = at2 NaN s j' i').
        { intros j' i' D. rewrite (write_at size) by assumption. destruct (Nat.eqb_spec j' j) as [->|]; [|now apply A0].
          destruct (Nat.eqb_spec i' i) as [->|]; [now contradiction D|now apply A0]. }
        split; [exact I1|]. split; [|split; [|split]].
        -- intros j' i' D. rewrite I2 by (intros p Hp; apply D; now right). apply A1. intros Q. apply (D ((i, x), (j, y))); [now left|]. symmetry. exact Q.
        -- intros En i1 x1 j1 y1 [Q|Q]; [|now apply (I3 En)]. injection Q as <- <- <- <-. split; [exact Hj|]. split; [exact Hi|].
           rewrite I2. { rewrite (write_at size) by assumption. now rewrite !Nat.eqb_refl. }
           intros p Hp Q. apply Nin. rewrite <- Q. now apply in_map.
        -- intros En. destruct (I4 En) as [i1 [x1 [j1 [y1 [Hin Hb]]]]]. exists i1, x1, j1, y1. split; [now right|exact Hb].
        -- intros En ps i1 x1 j1 y1 Q Z. destruct ps as [|p0 ps]; cbn [app] in Q.
           { injection Q as _ _ _ _ ->. cbn in H. injection H as _ <-. now contradiction En. }
           injection Q as <- Q. rewrite (I5 En ps i1 x1 j1 y1 Q Z). apply A1. intros Q'. injection Q' as -> ->. apply Nin. rewrite Q, map_app. apply in_or_app. right. now left.
      * injection H as <- <-. split; [exact Sq0|]. split; [|split; [discriminate|split]].
        -- intros j' i' D. apply A0. intros Q. apply (D ((i, x), (j, y))); [now left|]. symmetry. exact Q.
        -- intros _. exists i, x, j, y. split; [now left|]. left. eauto.
        -- intros _ ps i1 x1 j1 y1 Q Z. destruct ps as [|p0 ps]; cbn [app] in Q.
           { injection Q as <- <- <- <- _. unfold s0. now rewrite Z. }
           injection Q as <- Q. apply A0. intros Q'. injection Q' as -> ->. apply Nin. rewrite Q, map_app. apply in_or_app. right. now left.
    + cbn [andb negb] in H. rewrite andb_true_r in H. assert (E : s' = s /\ e <> None).
      { destruct (Reqb x 0 && Reqb y 0); [now injection H as <- <-|]. destruct (value x y); now injection H as <- <-. }
      destruct E as [-> En]. split; [exact Sq|]. split; [reflexivity|]. split; [intros ->; now contradiction En|]. split; [|reflexivity].
      intros _. exists i, x, j, y. split; [now left|]. right. now right.
    + cbn [andb negb] in H. rewrite andb_true_r in H. assert (E : s' = s /\ e <> None).
      { destruct (Reqb x 0 && Reqb y 0); [now injection H as <- <-|]. destruct (value x y); now injection H as <- <-. }
      destruct E as [-> En]. split; [exact Sq|]. split; [reflexivity|]. split; [intros ->; now contradiction En|]. split; [|reflexivity].
      intros _. exists i, x, j, y. split; [now left|]. right. now left.
Qed.

Lemma pairs_in lags i x j y : In ((i, x), (j, y)) (lag_pairs lags) <->
  ((i < length lags)%nat /\ x = nth i lags 0) /\ ((j < length lags)%nat /\ y = nth j lags 0).
Proof.
  assert (K : forall k r, In (k, r) (combine (seq 0 (length lags)) lags) <-> (k < length lags)%nat /\ r = nth k lags 0).
  { intros k r. split.
    - intros H. apply In_nth with (d := (0%nat, 0)) in H. destruct H as [m [Hm E]]. rewrite combine_length, seq_length, Nat.min_id in Hm.
      rewrite combine_nth in E by apply seq_length. rewrite seq_nth in E by assumption. injection E as <- <-. now split.
    - intros [H ->]. replace (k, nth k lags 0) with (nth k (combine (seq 0 (length lags)) lags) (0%nat, 0)).
      { apply nth_In. now rewrite combine_length, seq_length, Nat.min_id. }
      rewrite combine_nth by apply seq_length. now rewrite seq_nth by assumption. }
  unfold lag_pairs. rewrite in_prod_iff. now rewrite !K.
Qed.
Lemma nodup_prod {A B C D} (f : A -> C) (g : B -> D) (l : list A) (m : list B) : NoDup (map f l) -> NoDup (map g m) ->
  NoDup (map (fun p => (g (snd p), f (fst p))) (list_prod l m)).
Proof.
  intros Nl Nm. induction l as [|a l IH]; cbn [list_prod map]; [constructor|]. inversion Nl as [|? ? Na Nl']; subst. rewrite map_app.
  assert (App : forall (u v : list (D * C)), NoDup u -> NoDup v -> (forall z, In z u -> ~ In z v) -> NoDup (u ++ v)).
  { intros u v Nu Nv D0. induction u as [|z u IHu]; cbn [app]; [exact Nv|]. inversion Nu; subst. constructor.
    - intros Q. apply in_app_or in Q. destruct Q as [Q|Q]; [contradiction|]. apply (D0 z); [now left|exact Q].
    - apply IHu; [assumption|]. intros w Hw. apply D0. now right. }
  apply App.
  - rewrite map_map. cbn [fst snd]. clear -Nm. induction m as [|b m IHm]; cbn [map]; [constructor|]. inversion Nm as [|? ? Nb Nm']; subst. constructor; [|now apply IHm].
    intros Q. apply in_map_iff in Q. destruct Q as [b' [Q Hb]]. injection Q as Q. apply Nb. rewrite <- Q. now apply in_map.
  - now apply IH.
  - intros z Hz Q. rewrite map_map in Hz. cbn [fst snd] in Hz. apply in_map_iff in Hz. destruct Hz as [b [<- _]].
    apply in_map_iff in Q. destruct Q as [[a' b'] [Q Hin]]. injection Q as _ Q. apply in_prod_iff in Hin. cbn in Q. apply Na. rewrite <- Q. apply in_map. tauto.
Qed.
Lemma fst_combine {A B} (l : list A) (m : list B) : length l = length m -> map fst (combine l m) = l.
Proof. revert m. induction l as [|a l IH]; intros [|b m] H; cbn in *; try lia; [reflexivity|]. f_equal. apply IH. lia. Qed.
Lemma pairs_nodup lags : NoDup (map place (lag_pairs lags)).
Proof.
  unfold lag_pairs. apply (nodup_prod (@fst nat R) (@fst nat R)); rewrite fst_combine by apply seq_length; apply seq_NoDup.
Qed.
Lemma sequence_all {A B} (f : A -> result B) l s : sequence (map f l) = Ok s -> forall a, In a l -> exists b, f a = Ok b.
Proof.
  revert s. induction l as [|x l IH]; intros s H a Ha; [easy|]. cbn [map sequence] in H. destruct (f x) as [b|] eqn:E; cbn [bind] in H; [|discriminate].
  destruct (sequence (map f l)) as [r|] eqn:E2; cbn [bind] in H; [|discriminate]. destruct Ha as [<-|Ha]; [eauto|]. eapply IH; [reflexivity|exact Ha].
Qed.

Lemma surface_call_spec i b i' e : b = "continuous"%string \/ b = "cut"%string -> surface_call i b = (i', e) ->
  exists s, i' = mk_inst (set_surface (i_obj i) s) (i_size i) (i_pixel i) /\ square_array (i_size i) s /\
  (e = None <-> is_ok (inst_surface i (text b)) = true) /\ (e = None -> inst_surface i (text b) = Ok i') /\
  (e <> None -> length (s_roll_lags (i_obj i)) = i_size i -> last (s_roll_lags (i_obj i)) 0 <> 0 ->
     at2 NaN s (i_size i - 1) (i_size i - 1) = Fin 0).
Proof.
  intros Hb H. unfold surface_call in H.
  assert (Eb : String.eqb b "continuous" || String.eqb b "cut" = true) by (destruct Hb as [->| ->]; reflexivity).
  rewrite Eb in H. cbn [negb] in H. set (o := i_obj i) in *. set (lags := s_roll_lags o) in *.
  set (value := scf_value (s_nz o) (s_ny o) (s_nx o) (s_cube o) b) in *.
  destruct (fill_loop value (i_size i) (lag_pairs lags) (zeros (i_size i))) as [s e0] eqn:EL. injection H as <- <-.
  destruct (loop_spec value (i_size i) (lag_pairs lags) _ _ _ (zeros_square _) (pairs_nodup lags) EL) as [I1 [I2 [I3 [I4 I5]]]].
  exists s. split; [reflexivity|]. split; [exact I1|].
  assert (ES : inst_surface i (text b) = s0 <- compute_surface (s_nz o) (s_ny o) (s_nx o) (s_cube o) lags b ;;
     if Nat.ltb (i_size i) (length lags) then Err IndexError else Ok (mk_inst (set_surface o (fill (i_size i) (length lags) s0)) (i_size i) (i_pixel i))).
  { unfold inst_surface. now rewrite (literal_surface _ b Hb). }
  assert (Good : e0 = None -> inst_surface i (text b) = Ok (mk_inst (set_surface o s) (i_size i) (i_pixel i))).
  { intros En. pose (g := fun x y => match value x y with Ok v => v | Err _ => NaN end).
    assert (V : forall x y, In x lags -> In y lags -> value x y = Ok (g x y)).
    { intros x y Hx Hy. apply In_nth with (d := 0) in Hx, Hy. destruct Hx as [k [Hk <-]], Hy as [m [Hm <-]].
      destruct (I3 En k (nth k lags 0) m (nth m lags 0)) as [_ [_ E]]; [now apply pairs_in|]. unfold g. now rewrite E. }
    rewrite ES. assert (CS : compute_surface (s_nz o) (s_ny o) (s_nx o) (s_cube o) lags b = Ok (map (fun y => map (fun x => g x y) lags) lags)).
    { unfold compute_surface. rewrite Eb. cbn [negb]. apply sequence_map_ok. intros y Hy. apply sequence_map_ok. intros x Hx. now apply V. }
    rewrite CS. cbn [bind]. destruct (Nat.ltb_spec (i_size i) (length lags)) as [C|C].
    { exfalso. destruct (I3 En (i_size i) (nth (i_size i) lags 0) (i_size i) (nth (i_size i) lags 0)) as [Q _]; [now apply pairs_in|]. lia. }
    do 3 f_equal. rewrite <- (square_tab (i_size i) s I1). unfold fill. apply tab2_ext. intros j k Hj Hk.
    destruct (Nat.ltb_spec j (length lags)) as [Lj|Lj]; [destruct (Nat.ltb_spec k (length lags)) as [Lk|Lk]|]; cbn [andb].
    - destruct (I3 En k (nth k lags 0) j (nth j lags 0)) as [_ [_ E]]; [now apply pairs_in|]. unfold at2 at 1.
      rewrite (nth_indep _ [] (map (fun x => g x 0) lags)) by now rewrite map_length. rewrite (map_nth (fun y => map (fun x => g x y) lags) lags 0 j).
      rewrite (nth_indep _ NaN (g 0 (nth j lags 0))) by now rewrite map_length. rewrite (map_nth (fun x => g x (nth j lags 0)) lags 0 k).
      unfold g. now rewrite E.
    - rewrite I2; [now rewrite zeros_at|]. intros [[i1 x1] [j1 y1]] Hp Q. apply pairs_in in Hp. cbn in Q. injection Q as -> ->. lia.
    - rewrite I2; [now rewrite zeros_at|]. intros [[i1 x1] [j1 y1]] Hp Q. apply pairs_in in Hp. cbn in Q. injection Q as -> ->. lia. }
  split; [|split; [exact Good|]].
  - split; [intros En; now rewrite (Good En)|]. intros K. destruct e0 as [er|]; [exfalso|reflexivity].
    destruct (I4 ltac:(discriminate)) as [k [x [m [y [Hin Bad]]]]]. apply pairs_in in Hin. destruct Hin as [[Hk ->] [Hm ->]].
    rewrite ES in K. destruct (compute_surface _ _ _ _ lags b) as [s0|] eqn:CS; cbn [bind] in K; [|discriminate].
    destruct (Nat.ltb_spec (i_size i) (length lags)); [discriminate|]. destruct Bad as [[e' Bad]|[Bad|Bad]]; [|lia|lia].
    unfold compute_surface in CS. rewrite Eb in CS. cbn [negb] in CS.
    destruct (sequence_all _ _ _ CS (nth m lags 0) (nth_In _ _ Hm)) as [row Er].
    destruct (sequence_all _ _ _ Er (nth k lags 0) (nth_In _ _ Hk)) as [v Ev]. fold value in Ev. congruence.
  - intros En Ln Lz. destruct lags as [|l0 ls] eqn:Elags.
    { cbn in Lz. now contradiction Lz. }
    rewrite <- Elags in *. set (n := length lags) in *. assert (N : (1 <= n)%nat) by (unfold n; rewrite Elags; cbn; lia).
    assert (Last : forall (A : Type) (l : list A) d, (1 <= length l)%nat -> exists l', l = l' ++ [last l d]).
    { intros A l d Hl. exists (removelast l). apply app_removelast_last. destruct l; [cbn in Hl; lia|discriminate]. }
    assert (NL : nth (n - 1) lags 0 = last lags 0).
    { destruct (Last R lags 0 N) as [l' E']. assert (n = S (length l')) by (unfold n; rewrite E', app_length; cbn; lia). rewrite E' at 1.
      rewrite app_nth2 by lia. replace (n - 1 - length l')%nat with 0%nat by lia. reflexivity. }
    assert (CL : exists c', combine (seq 0 n) lags = c' ++ [((n - 1)%nat, last lags 0)]).
    { destruct (Last _ (combine (seq 0 n) lags) (0%nat, 0)) as [c' E']; [rewrite combine_length, seq_length; fold n; lia|]. exists c'. rewrite E' at 1. f_equal. f_equal.
      assert (Lc : length (combine (seq 0 n) lags) = n) by (rewrite combine_length, seq_length; apply Nat.min_id).
      assert (E2 : nth (n - 1) (combine (seq 0 n) lags) (0%nat, 0) = last (combine (seq 0 n) lags) (0%nat, 0)).
      { rewrite E' at 1. assert (n = S (length c')) by (rewrite <- Lc, E', app_length; cbn; lia). rewrite app_nth2 by lia. replace (n - 1 - length c')%nat with 0%nat by lia. reflexivity. }
      rewrite <- E2, combine_nth by apply seq_length. rewrite seq_nth by lia. now rewrite NL. }
    destruct CL as [c' CL].
    assert (PL : exists ps, lag_pairs lags = ps ++ [(((n - 1)%nat, last lags 0), ((n - 1)%nat, last lags 0))]).
    { unfold lag_pairs. fold n. rewrite CL.
      assert (PA : forall (A B : Type) (u : list A) (a : A) (v : list B) (c : B), exists ps, list_prod (u ++ [a]) (v ++ [c]) = ps ++ [(a, c)]).
      { intros A B u a v c. induction u as [|a' u [ps IH]]; cbn [app list_prod].
        - rewrite app_nil_r, map_app. cbn [map]. eauto.
        - rewrite IH, app_assoc. eauto. }
      apply PA. }
    destruct PL as [ps PL]. rewrite <- Ln. fold n.
    rewrite (I5 En ps (n - 1)%nat (last lags 0) (n - 1)%nat (last lags 0) PL).
    + apply zeros_at; lia.
    + destruct (Reqb_spec (last lags 0) 0); [contradiction|reflexivity].
Qed.

(** A call that raises leaves a surface, from which a spectrum is computed. *)
Lemma left_behind tppf i b i' e : b = "continuous"%string \/ b = "cut"%string -> surface_call i b = (i', Some e) ->
  length (s_roll_lags (i_obj i)) = i_size i -> (2 <= i_size i)%nat -> last (s_roll_lags (i_obj i)) 0 <> 0 ->
  exists s i'', s_surface (i_obj i') = Some s /\ square_array (i_size i) s /\ at2 NaN s (i_size i - 1) (i_size i - 1) = Fin 0 /\
    inst_spectrum tppf i' = Ok i'' /\ s_surface (i_obj i'') = Some s /\ s_spectrum (i_obj i'') <> None.
Proof.
  intros Hb H L N Z. destruct (surface_call_spec i b i' (Some e) Hb H) as [s [-> [Sq [_ [_ F]]]]].
  set (i1 := mk_inst (set_surface (i_obj i) s) (i_size i) (i_pixel i)).
  destruct (plain_spectrum tppf i1 s (i_size i)) as [i'' [E [S1 [S2 _]]]]; [reflexivity|exact Sq|lia|cbn; lia|].
  exists s, i''. split; [reflexivity|]. split; [exact Sq|]. split; [apply F; [discriminate|exact L|exact Z]|]. now split.
Qed.
