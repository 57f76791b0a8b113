(** Proofs about the genus. *)
From Coq Require Import Reals FunctionalExtensionality List Bool ZArith Arith Lra Lia Relations.Relation_Operators.
From Verif Require Import Lib.PyBase Lib.RSum Lib.Fl Spec.Regions Spec.GenusSpec Model.Distances Model.Units Model.Genus Proofs.Psds_Proofs Lib.Arr Proofs.Regions_Proofs.
Import ListNotations.

Lemma eqp_spec p q : reflect (p = q) (eqp p q).
Proof.
  destruct p as [a b], q as [c d]. unfold eqp. cbn [fst snd].
  destruct (Nat.eqb_spec a c), (Nat.eqb_spec b d); constructor; congruence.
Qed.

Lemma in_pixels n0 n1 p : In p (pixels n0 n1) <-> in_image n0 n1 p.
Proof. destruct p as [a b]. unfold pixels, in_image, pixel. cbn [fst snd]. rewrite in_prod_iff, !in_seq. lia. Qed.
(** ** The labels *)

Definition near_adj (c : Z) (p q : pixel) : Prop := struct_near c p q = true /\ p <> q.
Lemma struct_adjacent c p q : near_adj c p q <-> adjacent c p q.
Proof.
  unfold near_adj, struct_near, adjacent. destruct p as [a b], q as [d e]. cbn [fst snd].
  rewrite !andb_true_iff, !Z.leb_le. destruct (Z.leb_spec c 1) as [H|H].
  - replace (Z.max 1 c) with 1%Z by lia. unfold adj4, gap. cbn [fst snd]. split.
    + intros [[[H1 H2] H3] Hn]. assert (a <> d \/ b <> e) by (destruct (Nat.eq_dec a d), (Nat.eq_dec b e); subst; [now contradiction Hn|tauto..]). lia.
    + intros Hg. split; [lia|]. intros E. inversion E; subst. lia.
  - unfold adj8, gap. cbn [fst snd]. split.
    + intros [[[H1 H2] H3] Hn]. split; [exact Hn|]. lia.
    + intros [Hn Hg]. split; [lia|exact Hn].
Qed.

Definition edges_rel (es : list (pixel * pixel)) (p q : pixel) : Prop := In (p, q) es.
Notation eqc es := (clos_refl_sym_trans pixel (edges_rel es)).

Lemma eqc_mono es es' p q : (forall e, In e es -> In e es') -> eqc es p q -> eqc es' p q.
Proof. intros H C. induction C; [apply rst_step; now apply H|apply rst_refl|now apply rst_sym|eapply rst_trans; eauto]. Qed.

Lemma merge_spec es : (forall p q, fold_left merge es (fun k => k) p = fold_left merge es (fun k => k) q <-> eqc es p q) /\
  (forall p, eqc es (fold_left merge es (fun k => k) p) p).
Proof.
  induction es as [|e es [IH1 IH2]] using rev_ind.
  - cbn [fold_left]. split; [|intros; apply rst_refl]. intros p q. split; [intros ->; apply rst_refl|].
    intros C. induction C; [destruct H|reflexivity|auto|congruence].
  - rewrite fold_left_app. cbn [fold_left]. set (l := fold_left merge es (fun k => k)) in *. destruct e as [a b].
    unfold merge. cbn [fst snd].
    assert (M : forall p q, eqc es p q -> eqc (es ++ [(a, b)]) p q) by (intros p q; apply eqc_mono; intros e He; apply in_app_iff; now left).
    assert (AB : eqc (es ++ [(a, b)]) a b) by (apply rst_step; unfold edges_rel; apply in_app_iff; right; now left).
    split.
    + intros p q. split.
      * destruct (eqp_spec (l p) (l a)) as [E|E], (eqp_spec (l q) (l a)) as [E'|E']; intros H.
        -- apply M. apply IH1. congruence.
        -- apply rst_trans with a; [apply M; now apply IH1|]. apply rst_trans with b; [exact AB|]. apply M. now apply IH1.
        -- apply rst_trans with b; [apply M; now apply IH1|]. apply rst_trans with a; [now apply rst_sym|]. apply M. apply IH1. now symmetry.
        -- apply M. now apply IH1.
      * intros C. induction C as [p q H| | |].
        -- unfold edges_rel in H. apply in_app_iff in H. destruct H as [H|[H|[]]].
           ++ assert (E : l p = l q) by (apply IH1; now apply rst_step). rewrite E. reflexivity.
           ++ inversion H; subst. destruct (eqp_spec (l p) (l p)); [|contradiction]. destruct (eqp_spec (l q) (l p)); reflexivity.
        -- reflexivity.
        -- now symmetry.
        -- etransitivity; eassumption.
    + intros p. destruct (eqp_spec (l p) (l a)) as [E|E].
      * apply rst_trans with b; [apply M; apply IH2|]. apply rst_trans with a; [now apply rst_sym|]. apply M. apply IH1. now symmetry.
      * apply M. apply IH2.
Qed.

Section Label.
Context (c : Z) (n0 n1 : nat) (mask : pixel -> bool).
Definition inside (p : pixel) : Prop := in_image n0 n1 p /\ mask p = true.
Notation conn := (connected (adjacent c) inside).
Notation prov := (provisional c n0 n1 mask).

Lemma fg_in p : In p (filter mask (pixels n0 n1)) <-> inside p.
Proof. rewrite filter_In, in_pixels. reflexivity. Qed.

Definition es := filter (fun e => struct_near c (fst e) (snd e)) (list_prod (filter mask (pixels n0 n1)) (filter mask (pixels n0 n1))).
Lemma in_es p q : In (p, q) es <-> inside p /\ inside q /\ (p = q \/ adjacent c p q).
Proof.
  unfold es. rewrite filter_In, in_prod_iff, !fg_in. cbn [fst snd]. split.
  - intros [[Hp Hq] Hn]. split; [exact Hp|]. split; [exact Hq|]. destruct (eqp_spec p q) as [->|E]; [now left|right].
    apply struct_adjacent. now split.
  - intros [Hp [Hq [->|H]]]; (split; [now split|]).
    + unfold struct_near. rewrite !Z.sub_diag. cbn [Z.abs Z.leb Z.compare andb Z.add]. apply Z.leb_le. lia.
    + apply struct_adjacent in H. apply H.
Qed.

Lemma prov_conn p q : inside p -> (prov p = prov q <-> conn p q).
Proof.
  intros Hp. unfold provisional. fold es. rewrite (proj1 (merge_spec es)). split.
  - intros C. assert (K : (inside p <-> inside q) /\ (inside p -> conn p q)).
    { clear Hp. induction C as [p q H|p|p q C [IH1 IH2]|p q r C1 [IH1 IH2] C2 [IH3 IH4]].
      - apply in_es in H. destruct H as [Hp [Hq H]]. split; [tauto|]. intros _. destruct H as [->|H]; [now apply connected_refl|].
        eapply connected_step; [apply connected_refl; exact Hp|exact H|exact Hq].
      - split; [tauto|]. apply connected_refl.
      - split; [tauto|]. intros Hq. apply conn_sym; [apply adjacent_sym|]. apply IH2. tauto.
      - split; [tauto|]. intros H. eapply conn_trans; [now apply IH2|]. apply IH4. tauto. }
    now apply K.
  - intros C. induction C as [p H|p q r C IH A Hr]; [apply rst_refl|]. apply rst_trans with q; [now apply IH|].
    apply rst_step. apply in_es. apply conn_inside in C. tauto.
Qed.
Lemma prov_rep p : inside p -> conn p (prov p) /\ prov (prov p) = prov p.
Proof.
  intros Hp. assert (E : prov (prov p) = prov p) by (unfold provisional; fold es; apply (proj1 (merge_spec es)); apply (proj2 (merge_spec es))).
  split; [|exact E]. apply prov_conn; [exact Hp|]. now symmetry.
Qed.

Lemma uniq_in a l : In a (uniq l) <-> In a l.
Proof.
  induction l as [|b l IH]; [reflexivity|]. cbn [uniq In]. rewrite filter_In, IH. destruct (eqp_spec b a) as [->|E]; [tauto|]. cbn [negb]. tauto.
Qed.
Lemma uniq_NoDup l : NoDup (uniq l).
Proof.
  induction l as [|a l IH]; [constructor|]. cbn [uniq]. constructor; [|now apply NoDup_filter].
  rewrite filter_In. intros [_ H]. destruct (eqp_spec a a); [discriminate|contradiction].
Qed.
Lemma index_of_lt a l : In a l -> (index_of a l < length l)%nat.
Proof. induction l as [|b l IH]; [intros []|]. cbn [index_of length]. destruct (eqp_spec a b); [lia|]. intros [E|H]; [congruence|]. apply IH in H. lia. Qed.
Lemma index_of_inj a b l : In a l -> index_of a l = index_of b l -> In b l -> a = b.
Proof.
  induction l as [|d l IH]; [intros []|]. cbn [index_of]. destruct (eqp_spec a d) as [->|E], (eqp_spec b d) as [->|E']; try discriminate; auto.
  intros [H|H] K [H'|H']; try congruence. apply IH; auto.
Qed.

Definition reps := uniq (map prov (filter mask (pixels n0 n1))).
Lemma reps_in r : In r reps <-> exists p, inside p /\ r = prov p.
Proof.
  unfold reps. rewrite uniq_in, in_map_iff. split; intros [p [A B]]; exists p; [rewrite fg_in in B|rewrite fg_in]; auto.
Qed.

Lemma label_pos p : fst (nd_label c n0 n1 mask) p = 0%nat <-> mask p = false.
Proof. unfold nd_label. cbn [fst]. destruct (mask p); split; congruence. Qed.
Lemma label_range p : inside p -> (1 <= fst (nd_label c n0 n1 mask) p <= snd (nd_label c n0 n1 mask))%nat.
Proof.
  intros Hp. assert (HI : In (prov p) reps) by (apply reps_in; exists p; auto). apply index_of_lt in HI.
  change (1 <= (if mask p then S (index_of (prov p) reps) else 0) <= length reps)%nat. rewrite (proj2 Hp). lia.
Qed.
Lemma label_conn p q : inside p -> inside q -> (fst (nd_label c n0 n1 mask) p = fst (nd_label c n0 n1 mask) q <-> conn p q).
Proof.
  intros Hp Hq. change ((if mask p then S (index_of (prov p) reps) else 0) = (if mask q then S (index_of (prov q) reps) else 0)%nat <-> conn p q).
  rewrite (proj2 Hp), (proj2 Hq). rewrite <- prov_conn by exact Hp. split; [|intros ->; reflexivity]. intros E. apply (index_of_inj _ _ reps); [|lia|]; apply reps_in; [exists p|exists q]; auto.
Qed.
Lemma label_count : regions (adjacent c) inside (fun _ => True) (snd (nd_label c n0 n1 mask)).
Proof.
  change (snd (nd_label c n0 n1 mask)) with (length reps). exists reps. split; [apply uniq_NoDup|]. split; [reflexivity|]. split; [|split].
  - intros r Hr. apply reps_in in Hr. destruct Hr as [p [Hp ->]]. split; [|exact I]. destruct (prov_rep p Hp) as [C _]. now apply conn_inside in C.
  - intros r s Hr Hs C. apply reps_in in Hr. apply reps_in in Hs. destruct Hr as [p [Hp ->]], Hs as [q [Hq ->]].
    destruct (prov_rep p Hp) as [Cp Ep], (prov_rep q Hq) as [Cq Eq]. apply prov_conn in C; [congruence|]. now apply conn_inside in Cp.
  - intros p Hp _. exists (prov p). split; [apply reps_in; exists p; auto|]. now apply prov_rep.
Qed.

(** ** Removal of small regions *)

Definition lab := fst (nd_label c n0 n1 mask).
Definition num := snd (nd_label c n0 n1 mask).
Definition size_of (i : nat) := length (filter (fun p => mask p && Nat.eqb (lab p) i) (pixels n0 n1)).

Lemma remove_fold (m : Z) (l : list nat) (arr : pixel -> bool) p :
  fold_left (fun arr is => if Z.leb m (Z.of_nat (snd is)) then arr else fun p => if Nat.eqb (lab p) (fst is + 1) then false else arr p)
    (combine l (map size_of (map S l))) arr p =
  (arr p && negb (existsb (fun i => Nat.eqb (lab p) (S i) && negb (Z.leb m (Z.of_nat (size_of (S i))))) l))%bool.
Proof.
  revert arr. induction l as [|i l IH]; intros arr; [cbn; now rewrite andb_true_r|].
  cbn [map combine fold_left snd fst existsb]. rewrite IH. rewrite Nat.add_1_r.
  destruct (Z.leb m (Z.of_nat (size_of (S i)))); cbn [negb]; [rewrite andb_false_r; reflexivity|]. rewrite andb_true_r.
  destruct (Nat.eqb (lab p) (S i)); cbn [orb negb andb]; [now rewrite andb_false_r|reflexivity].
Qed.

Lemma remove_spec m p : inside p ->
  (remove_small_objects n0 n1 mask m c p = true <-> (m <= Z.of_nat (size_of (lab p)))%Z).
Proof.
  intros Hp. unfold remove_small_objects. pose proof (label_range p Hp) as LR. destruct (nd_label c n0 n1 mask) as [labels nm] eqn:E.
  assert (EL : labels = lab) by (unfold lab; now rewrite E). assert (EN : nm = num) by (unfold num; now rewrite E). subst labels nm.
  rewrite <- seq_shift. fold (size_of). change (fun i => length (filter (fun p0 => mask p0 && Nat.eqb (lab p0) i) (pixels n0 n1))) with size_of.
  rewrite remove_fold. rewrite (proj2 Hp). cbn [andb fst snd] in *. rewrite negb_true_iff. split.
  - intros H. destruct (Z.leb_spec m (Z.of_nat (size_of (lab p)))) as [L|L]; [exact L|exfalso].
    assert (X : existsb (fun i => Nat.eqb (lab p) (S i) && negb (Z.leb m (Z.of_nat (size_of (S i))))) (seq 0 num) = true); [|congruence].
    apply existsb_exists. exists (lab p - 1)%nat. split; [apply in_seq; lia|]. replace (S (lab p - 1)) with (lab p) by lia.
    rewrite Nat.eqb_refl. cbn [andb]. apply negb_true_iff. apply Z.leb_gt. lia.
  - intros L. destruct (existsb _ (seq 0 num)) eqn:X; [exfalso|reflexivity]. apply existsb_exists in X. destruct X as [i [_ H]].
    apply andb_true_iff in H. destruct H as [H1 H2]. apply Nat.eqb_eq in H1. rewrite <- H1 in H2. apply negb_true_iff in H2. apply Z.leb_gt in H2. lia.
Qed.
Lemma remove_subset m p : remove_small_objects n0 n1 mask m c p = true -> mask p = true.
Proof.
  unfold remove_small_objects. destruct (nd_label c n0 n1 mask) as [labels nm] eqn:E.
  assert (EL : labels = lab) by (unfold lab; now rewrite E). subst labels.
  rewrite <- seq_shift. change (fun i => length (filter (fun p0 => mask p0 && Nat.eqb (lab p0) i) (pixels n0 n1))) with size_of.
  rewrite remove_fold. rewrite andb_true_iff. tauto.
Qed.

Lemma NoDup_pixels : NoDup (pixels n0 n1).
Proof. apply NoDup_list_prod; apply seq_NoDup. Qed.

Lemma size_region m p : inside p -> (region_ge (adjacent c) inside m p <-> (m <= Z.of_nat (size_of (lab p)))%Z).
Proof.
  intros Hp.
  assert (HI : forall q, In q (filter (fun q => mask q && Nat.eqb (lab q) (lab p)) (pixels n0 n1)) <-> conn p q).
  { intros q. rewrite filter_In, in_pixels, andb_true_iff, Nat.eqb_eq. split.
    - intros [H1 [H2 H3]]. apply label_conn; [exact Hp|now split|]. now symmetry.
    - intros C. pose proof (conn_inside _ _ _ _ C) as [_ Hq]. split; [apply Hq|]. split; [apply Hq|]. symmetry. now apply label_conn. }
  split.
  - intros [l [N [I L]]]. etransitivity; [exact L|]. apply Nat2Z.inj_le. unfold size_of.
    apply NoDup_incl_length; [exact N|]. intros q Hq. apply HI. now apply I.
  - intros L. eexists. split; [apply NoDup_filter; apply NoDup_pixels|]. split; [exact HI|]. exact L.
Qed.

(** C34 *)
Theorem remove_keeps m p : in_image n0 n1 p ->
  (remove_small_objects n0 n1 mask m c p = true <-> mask p = true /\ region_ge (adjacent c) inside m p).
Proof.
  intros Hi. split.
  - intros H. pose proof (remove_subset m p H) as M. assert (Hp : inside p) by now split. split; [exact M|].
    apply size_region; [exact Hp|]. now apply remove_spec.
  - intros [M R]. assert (Hp : inside p) by now split. apply remove_spec; [exact Hp|]. now apply size_region.
Qed.
End Label.

Lemma region_ge_conn (adj : pixel -> pixel -> Prop) ins m p q : (forall p q, adj p q -> adj q p) -> connected adj ins p q -> region_ge adj ins m p -> region_ge adj ins m q.
Proof.
  intros Hs C [l [N [I L]]]. exists l. split; [exact N|]. split; [|exact L]. intros r. rewrite I. split; intros H.
  - eapply conn_trans; [apply conn_sym; [exact Hs|exact C]|exact H].
  - eapply conn_trans; eauto.
Qed.

(** The pixels that remain form the same regions. *)
Lemma remove_conn c n0 n1 mask m p q : inside n0 n1 (remove_small_objects n0 n1 mask m c) p ->
  (connected (adjacent c) (inside n0 n1 (remove_small_objects n0 n1 mask m c)) p q <-> connected (adjacent c) (inside n0 n1 mask) p q).
Proof.
  apply conn_closed.
  - intros a [Hi H]. split; [exact Hi|]. now apply remove_subset in H.
  - intros a b [Hi H] C. pose proof (conn_inside _ _ _ _ C) as [_ [Hib Hb]]. split; [exact Hib|]. apply remove_keeps; [exact Hib|]. split; [exact Hb|].
    apply remove_keeps in H; [|exact Hi]. eapply region_ge_conn; [apply adjacent_sym|exact C|apply H].
Qed.
Lemma region_ge_remove c n0 n1 mask m m' p : inside n0 n1 (remove_small_objects n0 n1 mask m c) p ->
  (region_ge (adjacent c) (inside n0 n1 (remove_small_objects n0 n1 mask m c)) m' p <-> region_ge (adjacent c) (inside n0 n1 mask) m' p).
Proof. intros Hp. unfold region_ge. split; intros [l [N [I L]]]; exists l; (split; [exact N|split; [|exact L]]); intros q; rewrite I; [apply remove_conn|symmetry; apply remove_conn]; exact Hp. Qed.

Lemma remove_idempotent c n0 n1 mask m p : in_image n0 n1 p ->
  remove_small_objects n0 n1 (remove_small_objects n0 n1 mask m c) m c p = remove_small_objects n0 n1 mask m c p.
Proof.
  intros Hi. apply eq_true_iff_eq. rewrite remove_keeps by exact Hi. split; [tauto|]. intros H. split; [exact H|].
  apply region_ge_remove; [now split|]. now apply remove_keeps in H.
Qed.

Lemma remove_count c n0 n1 mask m :
  regions (adjacent c) (inside n0 n1 mask) (region_ge (adjacent c) (inside n0 n1 mask) m) (snd (nd_label c n0 n1 (remove_small_objects n0 n1 mask m c))).
Proof.
  destruct (label_count c n0 n1 (remove_small_objects n0 n1 mask m c)) as [r [N [L [I [U C]]]]].
  assert (HS : forall p, inside n0 n1 (remove_small_objects n0 n1 mask m c) p <-> inside n0 n1 mask p /\ region_ge (adjacent c) (inside n0 n1 mask) m p).
  { intros p. unfold inside at 1 2. split.
    - intros [Hi H]. apply remove_keeps in H; [tauto|exact Hi].
    - intros [[Hi H] R]. split; [exact Hi|]. apply remove_keeps; auto. }
  exists r. split; [exact N|]. split; [exact L|]. split; [|split].
  - intros p Hp. apply HS. now apply I.
  - intros p q Hp Hq Cc. apply U; auto. apply remove_conn; [now apply I|exact Cc].
  - intros p Hp R. destruct (C p) as [x [Hx Cx]]; [now apply HS|exact Logic.I|]. exists x. split; [exact Hx|]. apply remove_conn in Cx; [exact Cx|now apply HS].
Qed.

(** ** The genus *)
Local Open Scope R_scope.

Lemma regions_iff (adj : pixel -> pixel -> Prop) (ins ins' large large' : pixel -> Prop) k :
  (forall p, ins p <-> ins' p) -> (forall p, ins p -> (large p <-> large' p)) -> regions adj ins large k -> regions adj ins' large' k.
Proof.
  intros H HL R. apply (regions_map adj ins ins' (fun p => p) (fun p => p)) with (large := large); auto.
  - intros p Hp. split; [reflexivity|now apply H].
  - intros p Hp. split; [reflexivity|now apply H].
  - tauto.
Qed.
Lemma region_ge_ext (adj : pixel -> pixel -> Prop) (ins ins' : pixel -> Prop) m p : (forall p, ins p <-> ins' p) -> (region_ge adj ins m p <-> region_ge adj ins' m p).
Proof.
  intros H. assert (K : forall q, connected adj ins p q <-> connected adj ins' p q) by (intros q; split; apply conn_ext; auto; intros a; apply H).
  unfold region_ge. split; intros [l [N [I L]]]; exists l; (split; [exact N|split; [|exact L]]); intros q; rewrite I; [apply K|symmetry; apply K].
Qed.

Lemma high_above n0 n1 img t p : inside n0 n1 (fun p => fltb (Fin t) (img p)) p <-> above n0 n1 img t p.
Proof.
  unfold inside, above. destruct (img p) as [v| | |] eqn:E; cbn [fltb].
  - destruct (Rltb_spec t v); split; intros [H K]; split; auto; try discriminate; [right; exists v; auto|].
    destruct K as [K|[w [K L]]]; [discriminate|]. inversion K; subst. contradiction.
  - tauto.
  - split; intros [H K]; [discriminate|]. destruct K as [K|[w [K L]]]; discriminate.
  - split; intros [H K]; [discriminate|]. destruct K as [K|[w [K L]]]; discriminate.
Qed.
Lemma low_below n0 n1 img t p : inside n0 n1 (fun p => fltb (img p) (Fin t)) p <-> below n0 n1 img t p.
Proof.
  unfold inside, below. destruct (img p) as [v| | |] eqn:E; cbn [fltb].
  - destruct (Rltb_spec v t); split; intros [H K]; split; auto; try discriminate; [right; exists v; auto|].
    destruct K as [K|[w [K L]]]; [discriminate|]. inversion K; subst. contradiction.
  - split; intros [H K]; [discriminate|]. destruct K as [K|[w [K L]]]; discriminate.
  - tauto.
  - split; intros [H K]; [discriminate|]. destruct K as [K|[w [K L]]]; discriminate.
Qed.

(** The counts. *)
Lemma count_large c n0 n1 mask (ins : pixel -> Prop) m : (forall p, inside n0 n1 mask p <-> ins p) ->
  regions (adjacent c) ins (region_ge (adjacent c) ins m) (snd (nd_label c n0 n1 (remove_small_objects n0 n1 mask m c))).
Proof. intros H. eapply regions_iff; [exact H| |apply remove_count]. intros p _. now apply region_ge_ext. Qed.
Lemma count_all c n0 n1 mask (ins : pixel -> Prop) : (forall p, inside n0 n1 mask p <-> ins p) ->
  regions (adjacent c) ins (fun _ => True) (snd (nd_label c n0 n1 mask)).
Proof. intros H. eapply regions_iff; [exact H| |apply label_count]. tauto. Qed.

Lemma genus_counts n0 n1 img t m c : exists kh kl,
  regions (adjacent c) (above n0 n1 img t) (region_ge (adjacent c) (above n0 n1 img t) m) kh /\
  regions (adjacent c) (below n0 n1 img t) (region_ge (adjacent c) (below n0 n1 img t) m) kl /\
  genus_at n0 n1 img (Fin t) true m c = (Z.of_nat kh - Z.of_nat kl)%Z.
Proof.
  exists (snd (nd_label c n0 n1 (remove_small_objects n0 n1 (fun p => fltb (Fin t) (img p)) m c))), (snd (nd_label c n0 n1 (remove_small_objects n0 n1 (fun p => fltb (img p) (Fin t)) m c))).
  split; [|split; [|reflexivity]]; apply count_large; [apply high_above|apply low_below].
Qed.
Lemma genus_counts_all n0 n1 img t m c : exists kh kl,
  regions (adjacent c) (above n0 n1 img t) (fun _ => True) kh /\
  regions (adjacent c) (below n0 n1 img t) (fun _ => True) kl /\
  genus_at n0 n1 img (Fin t) false m c = (Z.of_nat kh - Z.of_nat kl)%Z.
Proof.
  exists (snd (nd_label c n0 n1 (fun p => fltb (Fin t) (img p)))), (snd (nd_label c n0 n1 (fun p => fltb (img p) (Fin t)))).
  split; [|split; [|reflexivity]]; apply count_all; [apply high_above|apply low_below].
Qed.
Lemma genus_is n0 n1 img t rm m c kh kl :
  regions (adjacent c) (above n0 n1 img t) (counted c (above n0 n1 img t) rm m) kh ->
  regions (adjacent c) (below n0 n1 img t) (counted c (below n0 n1 img t) rm m) kl ->
  genus_at n0 n1 img (Fin t) rm m c = (Z.of_nat kh - Z.of_nat kl)%Z.
Proof.
  intros Hh Hl. destruct rm; [destruct (genus_counts n0 n1 img t m c) as [a [b [Ha [Hb E]]]]|destruct (genus_counts_all n0 n1 img t m c) as [a [b [Ha [Hb E]]]]];
  rewrite E, (regions_unique _ _ _ _ _ (adjacent_sym c) Ha Hh), (regions_unique _ _ _ _ _ (adjacent_sym c) Hb Hl); reflexivity.
Qed.
Lemma counts_exist n0 n1 img t rm m c : exists kh kl,
  regions (adjacent c) (above n0 n1 img t) (counted c (above n0 n1 img t) rm m) kh /\
  regions (adjacent c) (below n0 n1 img t) (counted c (below n0 n1 img t) rm m) kl /\
  genus_at n0 n1 img (Fin t) rm m c = (Z.of_nat kh - Z.of_nat kl)%Z.
Proof. destruct rm; [apply genus_counts|apply genus_counts_all]. Qed.

(** C33 *)
Lemma fltb_neg x y : fltb (fneg x) (fneg y) = fltb y x.
Proof.
  destruct x as [a| | |], y as [b| | |]; cbn [fneg fltb]; try reflexivity.
  destruct (Rltb_spec (- a) (- b)), (Rltb_spec b a); try reflexivity; lra.
Qed.
Lemma genus_odd n0 n1 img t rm m c : genus_at n0 n1 (fun p => fneg (img p)) (fneg t) rm m c = (- genus_at n0 n1 img t rm m c)%Z.
Proof.
  unfold genus_at. cbv zeta.
  replace (fun p => fltb (fneg t) (fneg (img p))) with (fun p => fltb (img p) t) by (apply functional_extensionality; intros p; symmetry; apply fltb_neg).
  replace (fun p => fltb (fneg (img p)) (fneg t)) with (fun p => fltb t (img p)) by (apply functional_extensionality; intros p; symmetry; apply fltb_neg).
  lia.
Qed.
Lemma curve_odd smooth n0 n1 img thr radii rm m c :
  (forall w i, smooth w (fun p => fneg (i p)) = fun p => fneg (smooth w i p)) ->
  make_genus_curve smooth n0 n1 (fun p => fneg (img p)) (map fneg thr) radii rm m c =
  map (map Z.opp) (make_genus_curve smooth n0 n1 img thr radii rm m c).
Proof.
  intros Hs. unfold make_genus_curve. rewrite map_map. apply map_ext. intros w. rewrite !map_map. apply map_ext. intros t.
  destruct w as [w|]; [rewrite Hs|]; apply genus_odd.
Qed.
Lemma regions_none (adj : pixel -> pixel -> Prop) (ins large : pixel -> Prop) : (forall p, ~ ins p) -> regions adj ins large 0.
Proof. intros H. exists []. split; [constructor|]. split; [reflexivity|]. split; [intros p []|]. split; [intros p q []|]. intros p Hp. now apply H in Hp. Qed.
Lemma genus_top n0 n1 img t rm m c : (forall p, in_image n0 n1 p -> img p = NaN \/ exists v, img p = Fin v /\ v <= t) ->
  exists kl, regions (adjacent c) (below n0 n1 img t) (counted c (below n0 n1 img t) rm m) kl /\ genus_at n0 n1 img (Fin t) rm m c = (- Z.of_nat kl)%Z.
Proof.
  intros H. destruct (counts_exist n0 n1 img t rm m c) as [kh [kl [_ [Hl _]]]]. exists kl. split; [exact Hl|].
  rewrite (genus_is n0 n1 img t rm m c 0 kl); [reflexivity| |exact Hl]. apply regions_none. intros p [Hi [K|[v [K L]]]].
  - destruct (H p Hi) as [E|[w [E _]]]; congruence.
  - destruct (H p Hi) as [E|[w [E M]]]; [congruence|]. rewrite E in K. inversion K; subst. lra.
Qed.
Lemma genus_bottom n0 n1 img t rm m c : (forall p, in_image n0 n1 p -> img p = NaN \/ exists v, img p = Fin v /\ t <= v) ->
  exists kh, regions (adjacent c) (above n0 n1 img t) (counted c (above n0 n1 img t) rm m) kh /\ genus_at n0 n1 img (Fin t) rm m c = Z.of_nat kh.
Proof.
  intros H. destruct (counts_exist n0 n1 img t rm m c) as [kh [kl [Hh [_ _]]]]. exists kh. split; [exact Hh|].
  rewrite (genus_is n0 n1 img t rm m c kh 0); [lia|exact Hh|]. apply regions_none. intros p [Hi [K|[v [K L]]]].
  - destruct (H p Hi) as [E|[w [E _]]]; congruence.
  - destruct (H p Hi) as [E|[w [E M]]]; [congruence|]. rewrite E in K. inversion K; subst. lra.
Qed.

(** Invariances. *)
Lemma genus_transport n0 n1 n0' n1' img img' (f g : pixel -> pixel) t rm m c :
  (forall p, in_image n0 n1 p -> g (f p) = p /\ in_image n0' n1' (f p)) ->
  (forall p, in_image n0' n1' p -> img' p <> NaN -> f (g p) = p /\ in_image n0 n1 (g p)) ->
  (forall p, in_image n0 n1 p -> img' (f p) = img p) ->
  (forall p q, in_image n0 n1 p -> in_image n0 n1 q -> (adjacent c p q <-> adjacent c (f p) (f q))) ->
  genus_at n0' n1' img' (Fin t) rm m c = genus_at n0 n1 img (Fin t) rm m c.
Proof.
  intros Hgf Hfg HI HA. destruct (counts_exist n0 n1 img t rm m c) as [kh [kl [Hh [Hl E]]]]. rewrite E. clear E.
  assert (A1 : forall p, above n0' n1' img' t p -> f (g p) = p /\ above n0 n1 img t (g p)).
  { intros p [Hi K]. destruct (Hfg p Hi) as [E1 E2]; [destruct K as [K|[v [K _]]]; rewrite K; discriminate|]. split; [exact E1|]. split; [exact E2|].
    rewrite <- (HI (g p) E2), E1. exact K. }
  assert (A2 : forall p, above n0 n1 img t p -> g (f p) = p /\ above n0' n1' img' t (f p)).
  { intros p [Hi K]. destruct (Hgf p Hi) as [E1 E2]. split; [exact E1|]. split; [exact E2|]. now rewrite (HI p Hi). }
  assert (B1 : forall p, below n0' n1' img' t p -> f (g p) = p /\ below n0 n1 img t (g p)).
  { intros p [Hi K]. destruct (Hfg p Hi) as [E1 E2]; [destruct K as [K|[v [K _]]]; rewrite K; discriminate|]. split; [exact E1|]. split; [exact E2|].
    rewrite <- (HI (g p) E2), E1. exact K. }
  assert (B2 : forall p, below n0 n1 img t p -> g (f p) = p /\ below n0' n1' img' t (f p)).
  { intros p [Hi K]. destruct (Hgf p Hi) as [E1 E2]. split; [exact E1|]. split; [exact E2|]. now rewrite (HI p Hi). }
  apply genus_is.
  - apply (regions_map (adjacent c) (above n0 n1 img t) (above n0' n1' img' t) f g A1 A2) with (large := counted c (above n0 n1 img t) rm m); auto.
    + intros p q [Hp _] [Hq _]. now apply HA.
    + intros p Hp. destruct rm; [|reflexivity]. apply (region_ge_iff (adjacent c) _ _ f g m p A1 A2); auto. intros x y [Hx _] [Hy _]. now apply HA.
  - apply (regions_map (adjacent c) (below n0 n1 img t) (below n0' n1' img' t) f g B1 B2) with (large := counted c (below n0 n1 img t) rm m); auto.
    + intros p q [Hp _] [Hq _]. now apply HA.
    + intros p Hp. destruct rm; [|reflexivity]. apply (region_ge_iff (adjacent c) _ _ f g m p B1 B2); auto. intros x y [Hx _] [Hy _]. now apply HA.
Qed.

Lemma adjacent_gap c p q p' q' : gap (fst p) (fst q) = gap (fst p') (fst q') -> gap (snd p) (snd q) = gap (snd p') (snd q') -> (p = q <-> p' = q') ->
  (adjacent c p q <-> adjacent c p' q').
Proof. intros H1 H2 H3. unfold adjacent. destruct (Z.leb c 1); unfold adj4, adj8; rewrite H1, H2; [reflexivity|]. rewrite H3. reflexivity. Qed.

Lemma genus_transpose n0 n1 img t rm m c : genus_at n1 n0 (fun p => img (snd p, fst p)) (Fin t) rm m c = genus_at n0 n1 img (Fin t) rm m c.
Proof.
  apply genus_transport with (f := fun p => (snd p, fst p)) (g := fun p => (snd p, fst p)).
  - intros [a b] [H K]. split; [reflexivity|]. now split.
  - intros [a b] [H K] _. split; [reflexivity|]. now split.
  - intros [a b] _. reflexivity.
  - intros [a b] [d e] _ _. unfold adjacent. destruct (Z.leb c 1); unfold adj4, adj8; cbn [fst snd]; [lia|].
    split; intros [N [H K]]; (split; [intros E; apply N; inversion E; reflexivity|auto]).
Qed.
Lemma genus_flip_rows n0 n1 img t rm m c : genus_at n0 n1 (fun p => img ((n0 - 1 - fst p)%nat, snd p)) (Fin t) rm m c = genus_at n0 n1 img (Fin t) rm m c.
Proof.
  apply genus_transport with (f := fun p => ((n0 - 1 - fst p)%nat, snd p)) (g := fun p => ((n0 - 1 - fst p)%nat, snd p)).
  - intros [a b] [H K]. cbn [fst snd] in *. split; [f_equal; lia|]. split; cbn [fst snd]; lia.
  - intros [a b] [H K] _. cbn [fst snd] in *. split; [f_equal; lia|]. split; cbn [fst snd]; lia.
  - intros [a b] [H K]. cbn [fst snd] in *. do 2 f_equal. lia.
  - intros [a b] [d e] [H K] [H' K']. cbn [fst snd] in *. apply adjacent_gap; cbn [fst snd]; unfold gap; [lia|lia|].
    split; intros E; inversion E; f_equal; lia.
Qed.
Lemma genus_flip_cols n0 n1 img t rm m c : genus_at n0 n1 (fun p => img (fst p, (n1 - 1 - snd p)%nat)) (Fin t) rm m c = genus_at n0 n1 img (Fin t) rm m c.
Proof.
  apply genus_transport with (f := fun p => (fst p, (n1 - 1 - snd p)%nat)) (g := fun p => (fst p, (n1 - 1 - snd p)%nat)).
  - intros [a b] [H K]. cbn [fst snd] in *. split; [f_equal; lia|]. split; cbn [fst snd]; lia.
  - intros [a b] [H K] _. cbn [fst snd] in *. split; [f_equal; lia|]. split; cbn [fst snd]; lia.
  - intros [a b] [H K]. cbn [fst snd] in *. do 2 f_equal. lia.
  - intros [a b] [d e] [H K] [H' K']. cbn [fst snd] in *. apply adjacent_gap; cbn [fst snd]; unfold gap; [lia|lia|].
    split; intros E; inversion E; f_equal; lia.
Qed.
(** A border of blank pixels: b0, b1 before and any number after. *)
Lemma genus_border n0 n1 n0' n1' b0 b1 img img' t rm m c : (b0 + n0 <= n0')%nat -> (b1 + n1 <= n1')%nat ->
  (forall p, in_image n0 n1 p -> img' ((fst p + b0)%nat, (snd p + b1)%nat) = img p) ->
  (forall p, ~ (b0 <= fst p < b0 + n0 /\ b1 <= snd p < b1 + n1)%nat -> img' p = NaN) ->
  genus_at n0' n1' img' (Fin t) rm m c = genus_at n0 n1 img (Fin t) rm m c.
Proof.
  intros L0 L1 HI HN. apply genus_transport with (f := fun p => ((fst p + b0)%nat, (snd p + b1)%nat)) (g := fun p => ((fst p - b0)%nat, (snd p - b1)%nat)).
  - intros [a b] [H K]. cbn [fst snd] in *. split; [f_equal; lia|]. split; cbn [fst snd]; lia.
  - intros [a b] [H K] NN. cbn [fst snd] in *.
    assert (B : (b0 <= a < b0 + n0 /\ b1 <= b < b1 + n1)%nat).
    { destruct (le_lt_dec b0 a), (le_lt_dec (b0 + n0) a), (le_lt_dec b1 b), (le_lt_dec (b1 + n1) b); try lia; exfalso; apply NN; apply HN; cbn [fst snd]; lia. }
    split; [f_equal; lia|]. split; cbn [fst snd]; lia.
  - exact HI.
  - intros [a b] [d e] [H K] [H' K']. cbn [fst snd] in *. apply adjacent_gap; cbn [fst snd]; unfold gap; [lia|lia|].
    split; intros E; inversion E; f_equal; lia.
Qed.
(** An increasing change of the intensity scale. *)
Lemma genus_increasing n0 n1 img t rm m c (phi : R -> R) : (forall a b, a < b -> phi a < phi b) ->
  genus_at n0 n1 (fun p => fmap phi (img p)) (Fin (phi t)) rm m c = genus_at n0 n1 img (Fin t) rm m c.
Proof.
  intros HP. assert (K : forall a b, Rltb (phi a) (phi b) = Rltb a b).
  { intros a b. destruct (Rltb_spec a b) as [L|L], (Rltb_spec (phi a) (phi b)) as [L'|L']; try reflexivity.
    - apply HP in L. lra.
    - exfalso. destruct (Req_dec a b) as [->|N]; [lra|]. assert (b < a) as G by lra. apply HP in G. lra. }
  unfold genus_at. cbv zeta.
  replace (fun p => fltb (Fin (phi t)) (fmap phi (img p))) with (fun p => fltb (Fin t) (img p)) by (apply functional_extensionality; intros p; destruct (img p); cbn [fmap fltb]; auto).
  replace (fun p => fltb (fmap phi (img p)) (Fin (phi t))) with (fun p => fltb (img p) (Fin t)) by (apply functional_extensionality; intros p; destruct (img p); cbn [fmap fltb]; auto).
  reflexivity.
Qed.

(** ** Beam, thresholds, radii, table *)

Lemma ln2_pos : 0 < ln 2.
Proof. rewrite <- ln_1. apply ln_increasing; lra. Qed.
Lemma sqrt8_pos : 0 < sqrt (8 * ln 2).
Proof. apply sqrt_lt_R0. pose proof ln2_pos. lra. Qed.

Lemma beam_size s major minor sz : min_size_of s (Some (major, minor)) true sz = Ok (Int_part (sqrt (8 * ln 2) * beam_area major minor)).
Proof.
  unfold min_size_of. apply (f_equal Ok). apply f_equal. unfold beam_area, sigma_of_fwhm. pose proof sqrt8_pos. field. lra.
Qed.
Lemma Int_part_mono a b : a + 1 <= b -> (Int_part a < Int_part b)%Z.
Proof.
  intros H. destruct (base_Int_part a) as [A1 A2], (base_Int_part b) as [B1 B2]. apply lt_IZR. lra.
Qed.
Lemma ln2_half : 1 / 2 < ln 2.
Proof.
  assert (H : ln (exp (1 / 2)) < ln 2); [|now rewrite ln_exp in H].
  apply ln_increasing; [apply exp_pos|]. assert (S : exp (1 / 2) * exp (1 / 2) = exp 1) by (rewrite <- exp_plus; f_equal; lra).
  pose proof exp_le_3. pose proof (exp_pos (1 / 2)). destruct (Rlt_le_dec (exp (1 / 2)) 2); [assumption|]. nra.
Qed.
Lemma sqrt8_gt2 : 2 < sqrt (8 * ln 2).
Proof.
  pose proof ln2_half. assert (E : sqrt (Rsqr 2) < sqrt (8 * ln 2)); [apply sqrt_lt_1; unfold Rsqr; lra|]. now rewrite sqrt_Rsqr in E by lra.
Qed.

Lemma beam_refuted : ~ (forall s major minor sz, 0 < minor <= major -> min_size_of s (Some (major, minor)) true sz = Ok (Int_part (beam_area major minor))).
Proof.
  intros H. set (w := sqrt (8 * ln 2)). assert (W : 2 < w) by apply sqrt8_gt2.
  assert (Hw : 0 < w <= w) by lra. specialize (H (mk_stat None None) w w (SizePix 4) Hw). rewrite beam_size in H.
  apply (f_equal (fun r => match r with Ok z => z | Err _ => 0%Z end)) in H. fold w in H.
  assert (A : beam_area w w = 2 * PI). { unfold beam_area, sigma_of_fwhm. fold w. field. lra. }
  rewrite A in H. assert (L : (Int_part (2 * PI) < Int_part (w * (2 * PI)))%Z); [|lia].
  apply Int_part_mono. pose proof PI2_1. nra.
Qed.

Lemma linspace_length a b n : length (linspace a b n) = n.
Proof. unfold linspace. destruct (Nat.leb n 1); apply tab1_length. Qed.
Lemma linspace_nth a b n i : (2 <= n)%nat -> (i < n)%nat -> nth i (linspace a b n) 0 = a + INR i * ((b - a) / INR (n - 1)).
Proof. intros Hn Hi. unfold linspace. destruct (Nat.leb_spec n 1); [lia|]. now rewrite tab1_nth. Qed.
Lemma linspace_first a b n : (1 <= n)%nat -> nth 0 (linspace a b n) 0 = a.
Proof.
  intros Hn. destruct (Nat.eq_dec n 1) as [->|N]; [reflexivity|]. rewrite linspace_nth by lia. cbn [INR]. ring.
Qed.
Lemma linspace_last a b n : (2 <= n)%nat -> nth (n - 1) (linspace a b n) 0 = b.
Proof. intros Hn. assert (P : 0 < INR (n - 1)) by (apply lt_0_INR; lia). rewrite linspace_nth by lia. field. lra. Qed.
Lemma linspace_spec a b n : (2 <= n)%nat -> evenly_spaced a b n (linspace a b n).
Proof.
  intros Hn. assert (P : 0 < INR (n - 1)) by (apply lt_0_INR; lia).
  split; [apply linspace_length|]. split; [apply linspace_first; lia|]. split; [now apply linspace_last|].
  intros i Hi. rewrite !linspace_nth by lia. rewrite S_INR. field. lra.
Qed.

Lemma thresholds_spec data_min data_max pct lo hi numpts : (2 <= numpts)%nat ->
  evenly_spaced (match lo with Some v => v | None => data_min end) (match hi with Some v => v | None => data_max end) numpts
    (thresholds_of None data_min data_max pct lo hi 0 100 numpts) /\
  (forall pl ph, pl <> 0 -> ph <> 100 -> evenly_spaced (pct pl) (pct ph) numpts (thresholds_of None data_min data_max pct None None pl ph numpts)) /\
  (forall t pl ph, thresholds_of (Some t) data_min data_max pct lo hi pl ph numpts = t).
Proof.
  intros Hn. split; [|split].
  - unfold thresholds_of. destruct (Reqb_spec 0 0); [|lra]. destruct (Reqb_spec 100 100); [|lra]. now apply linspace_spec.
  - intros pl ph H1 H2. unfold thresholds_of. destruct (Reqb_spec pl 0); [lra|]. destruct (Reqb_spec ph 100); [lra|]. now apply linspace_spec.
  - reflexivity.
Qed.
Lemma percentile_refuted : ~ (forall data_min data_max pct lo hi pl ph numpts, (2 <= numpts)%nat ->
  nth 0 (thresholds_of None data_min data_max pct (Some lo) hi pl ph numpts) 0 = Rmax lo (pct pl)).
Proof.
  intros H. specialize (H 0 10 (fun q => q / 10) 1 (Some 9) 50 100 2%nat (le_n _)). unfold thresholds_of in H. rewrite linspace_first in H by lia.
  unfold Rmax in H. destruct (Rle_dec 1 (50 / 10)); lra.
Qed.

Lemma numpts_refuted : ~ (forall data_min data_max pct lo hi pl ph numpts, length (distance_thresholds data_min data_max pct lo hi pl ph numpts) = numpts).
Proof. intros H. specialize (H 0 1 (fun q => q) None None 0 100 7%nat). unfold distance_thresholds, thresholds_of in H. rewrite linspace_length in H. discriminate. Qed.
Lemma numpts_partial data_min data_max pct lo hi pl ph numpts : length (distance_thresholds data_min data_max pct lo hi pl ph numpts) = 100%nat.
Proof. unfold distance_thresholds, thresholds_of. apply linspace_length. Qed.

Lemma radii_spec l n0 n1 :
  smoothing_radii_of true (Some l) n0 n1 = if forallb (fun v => Rleb 1 v && Rleb v (INR (Nat.min n0 n1) / 2)) l then Ok (map Some l) else Err ValueError.
Proof.
  unfold smoothing_radii_of. destruct (forallb _ l) eqn:F.
  - rewrite forallb_forall in F.
    assert (E1 : existsb (fun v => Rltb v 1) l = false).
    { destruct (existsb (fun v => Rltb v 1) l) eqn:E; [|reflexivity]. apply existsb_exists in E. destruct E as [v [Hv Hl]]. apply F in Hv. apply andb_true_iff in Hv. destruct Hv as [Hv _].
      destruct (Rltb_spec v 1), (Rleb_spec 1 v); try discriminate. lra. }
    assert (E2 : existsb (fun v => Rltb (1 / 2 * INR (Nat.min n0 n1)) v) l = false).
    { destruct (existsb (fun v => Rltb (1 / 2 * INR (Nat.min n0 n1)) v) l) eqn:E; [|reflexivity]. apply existsb_exists in E. destruct E as [v [Hv Hl]]. apply F in Hv. apply andb_true_iff in Hv. destruct Hv as [_ Hv].
      destruct (Rltb_spec (1 / 2 * INR (Nat.min n0 n1)) v), (Rleb_spec v (INR (Nat.min n0 n1) / 2)); try discriminate. lra. }
    now rewrite E1, E2.
  - destruct (existsb (fun v => Rltb v 1) l) eqn:E1; [reflexivity|]. destruct (existsb (fun v => Rltb (1 / 2 * INR (Nat.min n0 n1)) v) l) eqn:E2; [reflexivity|].
    exfalso. assert (T : forallb (fun v => Rleb 1 v && Rleb v (INR (Nat.min n0 n1) / 2)) l = true); [|congruence].
    apply forallb_forall. intros v Hv. apply andb_true_iff. split.
    + destruct (Rleb_spec 1 v); [reflexivity|]. assert (X : existsb (fun v => Rltb v 1) l = true); [|congruence]. apply existsb_exists. exists v. split; [exact Hv|]. destruct (Rltb_spec v 1); [reflexivity|lra].
    + destruct (Rleb_spec v (INR (Nat.min n0 n1) / 2)); [reflexivity|]. assert (X : existsb (fun v => Rltb (1 / 2 * INR (Nat.min n0 n1)) v) l = true); [|congruence].
      apply existsb_exists. exists v. split; [exact Hv|]. destruct (Rltb_spec (1 / 2 * INR (Nat.min n0 n1)) v); [reflexivity|lra].
Qed.
Lemma radii_accept l n0 n1 : (forall v, In v l -> 1 <= v <= INR (Nat.min n0 n1) / 2) <-> smoothing_radii_of true (Some l) n0 n1 = Ok (map Some l).
Proof.
  rewrite radii_spec. destruct (forallb _ l) eqn:F.
  - split; [reflexivity|]. intros _ v Hv. rewrite forallb_forall in F. apply F in Hv. apply andb_true_iff in Hv. destruct Hv.
    destruct (Rleb_spec 1 v), (Rleb_spec v (INR (Nat.min n0 n1) / 2)); try discriminate. lra.
  - split; [|discriminate]. intros H. exfalso. assert (T : forallb (fun v => Rleb 1 v && Rleb v (INR (Nat.min n0 n1) / 2)) l = true); [|congruence].
    apply forallb_forall. intros v Hv. apply H in Hv. destruct (Rleb_spec 1 v), (Rleb_spec v (INR (Nat.min n0 n1) / 2)); try lra; reflexivity.
Qed.
Lemma radii_default_refuted : ~ (forall n0 n1, (20 <= Nat.min n0 n1)%nat ->
  exists l, smoothing_radii_of true None n0 n1 = Ok (map Some l) /\ evenly_spaced 1 (INR (Nat.min n0 n1) / 10) 5 l).
Proof.
  intros H. destruct (H 20%nat 20%nat (le_n _)) as [l [E [L _]]].
  assert (D : smoothing_radii_of true None 20 20 = Ok [Some 1]).
  { transitivity (smoothing_radii_of true (Some [1]) 20 20); [reflexivity|]. change [Some 1] with (map (@Some R) [1]). apply radii_accept.
    intros v [<-|[]]. change (Nat.min 20 20) with 20%nat. replace (INR 20) with 20 by (cbn [INR]; lra). lra. }
  rewrite D in E. apply (f_equal (fun r => match r with Ok x => length x | Err _ => 0%nat end)) in E. rewrite map_length, L in E. discriminate.
Qed.
Lemma radii_default n0 n1 : (2 <= Nat.min n0 n1)%nat -> smoothing_radii_of true None n0 n1 = Ok [Some 1].
Proof.
  intros H. transitivity (smoothing_radii_of true (Some [1]) n0 n1); [reflexivity|]. change [Some 1] with (map (@Some R) [1]). apply radii_accept.
  intros v [<-|[]]. apply le_INR in H. cbn [INR] in H. lra.
Qed.

Lemma flat_map_double {A B} (f : A -> B) (l : list A) : length (flat_map (fun i => [f i; f i]) l) = (2 * length l)%nat.
Proof. induction l; cbn [flat_map app length]; [reflexivity|]. rewrite IHl. lia. Qed.
Lemma flat_map_double_nth {A B} (f : A -> B) (l : list A) (d : B) (a : A) i : (i < length l)%nat ->
  nth (2 * i) (flat_map (fun i => [f i; f i]) l) d = f (nth i l a) /\ nth (2 * i + 1) (flat_map (fun i => [f i; f i]) l) d = f (nth i l a).
Proof.
  revert i. induction l as [|x l IH]; intros i Hi; [cbn in Hi; lia|]. destruct i as [|i]; [split; reflexivity|].
  replace (2 * S i)%nat with (S (S (2 * i))) by lia. cbn [length] in Hi. destruct (IH i ltac:(lia)) as [A1 A2]. split; [exact A1|exact A2].
Qed.
Definition table_of (thresholds : list R) (genus_stats : list (list Z)) (means stds : list fl) (radii : list (option R)) (ii : nat) : table :=
  (thresholds, nth ii genus_stats [], repeat (nth ii means NaN) (length thresholds), repeat (nth ii stds NaN) (length thresholds), repeat (nth ii radii None) (length thresholds)).
Lemma tables_refuted : ~ (forall thresholds genus_stats means stds radii,
  length (make_genus_stats_table thresholds genus_stats means stds radii) = length radii).
Proof. intros H. specialize (H [0] [[0%Z]] [Fin 0] [Fin 0] [Some 1]). discriminate. Qed.
Lemma tables_partial thresholds genus_stats means stds radii :
  let tabs := make_genus_stats_table thresholds genus_stats means stds radii in
  length tabs = (2 * length radii)%nat /\
  forall ii, (ii < length radii)%nat ->
    let t := (thresholds, nth ii genus_stats [], repeat (nth ii means NaN) (length thresholds), repeat (nth ii stds NaN) (length thresholds), repeat (nth ii radii None) (length thresholds)) in
    nth (2 * ii) tabs ([], [], [], [], []) = t /\ nth (2 * ii + 1) tabs ([], [], [], [], []) = t.
Proof.
  cbv zeta. split.
  - change (length (flat_map (fun i => [table_of thresholds genus_stats means stds radii i; table_of thresholds genus_stats means stds radii i]) (seq 0 (length radii))) = (2 * length radii)%nat).
    rewrite flat_map_double, seq_length. reflexivity.
  - intros ii Hi. destruct (flat_map_double_nth (table_of thresholds genus_stats means stds radii) (seq 0 (length radii)) ([], [], [], [], []) 0%nat ii) as [A1 A2]; [now rewrite seq_length|].
    rewrite seq_nth in A1, A2 by exact Hi. split; [exact A1|exact A2].
Qed.

(** The two diagonal pixels of a 2 x 2 image. *)
Definition diag_img (p : pixel) : fl := if Nat.eqb (fst p) (snd p) then Fin 1 else NaN.
Lemma diag_above p : above 2 2 diag_img 0 p <-> p = (0, 0)%nat \/ p = (1, 1)%nat.
Proof.
  destruct p as [a b]. unfold above, in_image, diag_img. cbn [fst snd]. split.
  - intros [[H K] L]. destruct (Nat.eqb_spec a b) as [->|N]; [|destruct L as [L|[v [L _]]]; discriminate].
    destruct b as [|[|b]]; [left; reflexivity|right; reflexivity|lia].
  - intros [E|E]; inversion E; cbn [Nat.eqb]; (split; [lia|]); right; exists 1; split; try reflexivity; lra.
Qed.
Lemma diag_genus4 : genus_at 2 2 diag_img (Fin 0) true 1 1 = 2%Z.
Proof.
  apply (genus_is 2 2 diag_img 0 true 1 1 2 0).
    - assert (C : forall p q, connected adj4 (above 2 2 diag_img 0) p q -> p = q).
      { intros p q C. induction C as [p Hp|p q r C IH A Hr]; [reflexivity|]. subst q. exfalso.
        assert (Hp : above 2 2 diag_img 0 p) by (apply (conn_inside _ _ _ _ C)).
        apply diag_above in Hp, Hr. destruct Hp as [->| ->], Hr as [->| ->]; cbn in A; discriminate. }
      exists [(0, 0); (1, 1)]%nat. split; [repeat constructor; cbn; intuition discriminate|]. split; [reflexivity|]. split; [|split].
      + intros p [<-|[<-|[]]]; (split; [apply diag_above; auto|]).
        * exists [(0, 0)]%nat. split; [repeat constructor; intros []|]. split; [|cbn; lia]. intros q. split.
          -- intros [<-|[]]. apply connected_refl. apply diag_above. auto.
          -- intros K. apply C in K. now left.
        * exists [(1, 1)]%nat. split; [repeat constructor; intros []|]. split; [|cbn; lia]. intros q. split.
          -- intros [<-|[]]. apply connected_refl. apply diag_above. auto.
          -- intros K. apply C in K. now left.
      + intros p q _ _ K. now apply C.
      + intros p Hp _. exists p. split; [|now apply connected_refl]. apply diag_above in Hp. destruct Hp as [-> | ->]; [left|right; left]; reflexivity.
    - apply regions_none. intros p [_ K]. unfold diag_img in K. destruct (Nat.eqb (fst p) (snd p)); destruct K as [K|[v [K M]]]; try discriminate. inversion K; subst. lra.
Qed.
Lemma eight_refuted : ~ (forall n0 n1 img t m c, exists kh kl,
  regions adj8 (above n0 n1 img t) (region_ge (adjacent c) (above n0 n1 img t) m) kh /\
  regions adj8 (below n0 n1 img t) (region_ge (adjacent c) (below n0 n1 img t) m) kl /\
  genus_at n0 n1 img (Fin t) true m c = (Z.of_nat kh - Z.of_nat kl)%Z).
Proof.
  intros H. destruct (H 2%nat 2%nat diag_img 0 1%Z 1%Z) as [kh [kl [Hh [Hl E]]]]. clear H.
  assert (L0 : kl = 0%nat).
  { destruct kl as [|kl]; [reflexivity|]. destruct Hl as [reps [_ [L [HI _]]]]. destruct reps as [|p r]; [discriminate|].
    destruct (HI p (or_introl eq_refl)) as [[_ K] _]. exfalso. unfold diag_img in K. destruct (Nat.eqb (fst p) (snd p)); destruct K as [K|[v [K M]]]; try discriminate. inversion K; subst. lra. }
  assert (L1 : (kh <= 1)%nat).
  { destruct Hh as [reps [N [L [HI [HU _]]]]]. destruct reps as [|p [|q r]]; cbn [length] in L; try lia. exfalso.
    assert (C : connected adj8 (above 2 2 diag_img 0) p q).
    { destruct (HI p) as [Hp _]; [now left|]. destruct (HI q) as [Hq _]; [right; now left|].
      apply diag_above in Hp as Hp'. apply diag_above in Hq as Hq'.
      destruct Hp' as [->|Hp'], Hq' as [->|Hq']; try subst; try (now apply connected_refl); (eapply connected_step; [apply connected_refl; exact Hp| |exact Hq]); (split; [discriminate|]); cbn; lia. }
    apply HU in C; [|now left|right; now left]. subst q. apply NoDup_cons_iff in N. apply (proj1 N). now left. }
  rewrite diag_genus4, L0 in E. lia.
Qed.

(** ** The Gaussian genus curve *)
Lemma gg_factor x A th : model_gaussian_genus x A th = A / th ^ 2 / Rpower (2 * PI) (3 / 2) * (x * exp (- x ^ 2 / 2)).
Proof. unfold model_gaussian_genus, Rdiv. ring. Qed.
Lemma gg_odd x A th : model_gaussian_genus (- x) A th = - model_gaussian_genus x A th.
Proof. rewrite !gg_factor. replace (- (- x) ^ 2 / 2) with (- x ^ 2 / 2) by field. ring. Qed.
Lemma gg_scale_pos A th : 0 < A -> th <> 0 -> 0 < A / th ^ 2 / Rpower (2 * PI) (3 / 2).
Proof.
  intros HA Ht. apply Rdiv_lt_0_compat; [|apply exp_pos]. apply Rdiv_lt_0_compat; [exact HA|]. rewrite <- Rsqr_pow2. now apply Rsqr_pos_lt.
Qed.
Lemma gg_sign x A th : 0 < A -> th <> 0 -> (0 < model_gaussian_genus x A th <-> 0 < x) /\ (model_gaussian_genus x A th = 0 <-> x = 0).
Proof.
  intros HA Ht. pose proof (gg_scale_pos A th HA Ht) as P. rewrite gg_factor. set (k := A / th ^ 2 / Rpower (2 * PI) (3 / 2)) in *. pose proof (exp_pos (- x ^ 2 / 2)) as E.
  set (e := exp (- x ^ 2 / 2)) in *. assert (Q : 0 < k * e) by nra. replace (k * (x * e)) with (k * e * x) by ring. split; split; intros H.
  - destruct (Rlt_le_dec 0 x); [assumption|]. exfalso. nra.
  - nra.
  - apply Rmult_integral in H. destruct H; [lra|assumption].
  - subst. ring.
Qed.
Lemma gg_peak x A th : 0 < A -> th <> 0 -> x <> 1 -> model_gaussian_genus x A th < model_gaussian_genus 1 A th.
Proof.
  intros HA Ht Hx. pose proof (gg_scale_pos A th HA Ht) as P. rewrite !gg_factor. apply Rmult_lt_compat_l; [exact P|].
  destruct (Rle_dec x 0) as [N|N].
  - pose proof (exp_pos (- x ^ 2 / 2)). pose proof (exp_pos (- 1 ^ 2 / 2)). nra.
  - assert (X : 0 < x) by lra. rewrite Rmult_1_l.
    (* x < exp ((x^2-1)/2) *)
    assert (I : x < exp ((x ^ 2 - 1) / 2)).
    { destruct (Req_dec ((x ^ 2 - 1) / 2) 0) as [Z|Z]; [exfalso; nra|]. pose proof (exp_ineq1 _ Z) as J. nra. }
    replace (exp (- 1 ^ 2 / 2)) with (exp ((x ^ 2 - 1) / 2) * exp (- x ^ 2 / 2)) by (rewrite <- exp_plus; f_equal; field).
    apply Rmult_lt_compat_r; [apply exp_pos|exact I].
Qed.
Lemma curve_nth smooth n0 n1 img thr radii rm m c j i : (j < length radii)%nat -> (i < length thr)%nat ->
  nth i (nth j (make_genus_curve smooth n0 n1 img thr radii rm m c) []) 0%Z =
  genus_at n0 n1 (match nth j radii None with None => img | Some w => smooth w img end) (nth i thr NaN) rm m c.
Proof.
  intros Hj Hi. unfold make_genus_curve. cbv zeta.
  set (f := fun width : option R => map (fun thresh => genus_at n0 n1 (match width with None => img | Some w => smooth w img end) thresh rm m c) thr).
  rewrite nth_indep with (d' := f None) by now rewrite map_length.
  rewrite (map_nth f). unfold f. clear f. set (h := fun thresh => genus_at n0 n1 (match nth j radii None with None => img | Some w => smooth w img end) thresh rm m c).
  rewrite nth_indep with (d' := h NaN) by now rewrite map_length.
  now rewrite (map_nth h).
Qed.
Lemma diag_odd : genus_at 2 2 diag_img (Fin 0) true 1 1 = 2%Z /\ genus_at 2 2 (fun p => fneg (diag_img p)) (fneg (Fin 0)) true 1 1 = (-2)%Z.
Proof. split; [exact diag_genus4|]. rewrite genus_odd, diag_genus4. reflexivity. Qed.
Lemma diag_scaled : genus_at 2 2 (fun p => fmap (fun x => 3 * x + 1) (diag_img p)) (Fin (3 * 0 + 1)) true 1 1 = 2%Z.
Proof. rewrite (genus_increasing 2 2 diag_img 0 true 1 1 (fun x => 3 * x + 1)); [exact diag_genus4|]. intros a b H. lra. Qed.
