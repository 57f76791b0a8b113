(** Connected regions: general facts. *)
From Coq Require Import ZArith List Arith Lia Bool.
From Verif Require Import Spec.Regions.
Import ListNotations.

Lemma gap_sym a b : gap a b = gap b a.
Proof. unfold gap. lia. Qed.
Lemma adjacent_sym c p q : adjacent c p q -> adjacent c q p.
Proof.
  unfold adjacent. destruct (Z.leb c 1); unfold adj4, adj8; rewrite (gap_sym (fst q)), (gap_sym (snd q)); [auto|]. intros [H K]. split; auto.
Qed.

Section Conn.
Context (adj : pixel -> pixel -> Prop) (inside : pixel -> Prop).
Hypothesis adj_sym : forall p q, adj p q -> adj q p.
Notation conn := (connected adj inside).

Lemma conn_inside p q : conn p q -> inside p /\ inside q.
Proof. induction 1; tauto. Qed.
Lemma conn_trans p q r : conn p q -> conn q r -> conn p r.
Proof. intros H K. induction K as [a Ha|a b d K IH A Hd]; [exact H|]. apply connected_step with b; auto. Qed.
Lemma conn_sym p q : conn p q -> conn q p.
Proof.
  induction 1; [now apply connected_refl|]. apply conn_trans with q; [|exact IHconnected].
  eapply connected_step; [apply connected_refl; exact H1|apply adj_sym; exact H0|]. apply (conn_inside _ _ H).
Qed.
End Conn.

Lemma conn_ext (adj adj' : pixel -> pixel -> Prop) (ins ins' : pixel -> Prop) p q : (forall a b, ins a -> ins b -> adj a b -> adj' a b) -> (forall a, ins a -> ins' a) ->
  connected adj ins p q -> connected adj' ins' p q.
Proof.
  intros H K C. induction C; [apply connected_refl; auto|]. eapply connected_step; eauto. apply H; auto. apply (conn_inside _ _ _ _ C).
Qed.

(** A subset that is a union of regions has the same regions. *)
Lemma conn_closed (adj : pixel -> pixel -> Prop) (ins sub : pixel -> Prop) p q : (forall a, sub a -> ins a) -> (forall a b, sub a -> connected adj ins a b -> sub b) ->
  sub p -> (connected adj sub p q <-> connected adj ins p q).
Proof.
  intros H K Hp. split.
  - apply conn_ext; auto.
  - intros C. induction C as [p Hi|p q r C IH A Hr]; [now apply connected_refl|].
    eapply connected_step; [apply IH; exact Hp|exact A|]. apply K with p; [exact Hp|]. eapply connected_step; eauto.
Qed.

(** The number of regions is determined. *)
Lemma regions_le (adj : pixel -> pixel -> Prop) ins large k k' : (forall p q, adj p q -> adj q p) -> regions adj ins large k -> regions adj ins large k' -> k <= k'.
Proof.
  intros Hs [r [N [L [I [U C]]]]] [r' [N' [L' [I' [U' C']]]]]. rewrite <- L, <- L'. clear L L'.
  assert (HF : forall p, In p r -> exists q, In q r' /\ connected adj ins p q) by (intros p Hp; destruct (I p Hp); now apply C').
  clear C C' I U'. revert r' N' I' HF. induction r as [|p r IH]; intros r' N' I' HF; cbn [length]; [lia|].
  destruct (HF p (or_introl eq_refl)) as [q [Hq Cpq]]. apply in_split in Hq. destruct Hq as [l1 [l2 ->]].
  inversion N as [|? ? Nin Nr]; subst. apply NoDup_remove in N'. destruct N' as [N1 N2].
  rewrite app_length. cbn [length]. replace (length l1 + S (length l2)) with (S (length (l1 ++ l2))) by (rewrite app_length; lia).
  apply le_n_S. apply IH; [exact Nr|intros a b Ha Hb; apply U; now right|exact N1|intros x Hx; apply I'; apply in_app_iff in Hx; apply in_app_iff; cbn [In]; tauto|].
  intros x Hx. destruct (HF x (or_intror Hx)) as [y [Hy Cxy]]. exists y. split; [|exact Cxy].
  apply in_app_iff in Hy. apply in_app_iff. destruct Hy as [Hy|[<-|Hy]]; [tauto| |tauto].
  exfalso. apply Nin. rewrite (U p x); [exact Hx|now left|now right|]. eapply conn_trans; [exact Cpq|]. now apply conn_sym.
Qed.
Lemma regions_unique (adj : pixel -> pixel -> Prop) ins large k k' : (forall p q, adj p q -> adj q p) -> regions adj ins large k -> regions adj ins large k' -> k = k'.
Proof. intros Hs H H'. apply Nat.le_antisymm; eapply regions_le; eauto. Qed.

(** Regions are carried by a map of pixels that keeps neighbours. *)
Section Transport.
Context (adj : pixel -> pixel -> Prop) (ins ins' : pixel -> Prop) (f g : pixel -> pixel).
Hypothesis fg : forall p, ins' p -> f (g p) = p /\ ins (g p).
Hypothesis gf : forall p, ins p -> g (f p) = p /\ ins' (f p).
Hypothesis fadj : forall p q, ins p -> ins q -> (adj p q <-> adj (f p) (f q)).

Lemma conn_map p q : connected adj ins p q -> connected adj ins' (f p) (f q).
Proof.
  induction 1 as [p Hi|p q r C IH A Hr]; [apply connected_refl; now apply gf|].
  eapply connected_step; [exact IH| |now apply gf]. destruct (conn_inside _ _ _ _ C) as [_ Hq]. now apply (proj1 (fadj q r Hq Hr)).
Qed.
Lemma conn_map_inv p q : ins p -> connected adj ins' (f p) q -> connected adj ins p (g q).
Proof.
  intros Hp C. remember (f p) as p' eqn:E. induction C as [p0 Hi|p0 q r C IH A Hr]; subst.
  - destruct (gf p Hp) as [-> _]. now apply connected_refl.
  - eapply connected_step; [now apply IH| |now apply fg]. destruct (conn_inside _ _ _ _ C) as [_ Hq].
    apply (proj2 (fadj (g q) (g r) (proj2 (fg q Hq)) (proj2 (fg r Hr)))). destruct (fg q Hq) as [-> _]. destruct (fg r Hr) as [-> _]. exact A.
Qed.

Lemma map_NoDup l : (forall x y, In x l -> In y l -> f x = f y -> x = y) -> NoDup l -> NoDup (map f l).
Proof.
  intros Hinj N. induction N as [|a l Nin N IH]; [constructor|]. cbn [map]. constructor.
  - intros H. apply in_map_iff in H. destruct H as [x [E Hx]]. apply Nin. rewrite <- (Hinj x a); [exact Hx|now right|now left|exact E].
  - apply IH. intros x y Hx Hy. apply Hinj; now right.
Qed.
Lemma f_inj x y : ins x -> ins y -> f x = f y -> x = y.
Proof. intros Hx Hy E. destruct (gf x Hx) as [<- _]. destruct (gf y Hy) as [<- _]. now rewrite E. Qed.

Lemma region_ge_map m p : ins p -> region_ge adj ins m p -> region_ge adj ins' m (f p).
Proof.
  intros Hp [l [N [I L]]]. exists (map f l). split; [|split].
  - apply map_NoDup; [|exact N]. intros x y Hx Hy. apply I in Hx, Hy. destruct (conn_inside _ _ _ _ Hx), (conn_inside _ _ _ _ Hy). now apply f_inj.
  - intros q. rewrite in_map_iff. split.
    + intros [x [<- Hx]]. apply conn_map. now apply I.
    + intros C. exists (g q). split; [apply fg; apply (conn_inside _ _ _ _ C)|]. apply I. now apply conn_map_inv.
  - now rewrite map_length.
Qed.

Lemma regions_map large large' k : (forall p, ins p -> (large p <-> large' (f p))) -> regions adj ins large k -> regions adj ins' large' k.
Proof.
  intros HL [r [N [L [I [U C]]]]]. exists (map f r). split; [|split; [|split; [|split]]].
  - apply map_NoDup; [|exact N]. intros x y Hx Hy. apply f_inj; now apply I.
  - now rewrite map_length.
  - intros p Hp. apply in_map_iff in Hp. destruct Hp as [x [<- Hx]]. destruct (I x Hx) as [A B]. split; [now apply gf|now apply HL].
  - intros p q Hp Hq. apply in_map_iff in Hp. destruct Hp as [x [<- Hx]]. apply in_map_iff in Hq. destruct Hq as [y [<- Hy]].
    intros Cxy. f_equal. apply U; auto. destruct (I x Hx), (I y Hy). apply conn_map_inv in Cxy; [|assumption]. destruct (gf y) as [E _]; [assumption|]. now rewrite E in Cxy.
  - intros p Hp HLp. destruct (fg p Hp) as [E Hg]. destruct (C (g p) Hg) as [x [Hx Cx]]; [apply HL; [exact Hg|now rewrite E]|].
    exists (f x). split; [now apply in_map|]. rewrite <- E. now apply conn_map.
Qed.
End Transport.

Lemma region_ge_iff (adj : pixel -> pixel -> Prop) (ins ins' : pixel -> Prop) f g m p :
  (forall p, ins' p -> f (g p) = p /\ ins (g p)) -> (forall p, ins p -> g (f p) = p /\ ins' (f p)) ->
  (forall p q, ins p -> ins q -> (adj p q <-> adj (f p) (f q))) -> ins p ->
  (region_ge adj ins m p <-> region_ge adj ins' m (f p)).
Proof.
  intros H1 H2 H3 Hp. split; [eapply region_ge_map; eauto|]. intros H.
  destruct (H2 p Hp) as [E Hf]. rewrite <- E. apply (region_ge_map adj ins' ins g f); auto.
  intros a b Ha Hb. destruct (H1 a Ha) as [Ea Ia], (H1 b Hb) as [Eb Ib]. rewrite (H3 (g a) (g b) Ia Ib), Ea, Eb. reflexivity.
Qed.
