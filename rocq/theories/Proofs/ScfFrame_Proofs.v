(** Proofs for C315: blank surroundings of a cube in the spectral correlation function. *)
From Coq Require Import String Reals List ZArith Arith Bool Lia Lra Permutation FinFun.
From Verif Require Import Lib.PyBase Lib.Arr Lib.Fl Lib.RSum Spec.Blank Spec.Correlation Spec.ScfFrame
  Model.StatsUtils Model.Psds Model.Scf Proofs.Psds_Proofs Proofs.Scf_Proofs Proofs.Scf2_Proofs Proofs.TurnedScf_Proofs.
Import ListNotations.
Local Open Scope R_scope.

Lemma surrounded_ok nz ny nx NY NX oy ox cube : cube_ok nz ny nx cube -> cube_ok nz NY NX (surrounded ny nx oy ox cube).
Proof.
  intros H z y x Hz Hy Hx. unfold surrounded. destruct (_ && _) eqn:E; [|exact I].
  rewrite !andb_true_iff, !Nat.leb_le, !Nat.ltb_lt in E. apply H; lia.
Qed.

(** ** One axis *)
Definition inbox (n o p : nat) : bool := (o <=? p) && (p <? o + n).
Lemma inbox_spec n o p : inbox n o p = true <-> (o <= p < o + n)%nat.
Proof. unfold inbox. rewrite andb_true_iff, Nat.leb_le, Nat.ltb_lt. lia. Qed.
Lemma partner_lt N s p : (p < N)%nat -> (partner N s p < N)%nat.
Proof. intros H. exact (from_lt N s p H). Qed.
Lemma partner_back N s p : (p < N)%nat -> partner N s (partner N (- s) p) = p.
Proof. intros H. exact (from_inv N s p H). Qed.
Lemma partner_there N s p : (p < N)%nat -> partner N (- s) (partner N s p) = p.
Proof. intros H. rewrite <- (Z.opp_involutive s) at 2. now apply partner_back. Qed.

Lemma axis_partner n N o s p : (o + n <= N)%nat -> (Z.abs s <= Z.of_nat (N - n))%Z -> (p < n)%nat ->
  inbox n o (partner N s (o + p)) = has_partner n s p /\
  (has_partner n s p = true -> partner N s (o + p) = (o + partner n s p)%nat).
Proof.
  intros Ho Hs Hp. rewrite Nat2Z.inj_sub in Hs by lia. unfold has_partner.
  destruct (Z.leb_spec 0 (Z.of_nat p - s)) as [L|L]; [destruct (Z.ltb_spec (Z.of_nat p - s) (Z.of_nat n)) as [U|U]|]; cbn [andb].
  - assert (E : partner N s (o + p) = (o + Z.to_nat (Z.of_nat p - s))%nat) by (unfold partner; rewrite Z.mod_small by lia; lia).
    rewrite E. split; [apply inbox_spec; lia|]. intros _. unfold partner. rewrite (Z.mod_small (Z.of_nat p - s)) by lia. reflexivity.
  - split; [|discriminate]. apply not_true_is_false. rewrite inbox_spec. unfold partner.
    destruct (Z.lt_ge_cases (Z.of_nat (o + p) - s) (Z.of_nat N)) as [B|B].
    + rewrite Z.mod_small by lia. lia.
    + rewrite <- (Z_mod_plus_full _ (-1)), Z.mod_small by lia. lia.
  - split; [|discriminate]. apply not_true_is_false. rewrite inbox_spec. unfold partner.
    destruct (Z.lt_ge_cases (Z.of_nat (o + p) - s) 0) as [B|B].
    + rewrite <- (Z_mod_plus_full _ 1), Z.mod_small by lia. lia.
    + rewrite Z.mod_small by lia. lia.
Qed.

(** ** Lists of pixels *)
Lemma split3 {A B} (g : A -> list B) (a b c : A -> bool) l :
  (forall p, In p l -> a p = true -> b p = false /\ c p = false) -> (forall p, In p l -> b p = true -> c p = false) ->
  (forall p, In p l -> a p = false -> b p = false -> c p = false -> g p = []) ->
  Permutation (flat_map g l) (flat_map g (filter a l) ++ flat_map g (filter b l) ++ flat_map g (filter c l)).
Proof.
  induction l as [|p l IH]; intros H1 H2 H3; [reflexivity|]. cbn [flat_map filter].
  assert (IH' := IH (fun q Hq => H1 q (or_intror Hq)) (fun q Hq => H2 q (or_intror Hq)) (fun q Hq => H3 q (or_intror Hq))). clear IH.
  specialize (H1 p (or_introl eq_refl)). specialize (H2 p (or_introl eq_refl)). specialize (H3 p (or_introl eq_refl)).
  destruct (a p) eqn:Ea.
  - destruct (H1 eq_refl) as [-> ->]. cbn [flat_map]. rewrite <- app_assoc. now apply Permutation_app_head.
  - destruct (b p) eqn:Eb.
    + rewrite (H2 eq_refl). cbn [flat_map]. rewrite IH', <- app_assoc, !app_assoc. do 2 apply Permutation_app_tail. apply Permutation_app_comm.
    + destruct (c p) eqn:Ec.
      * cbn [flat_map]. rewrite IH', !app_assoc. apply Permutation_app_tail. rewrite <- app_assoc. apply Permutation_app_comm.
      * rewrite (H3 eq_refl eq_refl eq_refl). cbn [app]. exact IH'.
Qed.
Lemma prod_nodup : forall (l : list nat) (m : list nat), NoDup l -> NoDup m -> NoDup (list_prod l m).
Proof.
  induction l as [|x l IH]; intros m Hl Hm; [constructor|]. inversion Hl as [|? ? Nx Nl]; subst. cbn [list_prod].
  assert (D : NoDup (map (fun y : nat => (x, y)) m)) by (apply Injective_map_NoDup; [intros u v E; now injection E|exact Hm]).
  assert (D2 := IH m Nl Hm). revert D D2. generalize (map (fun y : nat => (x, y)) m) (list_prod l m)
    (fun q => proj1 (in_map_iff (fun y : nat => (x, y)) m q)) (fun q : nat * nat => let (u, v) as q return In q (list_prod l m) -> In (fst q) l := q in fun H => proj1 (proj1 (in_prod_iff l m u v) H)).
  intros l1 l2 K1 K2 D D2. induction l1 as [|q l1 IH1]; [exact D2|]. cbn [app]. inversion D as [|? ? Nq Nl1]; subst. constructor.
  - rewrite in_app_iff. intros [F|F]; [contradiction|]. destruct (K1 q (or_introl eq_refl)) as [v [<- _]]. apply K2 in F. cbn in F. contradiction.
  - apply IH1; [|exact Nl1]. intros q' Hq. apply K1. now right.
Qed.
Lemma pixels_nodup a b : NoDup (list_prod (seq 0 a) (seq 0 b)).
Proof. apply prod_nodup; apply seq_NoDup. Qed.
Lemma flat_map_map' {A B C} (g : B -> list C) (f : A -> B) l : flat_map g (map f l) = flat_map (fun a => g (f a)) l.
Proof. induction l as [|a l IH]; [reflexivity|]. cbn. now rewrite IH. Qed.
Lemma flat_map_ext_in' {A B} (f g : A -> list B) l : (forall a, In a l -> f a = g a) -> flat_map f l = flat_map g l.
Proof. induction l as [|a l IH]; intros H; [reflexivity|]. cbn. rewrite (H a) by now left. rewrite IH; [reflexivity|]. intros b Hb. apply H. now right. Qed.

Definition ratios (nz : nat) (l : list (spectrum * spectrum)) : list R := flat_map (fun dt => spec_ratio nz (fst dt) (snd dt)) l.
Lemma ratio_sym nz d t : spec_ratio nz d t = spec_ratio nz t d.
Proof.
  unfold spec_ratio. rewrite Rplus_comm. assert (E : rsum nz (fun z => sqdiff_or_0 (d z) (t z)) = rsum nz (fun z => sqdiff_or_0 (t z) (d z))).
  { apply rsum_ext. intros z _. unfold sqdiff_or_0. destruct (d z), (t z); try reflexivity. ring. }
  now rewrite E.
Qed.
Lemma ratio_ext nz d t d' t' : (forall z, d z = d' z) -> (forall z, t z = t' z) -> spec_ratio nz d t = spec_ratio nz d' t'.
Proof.
  intros Hd Ht. unfold spec_ratio.
  rewrite (rsum_ext nz (fun z => sq_or_0 (d z)) (fun z => sq_or_0 (d' z))) by (intros; now rewrite Hd).
  rewrite (rsum_ext nz (fun z => sq_or_0 (t z)) (fun z => sq_or_0 (t' z))) by (intros; now rewrite Ht).
  rewrite (rsum_ext nz (fun z => sqdiff_or_0 (d z) (t z)) (fun z => sqdiff_or_0 (d' z) (t' z))) by (intros; now rewrite Hd, Ht). reflexivity.
Qed.
Lemma ratio_blanks nz : spec_ratio nz (fun _ => NaN) (fun _ => NaN) = [].
Proof. unfold spec_ratio. cbn [sq_or_0]. rewrite (rsum_zero nz (fun _ => 0)) by reflexivity. rewrite Rplus_0_r. destruct (Reqb_spec 0 0); [reflexivity|lra]. Qed.

Section Frame.
  Variables (nz ny nx NY NX oy ox : nat) (cube : nat -> nat -> nat -> fl) (sy sx : Z).
  Hypothesis Rm : room ny nx NY NX oy ox sy sx.
  Let big := surrounded ny nx oy ox cube.
  Let box (p : nat * nat) := inbox ny oy (fst p) && inbox nx ox (snd p).
  Let far (p : nat * nat) := (partner NY sy (fst p), partner NX sx (snd p)).
  Let near (p : nat * nat) := (partner NY (- sy) (fst p), partner NX (- sx) (snd p)).
  Let g (p : nat * nat) : list R := spec_ratio nz (fun z => big z (fst p) (snd p)) (fun z => big z (fst (far p)) (snd (far p))).

  Lemma big_in y x z : (y < ny)%nat -> (x < nx)%nat -> big z (oy + y)%nat (ox + x)%nat = cube z y x.
  Proof.
    intros Hy Hx. unfold big, surrounded. replace ((oy <=? oy + y) && (oy + y <? oy + ny) && ((ox <=? ox + x) && (ox + x <? ox + nx))) with true.
    - f_equal; lia.
    - symmetry. rewrite !andb_true_iff, !Nat.leb_le, !Nat.ltb_lt. lia.
  Qed.
  Lemma big_out p z : box p = false -> big z (fst p) (snd p) = NaN.
  Proof. intros H. unfold big, surrounded. unfold box, inbox in H. now rewrite H. Qed.
  Lemma box_in p : box p = true -> exists y x, p = ((oy + y)%nat, (ox + x)%nat) /\ (y < ny)%nat /\ (x < nx)%nat.
  Proof.
    destruct p as [Y X]. unfold box. cbn [fst snd]. rewrite andb_true_iff, !inbox_spec. intros [A B].
    exists (Y - oy)%nat, (X - ox)%nat. split; [f_equal; lia|lia].
  Qed.
  Lemma in_box y x : (y < ny)%nat -> (x < nx)%nat -> box ((oy + y)%nat, (ox + x)%nat) = true.
  Proof. intros Hy Hx. unfold box. cbn [fst snd]. rewrite andb_true_iff, !inbox_spec. lia. Qed.

  Lemma far_box y x : (y < ny)%nat -> (x < nx)%nat ->
    box (far ((oy + y)%nat, (ox + x)%nat)) = has_partner ny sy y && has_partner nx sx x.
  Proof.
    destruct Rm as [R1 [R2 [R3 R4]]]. intros Hy Hx. unfold box, far. cbn [fst snd].
    destruct (axis_partner ny NY oy sy y R1 R3 Hy) as [-> _]. destruct (axis_partner nx NX ox sx x R2 R4 Hx) as [-> _]. reflexivity.
  Qed.
  Lemma near_box y x : (y < ny)%nat -> (x < nx)%nat ->
    box (near ((oy + y)%nat, (ox + x)%nat)) = has_partner ny (- sy) y && has_partner nx (- sx) x.
  Proof.
    destruct Rm as [R1 [R2 [R3 R4]]]. intros Hy Hx. unfold box, near. cbn [fst snd].
    destruct (axis_partner ny NY oy (- sy) y R1 ltac:(lia) Hy) as [-> _]. destruct (axis_partner nx NX ox (- sx) x R2 ltac:(lia) Hx) as [-> _]. reflexivity.
  Qed.
  Lemma in_pix p : In p (list_prod (seq 0 NY) (seq 0 NX)) <-> (fst p < NY)%nat /\ (snd p < NX)%nat.
  Proof. destruct p as [Y X]. rewrite in_prod_iff, !in_seq. cbn [fst snd]. lia. Qed.
  Lemma box_pix p : box p = true -> In p (list_prod (seq 0 NY) (seq 0 NX)).
  Proof. destruct Rm as [R1 [R2 _]]. intros H. destruct (box_in p H) as [y [x [-> [Hy Hx]]]]. apply in_pix. cbn [fst snd]. lia. Qed.
  Lemma far_pix p : In p (list_prod (seq 0 NY) (seq 0 NX)) -> In (far p) (list_prod (seq 0 NY) (seq 0 NX)) /\ near (far p) = p.
  Proof.
    rewrite !in_pix. intros [Hy Hx]. unfold near, far. cbn [fst snd]. rewrite !partner_there by assumption.
    split; [split; now apply partner_lt|]. now destruct p.
  Qed.
  Lemma near_pix p : In p (list_prod (seq 0 NY) (seq 0 NX)) -> In (near p) (list_prod (seq 0 NY) (seq 0 NX)) /\ far (near p) = p.
  Proof.
    rewrite !in_pix. intros [Hy Hx]. unfold near, far. cbn [fst snd]. rewrite !partner_back by assumption.
    split; [split; now apply partner_lt|]. now destruct p.
  Qed.

  Let put (p : nat * nat) := ((oy + fst p)%nat, (ox + snd p)%nat).
  Lemma put_inj p q : put p = put q -> p = q.
  Proof. destruct p, q. unfold put. cbn [fst snd]. intros [= A B]. f_equal; lia. Qed.

  (** both inside *)
  Lemma part_a : Permutation (flat_map g (filter (fun p => box p && box (far p)) (list_prod (seq 0 NY) (seq 0 NX)))) (ratios nz (own_pairs ny nx cube sy sx)).
  Proof.
    unfold ratios, own_pairs, pairs_at. rewrite flat_map_map'. cbn [fst snd].
    transitivity (flat_map g (map put (list_prod (partner_inside ny sy) (partner_inside nx sx)))).
    2: { rewrite flat_map_map'. apply Permutation_refl', flat_map_ext_in'. intros [y x] H. apply in_prod_iff in H. destruct H as [Hy Hx].
      unfold partner_inside in Hy, Hx. apply filter_In in Hy, Hx. destruct Hy as [Hy Py], Hx as [Hx Px]. apply in_seq in Hy, Hx.
      destruct Rm as [R1 [R2 [R3 R4]]]. unfold g, far, put. cbn [fst snd].
      destruct (axis_partner ny NY oy sy y R1 R3 ltac:(lia)) as [_ Ey]. destruct (axis_partner nx NX ox sx x R2 R4 ltac:(lia)) as [_ Ex].
      rewrite (Ey Py), (Ex Px). apply ratio_ext; intros z; apply big_in; try lia; apply partner_lt; lia. }
    - apply Permutation_flat_map, NoDup_Permutation.
      + apply NoDup_filter, pixels_nodup.
      + apply Injective_map_NoDup; [exact put_inj|].
        assert (E : list_prod (partner_inside ny sy) (partner_inside nx sx) = filter (fun p => has_partner ny sy (fst p) && has_partner nx sx (snd p)) (list_prod (seq 0 ny) (seq 0 nx))).
        { unfold partner_inside. fold (has_partner ny sy) (has_partner nx sx). generalize (seq 0 ny) (seq 0 nx). intros l m.
          induction l as [|a l IH]; [reflexivity|]. cbn [filter list_prod]. rewrite filter_app, filter_map_comm. cbn [fst snd].
          destruct (has_partner ny sy a) eqn:Ea; cbn [list_prod andb].
          - now rewrite IH.
          - replace (filter (fun _ : nat => false) m) with (@nil nat) by (clear; induction m; [reflexivity|assumption]). cbn [map app]. exact IH. }
        rewrite E. apply NoDup_filter, pixels_nodup.
      + intros p. rewrite filter_In, in_map_iff. split.
        * intros [_ H]. apply andb_true_iff in H. destruct H as [H1 H2]. destruct (box_in p H1) as [y [x [-> [Hy Hx]]]].
          rewrite far_box in H2 by assumption. apply andb_true_iff in H2. destruct H2 as [Py Px]. exists (y, x). split; [reflexivity|].
          apply in_prod; unfold partner_inside; apply filter_In; (split; [apply in_seq; lia|assumption]).
        * intros [[y x] [<- H]]. apply in_prod_iff in H. destruct H as [Hy Hx]. unfold partner_inside in Hy, Hx. apply filter_In in Hy, Hx.
          destruct Hy as [Hy Py], Hx as [Hx Px]. apply in_seq in Hy, Hx. unfold put. cbn [fst snd].
          assert (B := in_box y x ltac:(lia) ltac:(lia)). split; [now apply box_pix|]. rewrite B, far_box by lia. unfold has_partner. now rewrite Py, Px.
  Qed.

  Lemma alone_put (b : nat * nat -> bool) (h : nat * nat -> bool) :
    (forall y x, (y < ny)%nat -> (x < nx)%nat -> b (put (y, x)) = h (y, x)) -> (forall p, b p = true -> box p = true) ->
    Permutation (filter b (list_prod (seq 0 NY) (seq 0 NX))) (map put (filter h (list_prod (seq 0 ny) (seq 0 nx)))).
  Proof.
    intros E I. apply NoDup_Permutation.
    - apply NoDup_filter, pixels_nodup.
    - apply Injective_map_NoDup; [exact put_inj|]. apply NoDup_filter, pixels_nodup.
    - intros p. rewrite filter_In, in_map_iff. split.
      + intros [_ H]. destruct (box_in p (I p H)) as [y [x [-> [Hy Hx]]]]. exists (y, x). split; [reflexivity|]. apply filter_In.
        split; [apply in_prod; apply in_seq; lia|]. now rewrite <- E.
      + intros [[y x] [<- H]]. apply filter_In in H. destruct H as [H Hh]. apply in_prod_iff in H. rewrite !in_seq in H.
        rewrite <- E in Hh by lia. split; [|exact Hh]. now apply box_pix, I.
  Qed.

  (** the partner outside *)
  Lemma part_b : Permutation (flat_map g (filter (fun p => box p && negb (box (far p))) (list_prod (seq 0 NY) (seq 0 NX)))) (ratios nz (with_blank ny nx cube sy sx)).
  Proof.
    unfold ratios, with_blank. rewrite flat_map_map'. cbn [fst snd].
    transitivity (flat_map g (map put (filter (fun p => negb (has_partner ny sy (fst p) && has_partner nx sx (snd p))) (list_prod (seq 0 ny) (seq 0 nx))))).
    2: { rewrite flat_map_map'. apply Permutation_refl', flat_map_ext_in'. intros [y x] H. apply filter_In in H. destruct H as [H Hh].
      apply in_prod_iff in H. rewrite !in_seq in H. cbn [fst snd] in Hh. rewrite <- far_box in Hh by lia. unfold g. apply ratio_ext; intros z.
      + unfold put. cbn [fst snd]. apply big_in; lia.
      + apply big_out. now apply negb_true_iff. }
    apply Permutation_flat_map, alone_put.
    + intros y x Hy Hx. unfold put. cbn [fst snd]. now rewrite in_box, far_box.
    + intros p H. apply andb_true_iff in H. tauto.
  Qed.
  (** only the partner inside *)
  Lemma part_c : Permutation (flat_map g (filter (fun p => negb (box p) && box (far p)) (list_prod (seq 0 NY) (seq 0 NX)))) (ratios nz (with_blank ny nx cube (- sy) (- sx))).
  Proof.
    unfold ratios, with_blank. rewrite flat_map_map'. cbn [fst snd].
    set (g' := fun q : nat * nat => spec_ratio nz (fun z => big z (fst q) (snd q)) (fun z => big z (fst (near q)) (snd (near q)))).
    transitivity (flat_map g' (filter (fun q => box q && negb (box (near q))) (list_prod (seq 0 NY) (seq 0 NX)))).
    - transitivity (flat_map g' (map far (filter (fun p => negb (box p) && box (far p)) (list_prod (seq 0 NY) (seq 0 NX))))).
      + rewrite flat_map_map'. apply Permutation_refl', flat_map_ext_in'. intros p H. apply filter_In in H. destruct H as [H _].
        unfold g, g'. rewrite (proj2 (far_pix p H)). apply ratio_sym.
      + apply Permutation_flat_map, NoDup_Permutation.
        * assert (D := NoDup_filter (fun p => negb (box p) && box (far p)) (pixels_nodup NY NX)).
          assert (K : forall p, In p (filter (fun p => negb (box p) && box (far p)) (list_prod (seq 0 NY) (seq 0 NX))) -> near (far p) = p).
          { intros p H. apply filter_In in H. now apply far_pix. }
          revert D K. generalize (filter (fun p => negb (box p) && box (far p)) (list_prod (seq 0 NY) (seq 0 NX))). clear. intros l. induction l as [|p l IH]; intros D K; [constructor|].
          inversion D as [|? ? Np Nl]; subst. cbn [map]. constructor.
          -- rewrite in_map_iff. intros [q [Eq Hq]]. assert (E := f_equal near Eq). rewrite K in E by now right. rewrite K in E by now left. now subst q.
          -- apply IH; [exact Nl|]. intros q Hq. apply K. now right.
        * apply NoDup_filter, pixels_nodup.
        * intros q. rewrite in_map_iff, filter_In. split.
          -- intros [p [<- H]]. apply filter_In in H. destruct H as [H Hb]. destruct (far_pix p H) as [H' E]. rewrite E. split; [exact H'|]. now rewrite andb_comm.
          -- intros [H Hb]. destruct (near_pix q H) as [H' E]. exists (near q). split; [exact E|]. apply filter_In. rewrite E. split; [exact H'|]. now rewrite andb_comm.
    - transitivity (flat_map g' (map put (filter (fun p => negb (has_partner ny (- sy) (fst p) && has_partner nx (- sx) (snd p))) (list_prod (seq 0 ny) (seq 0 nx))))).
      2: { rewrite flat_map_map'. apply Permutation_refl', flat_map_ext_in'. intros [y x] H. apply filter_In in H. destruct H as [H Hh].
        apply in_prod_iff in H. rewrite !in_seq in H. cbn [fst snd] in Hh. rewrite <- near_box in Hh by lia. unfold g'. apply ratio_ext; intros z.
        * unfold put. cbn [fst snd]. apply big_in; lia.
        * apply big_out. now apply negb_true_iff. }
      apply Permutation_flat_map, alone_put.
      + intros y x Hy Hx. unfold put. cbn [fst snd]. now rewrite in_box, near_box.
      + intros p H. apply andb_true_iff in H. tauto.
  Qed.

  Lemma frame_ratios : Permutation (ratios nz (pairs_at NY NX big sy sx (seq 0 NY) (seq 0 NX)))
    (ratios nz (own_pairs ny nx cube sy sx ++ with_blank ny nx cube sy sx ++ with_blank ny nx cube (- sy) (- sx))).
  Proof.
    unfold ratios at 2. rewrite !flat_map_app. fold (ratios nz (own_pairs ny nx cube sy sx)) (ratios nz (with_blank ny nx cube sy sx)) (ratios nz (with_blank ny nx cube (- sy) (- sx))).
    rewrite <- part_a, <- part_b, <- part_c. unfold ratios, pairs_at. rewrite flat_map_map'. cbn [fst snd]. apply (split3 g).
    - intros p _ H. apply andb_true_iff in H. destruct H as [-> ->]. now split.
    - intros p _ H. apply andb_true_iff in H. destruct H as [-> _]. reflexivity.
    - intros p _ H1 H2 H3. assert (B1 : box p = false) by (destruct (box p), (box (far p)); cbn in *; congruence).
      assert (B2 : box (far p) = false) by (destruct (box p), (box (far p)); cbn in *; congruence).
      unfold g. rewrite <- (ratio_blanks nz). apply ratio_ext; intros z; now apply big_out.
  Qed.
End Frame.

(** ** The value at one lag *)
Lemma spec_of_ratios nz l l' : Permutation (ratios nz l) (ratios nz l') -> scf_spec nz l = scf_spec nz l'.
Proof.
  intros Q. unfold scf_spec. fold (ratios nz l) (ratios nz l'). set (a := ratios nz l) in *. set (b := ratios nz l') in *. clearbody a b.
  assert (M : rmean a = rmean b) by (unfold rmean; now rewrite (lsum_perm _ _ Q), (Permutation_length Q)).
  destruct a as [|x a].
  - apply Permutation_nil in Q. now subst.
  - destruct b as [|y b]; [apply Permutation_sym, Permutation_nil in Q; discriminate|]. now rewrite M.
Qed.
Theorem frame_value : forall nz ny nx NY NX oy ox cube sy sx, cube_ok nz ny nx cube -> room ny nx NY NX oy ox sy sx ->
  scf_value nz NY NX (surrounded ny nx oy ox cube) "continuous" (IZR sy) (IZR sx) =
  Ok (scf_spec nz (own_pairs ny nx cube sy sx ++ with_blank ny nx cube sy sx ++ with_blank ny nx cube (- sy) (- sx))).
Proof.
  intros nz ny nx NY NX oy ox cube sy sx H Rm. rewrite scf_formula by now apply surrounded_ok. apply (f_equal Ok), spec_of_ratios. now apply frame_ratios.
Qed.

Theorem frames_agree : forall nz ny nx cube lags NY NX oy ox NY' NX' oy' ox', cube_ok nz ny nx cube ->
  (forall l, In l lags -> exists k, l = IZR k) ->
  (forall a b, In (IZR a) lags -> In (IZR b) lags -> room ny nx NY NX oy ox a b /\ room ny nx NY' NX' oy' ox' a b) ->
  compute_surface nz NY NX (surrounded ny nx oy ox cube) lags "continuous" =
  compute_surface nz NY' NX' (surrounded ny nx oy' ox' cube) lags "continuous".
Proof.
  intros nz ny nx cube lags NY NX oy ox NY' NX' oy' ox' H W Rm. unfold compute_surface. cbn [String.eqb Ascii.eqb Bool.eqb orb negb]. apply f_equal, map_ext_in. intros b Hb.
  apply f_equal, map_ext_in. intros a Ha. destruct (W a Ha) as [i ->]. destruct (W b Hb) as [j ->]. destruct (Rm i j Ha Hb) as [R1 R2].
  rewrite (frame_value nz ny nx NY NX oy ox cube i j H R1), (frame_value nz ny nx NY' NX' oy' ox' cube i j H R2). reflexivity.
Qed.

(** ** Pairs with a blank spectrum count as equal *)
Lemma blank_ratio nz d r : In r (spec_ratio nz d (fun _ => NaN)) -> r = 0.
Proof.
  unfold spec_ratio. destruct (Reqb _ 0); [intros []|]. intros [<-|[]].
  rewrite (rsum_zero nz (fun z => sqdiff_or_0 (d z) NaN)) by (intros z _; unfold sqdiff_or_0; now destruct (d z)). unfold Rdiv. ring.
Qed.
Lemma with_blank_zero nz ny nx cube sy sx r : In r (ratios nz (with_blank ny nx cube sy sx)) -> r = 0.
Proof. unfold ratios, with_blank. rewrite flat_map_map'. cbn [fst snd]. intros H. apply in_flat_map in H. destruct H as [p [_ H]]. now apply blank_ratio in H. Qed.
Lemma lsum_zeros l : (forall r, In r l -> r = 0) -> lsum l = 0.
Proof. induction l as [|a l IH]; intros H; [reflexivity|]. rewrite lsum_cons, (H a) by now left. rewrite IH; [ring|]. intros r Hr. apply H. now right. Qed.
Lemma ratio_nonneg nz d t r : In r (spec_ratio nz d t) -> 0 <= r.
Proof.
  unfold spec_ratio. set (p := _ + _). destruct (Reqb_spec p 0) as [E|E]; [intros []|]. intros [<-|[]].
  assert (P : 0 <= p) by (unfold p; apply Rplus_le_le_0_compat; apply rsum_nonneg; intros z _; unfold sq_or_0; [destruct (d z)|destruct (t z)]; try lra; apply pow2_ge_0).
  apply Rmult_le_pos; [|left; apply Rinv_0_lt_compat; lra]. apply rsum_nonneg. intros z _. unfold sqdiff_or_0. destruct (d z), (t z); try lra. apply pow2_ge_0.
Qed.
Lemma ratios_nonneg nz l r : In r (ratios nz l) -> 0 <= r.
Proof. unfold ratios. intros H. apply in_flat_map in H. destruct H as [p [_ H]]. now apply ratio_nonneg in H. Qed.
Lemma lsum_nonneg' l : (forall r, In r l -> 0 <= r) -> 0 <= lsum l.
Proof. induction l as [|a l IH]; intros H; [cbn; lra|]. rewrite lsum_cons. assert (0 <= a) by (apply H; now left). assert (0 <= lsum l) by (apply IH; intros r Hr; apply H; now right). lra. Qed.

Lemma spec_fin nz l : ratios nz l <> [] -> scf_spec nz l = Fin (1 - sqrt (lsum (ratios nz l) / INR (length (ratios nz l)))).
Proof. intros H. unfold scf_spec. fold (ratios nz l). destruct (ratios nz l) eqn:E; [contradiction|]. reflexivity. Qed.
Lemma spec_nan nz l : ratios nz l = [] -> scf_spec nz l = NaN.
Proof. intros H. unfold scf_spec. fold (ratios nz l). now rewrite H. Qed.

Lemma frame_sums nz ny nx cube sy sx : let own := ratios nz (own_pairs ny nx cube sy sx) in
  let all := ratios nz (own_pairs ny nx cube sy sx ++ with_blank ny nx cube sy sx ++ with_blank ny nx cube (- sy) (- sx)) in
  lsum all = lsum own /\ length all = (length own + length (ratios nz (with_blank ny nx cube sy sx)) + length (ratios nz (with_blank ny nx cube (- sy) (- sx))))%nat.
Proof.
  cbv zeta. unfold ratios at 1 3. rewrite !flat_map_app.
  fold (ratios nz (own_pairs ny nx cube sy sx)) (ratios nz (with_blank ny nx cube sy sx)) (ratios nz (with_blank ny nx cube (- sy) (- sx))).
  split; [|rewrite !app_length; lia]. rewrite !lsum_app.
  rewrite (lsum_zeros (ratios nz (with_blank ny nx cube sy sx))) by apply with_blank_zero.
  rewrite (lsum_zeros (ratios nz (with_blank ny nx cube (- sy) (- sx)))) by apply with_blank_zero. ring.
Qed.

Theorem frame_raises : forall nz ny nx NY NX oy ox cube sy sx v, cube_ok nz ny nx cube -> room ny nx NY NX oy ox sy sx ->
  scf_spec nz (own_pairs ny nx cube sy sx) = Fin v ->
  exists w, scf_value nz NY NX (surrounded ny nx oy ox cube) "continuous" (IZR sy) (IZR sx) = Ok (Fin w) /\ v <= w.
Proof.
  intros nz ny nx NY NX oy ox cube sy sx v H Rm E. rewrite (frame_value nz ny nx NY NX oy ox cube sy sx H Rm).
  destruct (frame_sums nz ny nx cube sy sx) as [S L]. cbv zeta in S, L.
  set (all := own_pairs ny nx cube sy sx ++ _) in *. set (own := own_pairs ny nx cube sy sx) in *.
  assert (N : ratios nz own <> []) by (intros F; rewrite (spec_nan nz own F) in E; discriminate).
  rewrite (spec_fin nz own N) in E. injection E as <-.
  assert (P : (0 < length (ratios nz own))%nat) by (destruct (ratios nz own); [contradiction|cbn; lia]).
  assert (N' : ratios nz all <> []) by (intros F; rewrite F in L; cbn [length] in L; lia).
  eexists. split; [now rewrite (spec_fin nz all N')|]. rewrite S, L.
  assert (Q : sqrt (lsum (ratios nz own) / INR (length (ratios nz own) + length (ratios nz (with_blank ny nx cube sy sx)) + length (ratios nz (with_blank ny nx cube (- sy) (- sx)))))
    <= sqrt (lsum (ratios nz own) / INR (length (ratios nz own)))); [|lra].
  apply sqrt_le_1_alt. apply Rmult_le_compat_l; [apply lsum_nonneg', ratios_nonneg|]. apply Rinv_le_contravar; [now apply lt_0_INR|]. apply le_INR. lia.
Qed.

(** ** How much *)
Lemma inside_prod ny nx sy sx : list_prod (partner_inside ny sy) (partner_inside nx sx) =
  filter (fun p => has_partner ny sy (fst p) && has_partner nx sx (snd p)) (list_prod (seq 0 ny) (seq 0 nx)).
Proof.
  unfold partner_inside. fold (has_partner ny sy) (has_partner nx sx). generalize (seq 0 ny) (seq 0 nx). intros l m.
  induction l as [|a l IH]; [reflexivity|]. cbn [filter list_prod]. rewrite filter_app, filter_map_comm. cbn [fst snd].
  destruct (has_partner ny sy a) eqn:Ea; cbn [list_prod andb].
  - now rewrite IH.
  - replace (filter (fun _ : nat => false) m) with (@nil nat) by (clear; induction m; [reflexivity|assumption]). cbn [map app]. exact IH.
Qed.
Lemma inside_count n s : (Z.abs s <= Z.of_nat n)%Z -> length (partner_inside n s) = (n - Z.to_nat (Z.abs s))%nat.
Proof.
  intros H. assert (P : Permutation (partner_inside n s) (seq (Z.to_nat (Z.max 0 s)) (n - Z.to_nat (Z.abs s)))).
  { apply NoDup_Permutation; [apply NoDup_filter, seq_NoDup|apply seq_NoDup|]. intros p. unfold partner_inside.
    rewrite filter_In, !in_seq, andb_true_iff, Z.leb_le, Z.ltb_lt. lia. }
  now rewrite (Permutation_length P), seq_length.
Qed.
Lemma filter_split_count {A} (f : A -> bool) l : (length (filter f l) + length (filter (fun a => negb (f a)) l) = length l)%nat.
Proof. induction l as [|a l IH]; [reflexivity|]. cbn [filter]. destruct (f a); cbn [negb length]; lia. Qed.
Lemma own_count ny nx cube sy sx : (Z.abs sy <= Z.of_nat ny)%Z -> (Z.abs sx <= Z.of_nat nx)%Z ->
  length (own_pairs ny nx cube sy sx) = ((ny - Z.to_nat (Z.abs sy)) * (nx - Z.to_nat (Z.abs sx)))%nat.
Proof. intros Hy Hx. unfold own_pairs, pairs_at. now rewrite map_length, prod_length, !inside_count. Qed.
Lemma with_blank_count ny nx cube sy sx : (Z.abs sy <= Z.of_nat ny)%Z -> (Z.abs sx <= Z.of_nat nx)%Z ->
  length (with_blank ny nx cube sy sx) = (ny * nx - (ny - Z.to_nat (Z.abs sy)) * (nx - Z.to_nat (Z.abs sx)))%nat.
Proof.
  intros Hy Hx. unfold with_blank. rewrite map_length.
  assert (E := filter_split_count (fun p => has_partner ny sy (fst p) && has_partner nx sx (snd p)) (list_prod (seq 0 ny) (seq 0 nx))).
  rewrite <- inside_prod, !prod_length, !seq_length, !inside_count in E by assumption. lia.
Qed.
Lemma ratio_one nz d t : (exists z r, (z < nz)%nat /\ d z = Fin r /\ r <> 0) -> length (spec_ratio nz d t) = 1%nat.
Proof.
  intros [z [r [Hz [E N]]]]. unfold spec_ratio. set (p := _ + _). destruct (Reqb_spec p 0) as [F|F]; [exfalso|reflexivity].
  assert (A : sq_or_0 (d z) <= rsum nz (fun z => sq_or_0 (d z))).
  { apply (rsum_term_le nz (fun z => sq_or_0 (d z))); [|exact Hz]. intros i _. unfold sq_or_0. destruct (d i); try lra. apply pow2_ge_0. }
  assert (B : 0 <= rsum nz (fun z => sq_or_0 (t z))) by (apply rsum_nonneg; intros i _; unfold sq_or_0; destruct (t i); try lra; apply pow2_ge_0).
  rewrite E in A. cbn [sq_or_0] in A. unfold p in F. assert (0 < r ^ 2) by (replace (r ^ 2) with (Rsqr r) by (unfold Rsqr; ring); now apply Rsqr_pos_lt). lra.
Qed.
Lemma ratios_count nz l : (forall dt, In dt l -> exists z r, (z < nz)%nat /\ fst dt z = Fin r /\ r <> 0) -> length (ratios nz l) = length l.
Proof.
  induction l as [|a l IH]; intros H; [reflexivity|]. unfold ratios. cbn [flat_map]. rewrite app_length, ratio_one by (apply H; now left).
  fold (ratios nz l). rewrite IH; [reflexivity|]. intros dt Hd. apply H. now right.
Qed.
Lemma full_ok nz ny nx cube : full_cube nz ny nx cube -> cube_ok nz ny nx cube.
Proof. intros [H _] z y x Hz Hy Hx. destruct (H z y x Hz Hy Hx) as [r ->]. exact I. Qed.

Theorem frame_factor : forall nz ny nx NY NX oy ox cube sy sx, full_cube nz ny nx cube -> room ny nx NY NX oy ox sy sx ->
  (Z.abs sy < Z.of_nat ny)%Z -> (Z.abs sx < Z.of_nat nx)%Z ->
  exists v w, scf_spec nz (own_pairs ny nx cube sy sx) = Fin v /\
    scf_value nz NY NX (surrounded ny nx oy ox cube) "continuous" (IZR sy) (IZR sx) = Ok (Fin w) /\
    1 - w = (1 - v) * sqrt (pair_count ny nx sy sx / (2 * (INR ny * INR nx) - pair_count ny nx sy sx)).
Proof.
  intros nz ny nx NY NX oy ox cube sy sx F Rm Hy Hx. rewrite (frame_value nz ny nx NY NX oy ox cube sy sx (full_ok _ _ _ _ F) Rm).
  destruct F as [_ F].
  destruct (frame_sums nz ny nx cube sy sx) as [S L]. cbv zeta in S, L.
  assert (A : length (ratios nz (own_pairs ny nx cube sy sx)) = length (own_pairs ny nx cube sy sx)).
  { apply ratios_count. intros dt H. unfold own_pairs, pairs_at in H. apply in_map_iff in H. destruct H as [[y x] [<- H]]. cbn [fst snd].
    apply in_prod_iff in H. destruct H as [H1 H2]. apply in_partner_inside in H1, H2. apply F; tauto. }
  assert (B : forall a b, length (ratios nz (with_blank ny nx cube a b)) = length (with_blank ny nx cube a b)).
  { intros a b. apply ratios_count. intros dt H. unfold with_blank in H. apply in_map_iff in H. destruct H as [[y x] [<- H]]. cbn [fst snd].
    apply filter_In in H. destruct H as [H _]. apply in_prod_iff in H. rewrite !in_seq in H. apply F; lia. }
  rewrite A, !B, own_count, !with_blank_count in L by lia. rewrite !Z.abs_opp in L. rewrite own_count in A by lia.
  set (m := ((ny - Z.to_nat (Z.abs sy)) * (nx - Z.to_nat (Z.abs sx)))%nat) in *.
  assert (Pm : (0 < m)%nat) by (unfold m; apply Nat.mul_pos_pos; lia).
  assert (Um : (m <= ny * nx)%nat) by (unfold m; apply Nat.mul_le_mono; lia).
  assert (Cm : pair_count ny nx sy sx = INR m).
  { unfold pair_count, m. rewrite mult_INR, !minus_INR by lia. rewrite <- !abs_IZR, !INR_IZR_INZ, !Z2Nat.id by lia. reflexivity. }
  assert (N : ratios nz (own_pairs ny nx cube sy sx) <> []) by (intros G; rewrite G in A; cbn [length] in A; lia).
  rewrite (spec_fin nz _ N). eexists. eexists. split; [reflexivity|].
  rewrite spec_fin by (intros G; rewrite G in L; cbn [length] in L; lia). split; [reflexivity|]. rewrite S, L, A, Cm.
  replace (m + (ny * nx - m) + (ny * nx - m))%nat with (2 * (ny * nx) - m)%nat by lia.
  rewrite minus_INR, mult_INR, mult_INR by lia. change (INR 2) with 2.
  assert (Pm' : 0 < INR m) by now apply lt_0_INR. apply le_INR in Um. rewrite mult_INR in Um.
  set (s := lsum _). assert (Ps : 0 <= s) by apply lsum_nonneg', ratios_nonneg. set (t := 2 * (INR ny * INR nx) - INR m). assert (Pt : 0 < t) by (unfold t; lra).
  replace (1 - (1 - sqrt (s / t))) with (sqrt (s / t)) by ring. replace (1 - (1 - sqrt (s / INR m))) with (sqrt (s / INR m)) by ring.
  rewrite <- sqrt_mult.
  - f_equal. field. lra.
  - apply Rmult_le_pos; [exact Ps|]. left. now apply Rinv_0_lt_compat.
  - apply Rmult_le_pos; [lra|]. left. now apply Rinv_0_lt_compat.
Qed.

(** ** A case *)
Definition two_pixels (z y x : nat) : fl := nth x [Fin 1; Fin 3] NaN.
Lemma two_full : full_cube 1 1 2 two_pixels.
Proof.
  split.
  - intros z y x _ _ Hx. destruct x as [|[|x]]; [now exists 1|now exists 3|lia].
  - intros y x _ Hx. exists 0%nat. destruct x as [|[|x]]; [exists 1|exists 3|lia]; (split; [lia|split; [reflexivity|lra]]).
Qed.
Lemma two_room : room 1 2 1 4 0 1 0 1.
Proof. unfold room. cbn. lia. Qed.
Lemma two_own : scf_spec 1 (own_pairs 1 2 two_pixels 0 1) = Fin (1 - sqrt (2 / 5)).
Proof.
  assert (E : ratios 1 (own_pairs 1 2 two_pixels 0 1) = [2 / 5]).
  { unfold ratios, own_pairs, pairs_at. cbn -[Reqb]. unfold two_pixels, partner, spec_ratio. cbn -[Reqb]. match goal with |- context [Reqb ?a 0] => destruct (Reqb_spec a 0) as [F|F] end; [exfalso; lra|]. cbn. f_equal. field. }
  rewrite spec_fin by (rewrite E; discriminate). rewrite E. cbn. do 3 f_equal. field.
Qed.
Theorem frame_refuted : exists nz ny nx NY NX oy ox cube sy sx v w, full_cube nz ny nx cube /\ room ny nx NY NX oy ox sy sx /\
  scf_spec nz (own_pairs ny nx cube sy sx) = Fin v /\
  scf_value nz NY NX (surrounded ny nx oy ox cube) "continuous" (IZR sy) (IZR sx) = Ok (Fin w) /\ w <> v.
Proof.
  destruct (frame_factor 1 1 2 1 4 0 1 two_pixels 0 1 two_full two_room ltac:(cbn; lia) ltac:(cbn; lia)) as [v [w [Ev [Ew E]]]].
  exists 1%nat, 1%nat, 2%nat, 1%nat, 4%nat, 0%nat, 1%nat, two_pixels, 0%Z, 1%Z, v, w. split; [exact two_full|]. split; [exact two_room|].
  split; [exact Ev|]. split; [exact Ew|]. intros ->. rewrite two_own in Ev. injection Ev as <-.
  unfold pair_count in E. rewrite Rabs_R0, Rabs_R1 in E. cbn [INR] in E. replace ((1 - 0) * (1 + 1 - 1) / (2 * (1 * (1 + 1)) - (1 - 0) * (1 + 1 - 1))) with (1 / 3) in E by field.
  replace (1 - (1 - sqrt (2 / 5))) with (sqrt (2 / 5)) in E by ring.
  assert (A : 0 < sqrt (2 / 5)) by (apply sqrt_lt_R0; lra). assert (B : sqrt (1 / 3) < 1) by (rewrite <- sqrt_1 at 2; apply sqrt_lt_1; lra). nra.
Qed.
Theorem frame_zero_lag : forall nz ny nx NY NX oy ox cube, cube_ok nz ny nx cube -> (oy + ny <= NY)%nat -> (ox + nx <= NX)%nat ->
  scf_value nz NY NX (surrounded ny nx oy ox cube) "continuous" 0 0 = scf_value nz ny nx cube "continuous" 0 0.
Proof.
  intros nz ny nx NY NX oy ox cube H Hy Hx. rewrite (frame_value nz ny nx NY NX oy ox cube 0 0 H) by (unfold room; cbn; lia).

  rewrite (scf_formula nz ny nx cube 0 0 H). apply (f_equal Ok).
  assert (W : with_blank ny nx cube 0 0 = []).
  { apply length_zero_iff_nil. rewrite with_blank_count by (cbn; lia). cbn [Z.abs Z.to_nat]. rewrite !Nat.sub_0_r. lia. }
  cbn [Z.opp]. rewrite W, !app_nil_r. unfold own_pairs.
  assert (I : forall n, partner_inside n 0 = seq 0 n).
  { intros n. unfold partner_inside. (assert (G : forall l, (forall p, In p l -> (p < n)%nat) -> filter (fun p => (0 <=? Z.of_nat p - 0)%Z && (Z.of_nat p - 0 <? Z.of_nat n)%Z) l = l);
      [induction l as [|a l IH]; intros G; [reflexivity|]; cbn [filter]; assert (a < n)%nat by (apply G; now left);
       replace ((0 <=? Z.of_nat a - 0)%Z && (Z.of_nat a - 0 <? Z.of_nat n)%Z) with true by (symmetry; rewrite andb_true_iff, Z.leb_le, Z.ltb_lt; lia);
       rewrite IH; [reflexivity|intros p Hp; apply G; now right]|apply G; intros p Hp; apply in_seq in Hp; lia]). }
  now rewrite !I.
Qed.
