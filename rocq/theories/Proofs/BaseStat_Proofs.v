(** Proofs about Model/BaseStat.v. *)
From Coq Require Import String Ascii Reals List ZArith Lia Lra Bool Arith.
From Verif Require Import Lib.PyBase Lib.Fl Model.Units Model.DeltaVar Model.BaseStat Spec.Units Proofs.Units_Proofs Proofs.DeltaVar2_Proofs.
Import ListNotations.
Local Open Scope R_scope.

(** *** Histories *)
Lemma history {A V} (set : option A -> V -> option A * option exn) (acceptable : V -> A -> Prop) :
  (forall old v, (exists q, acceptable v q /\ set old v = (Some q, None)) \/ ((forall q, ~ acceptable v q) /\ fst (set old v) = old)) ->
  forall l old, last_accepted acceptable old l (set_all set old l).
Proof.
  intros H. induction l as [|v l IH]; intros old; cbn [set_all].
  - left. split; [reflexivity|]. intros v q [].
  - destruct (H old v) as [[q [A1 E]]|[N E]].
    + rewrite E. cbn [fst]. destruct (IH (Some q)) as [[F K]|(l1&w&p&l2&L&A2&F&K)].
      * right. exists [], v, q, l. auto.
      * right. exists (v :: l1), w, p, l2. subst; auto.
    + rewrite E. destruct (IH old) as [[F K]|(l1&w&p&l2&L&A2&F&K)].
      * left. split; [exact F|]. intros w p [<-|W]; [apply N|now apply K].
      * right. exists (v :: l1), w, p, l2. subst; auto.
Qed.

(** *** Lags *)
Lemma equivalent_iff u v : is_equivalent u v = true <-> u_pix u = u_pix v /\ u_ang u = u_ang v /\ u_len u = u_len v /\ u_other u = u_other v.
Proof. unfold is_equivalent. rewrite !andb_true_iff, !Z.eqb_eq. tauto. Qed.
Lemma in_pixels_iff s q l : in_pixels s q l <-> exists p, to_pixel s q = Ok p /\ q_vals p = l.
Proof.
  unfold to_pixel. destruct (is_equivalent (q_unit q) pix) eqn:E1; [|destruct (is_equivalent (q_unit q) deg) eqn:E2; [|destruct (is_equivalent (q_unit q) pc) eqn:E3]].
  - apply equivalent_iff in E1. cbn in E1. split.
    + intros [[_ ->]|[[(A&B&C&D) _]|[(A&B&C&D) _]]]; [eauto|exfalso; lia|exfalso; lia].
    + intros [p [[= <-] <-]]. left. split; [unfold dimension; tauto|reflexivity].
  - pose proof E2 as E2'. apply equivalent_iff in E2. cbn in E2.
    assert (C : forall a, convert pix deg (Rabs a) q pix = Ok (mk_q (map (fun v => v * u_factor (q_unit q) / Rabs a) (q_vals q)) pix)).
    { intros a. unfold convert. rewrite E1, E2'. cbn [andb is_equivalent Z.eqb pix deg u_pix u_ang u_len u_other]. rewrite andb_false_r || idtac.
      replace (is_equivalent pix pix) with true by reflexivity. cbn [andb]. do 2 f_equal. apply map_ext. intros v. cbn. unfold Rdiv. rewrite Rinv_1, !Rmult_1_r. reflexivity. }
    unfold to_angular, ang_size. split.
    + intros [[(A&B&D&F) _]|[[_ [a [H ->]]]|[(A&B&D&F) _]]]; [exfalso; lia| |exfalso; lia]. rewrite H. cbn [bind]. rewrite C. eauto.
    + intros [p [H <-]]. destruct (s_header s) as [a|] eqn:Hs; cbn [bind] in H; [|discriminate]. rewrite C in H. injection H as <-.
      right. left. split; [unfold dimension; tauto|]. exists a. auto.
  - pose proof E3 as E3'. apply equivalent_iff in E3. cbn in E3.
    assert (C : forall du k, convert pix du k q pix = if is_equivalent (q_unit q) du then Ok (mk_q (map (fun v => v * (u_factor (q_unit q) / u_factor du) / k) (q_vals q)) pix) else Err UnitConversionError).
    { intros du k. unfold convert. rewrite E1. cbn [andb].
      replace (is_equivalent pix pix) with true by reflexivity. rewrite andb_true_r. destruct (is_equivalent (q_unit q) du); [|reflexivity].
      do 2 f_equal. apply map_ext. intros v. cbn. unfold Rdiv. rewrite Rinv_1, !Rmult_1_r. reflexivity. }
    unfold to_physical, get_distance, physical_size, ang_size, get_distance. split.
    + intros [[(A&B&D&F) _]|[[(A&B&D&F) _]|[_ [a [d [du [H [Hd [(X1&X2&X3&X4) ->]]]]]]]]]; [exfalso; lia|exfalso; lia|]. rewrite Hd, H. cbn [bind fst snd]. rewrite C.
      replace (is_equivalent (q_unit q) du) with true by (symmetry; apply equivalent_iff; lia). eauto.
    + intros [p [H <-]]. destruct (s_distance s) as [[d du]|] eqn:Hd; [|discriminate]. destruct (s_header s) as [a|] eqn:Hs; cbn [bind] in H; [|discriminate].
      cbn [fst snd] in H. rewrite C in H. destruct (is_equivalent (q_unit q) du) eqn:E4; [|discriminate]. injection H as <-. apply equivalent_iff in E4.
      right. right. split; [unfold dimension; tauto|]. exists a, d, du. split; [assumption|]. split; [assumption|]. split; [unfold dimension; lia|reflexivity].
  - split; [|intros [p [H _]]; discriminate].
    intros [[(A&B&C&D) _]|[[(A&B&C&D) _]|[(A&B&C&D) _]]]; exfalso.
    + rewrite <- Bool.not_true_iff_false in E1. apply E1, equivalent_iff. cbn. auto.
    + rewrite <- Bool.not_true_iff_false in E2. apply E2, equivalent_iff. cbn. auto.
    + rewrite <- Bool.not_true_iff_false in E3. apply E3, equivalent_iff. cbn. auto.
Qed.
Definition acceptable_lags0 (s : stat) (side : nat) (v : lag_value) (q : quantity) : Prop :=
  v = LagQuantity q /\ exists p, to_pixel s q = Ok p /\
  forall l, In l (q_vals p) -> 1 <= l /\ IZR (Int_part l) <= INR side / 2.
Definition acceptable_radius0 (s : stat) (side : nat) (v : lag_value) (q : quantity) : Prop :=
  v = LagQuantity q /\ exists p r, to_pixel s q = Ok p /\ q_vals p = [r] /\ 2 <= r <= INR side / 2.
Lemma lags_acc s side v q : acceptable_lags s side v q <-> acceptable_lags0 s side v q.
Proof.
  unfold acceptable_lags, acceptable_lags0. split; intros [H [p [K L]]]; (split; [exact H|]).
  - apply in_pixels_iff in K. destruct K as [p' [K <-]]. eauto.
  - exists (q_vals p). split; [apply in_pixels_iff; eauto|exact L].
Qed.
Lemma radius_acc s side v q : acceptable_radius s side v q <-> acceptable_radius0 s side v q.
Proof.
  unfold acceptable_radius, acceptable_radius0. split.
  - intros [H [r [K L]]]. split; [exact H|]. apply in_pixels_iff in K. destruct K as [p [K E]]. eauto.
  - intros [H [p [r [K [E L]]]]]. split; [exact H|]. exists r. split; [apply in_pixels_iff; eauto|exact L].
Qed.
Lemma half_side side l : IZR (Int_part l) <= INR side / 2 + / 10 ^ 10 <-> IZR (Int_part l) <= INR side / 2.
Proof.
  assert (E : 0 < / 10 ^ 10 < / 2).
  { split; [apply Rinv_0_lt_compat, pow_lt; lra|]. apply Rinv_lt_contravar; [|]; cbn; lra. }
  split; [|lra]. intros H. rewrite INR_IZR_INZ in *.
  assert (2 * IZR (Int_part l) < IZR (Z.of_nat side) + 1) by lra. rewrite <- mult_IZR, <- plus_IZR in H0. apply lt_IZR in H0.
  assert (2 * IZR (Int_part l) <= IZR (Z.of_nat side)); [|lra]. rewrite <- mult_IZR. apply IZR_le. lia.
Qed.

Lemma set_lags_spec0 s side old v :
  (exists q, acceptable_lags0 s side v q /\ set_lags s side old v = (Some q, None)) \/
  ((forall q, ~ acceptable_lags0 s side v q) /\ fst (set_lags s side old v) = old /\ exists e, snd (set_lags s side old v) = Some e).
Proof.
  destruct v as [|q]; cbn [set_lags].
  - right. split; [intros q [H _]; discriminate|]. split; [reflexivity|]. eexists; reflexivity.
  - destruct (to_pixel s q) as [p|e] eqn:T.
    + destruct (lags_ok side (q_vals p)) eqn:L.
      * left. exists q. split; [|reflexivity]. split; [reflexivity|]. exists p. split; [exact T|]. intros l Hl. apply (proj1 (lags_ok_iff _ _) L) in Hl. now rewrite half_side in Hl.
      * right. split; [|split; [reflexivity|eexists; reflexivity]]. intros q' [E (p'&T'&K)]. injection E as <-. rewrite T in T'. injection T' as <-.
        rewrite <- Bool.not_true_iff_false in L. apply L. apply lags_ok_iff. intros l Hl. rewrite half_side. auto.
    + right. split; [|split; [reflexivity|eexists; reflexivity]]. intros q' [E (p'&T'&K)]. injection E as <-. congruence.
Qed.
Lemma set_lags_spec s side old v :
  (exists q, acceptable_lags s side v q /\ set_lags s side old v = (Some q, None)) \/
  ((forall q, ~ acceptable_lags s side v q) /\ fst (set_lags s side old v) = old /\ exists e, snd (set_lags s side old v) = Some e).
Proof.
  destruct (set_lags_spec0 s side old v) as [[q [A E]]|[N K]]; [left; exists q; split; [now apply lags_acc|exact E]|right; split; [|exact K]].
  intros q A. apply (N q). now apply lags_acc.
Qed.

Lemma set_radius_spec0 s side old v :
  (exists q, acceptable_radius0 s side v q /\ set_radius s side old v = (Some q, None)) \/
  ((forall q, ~ acceptable_radius0 s side v q) /\ fst (set_radius s side old v) = old /\ exists e, snd (set_radius s side old v) = Some e).
Proof.
  destruct v as [|q]; cbn [set_radius].
  - right. split; [intros q [H _]; discriminate|]. split; [reflexivity|]. eexists; reflexivity.
  - destruct (to_pixel s q) as [p|e] eqn:T.
    + destruct (q_vals p) as [|r [|r' t]] eqn:Q; try (right; split; [|split; [reflexivity|eexists; reflexivity]]; intros q' [E (p'&x&T'&K&_)]; injection E as <-; rewrite T in T'; injection T' as <-; congruence).
      destruct (Rltb_spec r 2) as [B|B]; [|destruct (Rltb_spec (INR side / 2) r) as [C|C]].
      1,2: right; split; [|split; [reflexivity|eexists; reflexivity]]; intros q' [E (p'&x&T'&K&D)]; injection E as <-; rewrite T in T'; injection T' as <-; rewrite Q in K; injection K as <-; lra.
      left. exists q. split; [|reflexivity]. split; [reflexivity|]. exists p, r. split; [exact T|]. split; [exact Q|lra].
    + right. split; [|split; [reflexivity|eexists; reflexivity]]. intros q' [E (p'&x&T'&K)]. injection E as <-. congruence.
Qed.
Lemma set_radius_spec s side old v :
  (exists q, acceptable_radius s side v q /\ set_radius s side old v = (Some q, None)) \/
  ((forall q, ~ acceptable_radius s side v q) /\ fst (set_radius s side old v) = old /\ exists e, snd (set_radius s side old v) = Some e).
Proof.
  destruct (set_radius_spec0 s side old v) as [[q [A E]]|[N K]]; [left; exists q; split; [now apply radius_acc|exact E]|right; split; [|exact K]].
  intros q A. apply (N q). now apply radius_acc.
Qed.

Lemma existsb_none {A} (f : A -> bool) l : existsb f l = false <-> forall x, In x l -> f x = false.
Proof.
  split.
  - intros H x Hx. destruct (f x) eqn:E; auto. rewrite <- H. symmetry. apply existsb_exists. eauto.
  - intros H. destruct (existsb f l) eqn:E; auto. apply existsb_exists in E. destruct E as [x [Hx E]]. rewrite <- E. now apply H.
Qed.

Lemma set_smoothing_spec side old v :
  (exists q, acceptable_smoothing side v q /\ set_smoothing true side old v = (Some q, None)) \/
  ((forall q, ~ acceptable_smoothing side v q) /\ fst (set_smoothing true side old v) = old /\ snd (set_smoothing true side old v) = Some ValueError).
Proof.
  unfold set_smoothing. destruct (existsb (fun r => Rltb r 1) v) eqn:B; [|destruct (existsb (fun r => Rltb (1 / 2 * INR side) r) v) eqn:C].
  - right. split; [|auto]. intros q [_ K]. apply existsb_exists in B. destruct B as [r [Hr B]]. destruct (Rltb_spec r 1); [|discriminate]. specialize (K r Hr). lra.
  - right. split; [|auto]. intros q [_ K]. apply existsb_exists in C. destruct C as [r [Hr C]]. destruct (Rltb_spec (1 / 2 * INR side) r); [|discriminate]. specialize (K r Hr). lra.
  - left. exists v. split; [|reflexivity]. split; [reflexivity|]. intros r Hr. apply (proj1 (existsb_none _ _)) with (x := r) in B; auto. apply (proj1 (existsb_none _ _)) with (x := r) in C; auto. cbn beta in *.
    destruct (Rltb_spec r 1); [discriminate|]. destruct (Rltb_spec (1 / 2 * INR side) r); [discriminate|]. lra.
Qed.

Lemma lags_history s side l old : last_accepted (acceptable_lags s side) old l (set_all (set_lags s side) old l).
Proof. apply history. intros o v. destruct (set_lags_spec s side o v) as [H|(H&K&_)]; auto. Qed.
Lemma radius_history s side l old : last_accepted (acceptable_radius s side) old l (set_all (set_radius s side) old l).
Proof. apply history. intros o v. destruct (set_radius_spec s side o v) as [H|(H&K&_)]; auto. Qed.
Lemma smoothing_history side l old : last_accepted (acceptable_smoothing side) old l (set_all (set_smoothing true side) old l).
Proof. apply history. intros o v. destruct (set_smoothing_spec side o v) as [H|(H&K&_)]; auto. Qed.

Lemma Int_part_val x n : IZR n <= x < IZR n + 1 -> Int_part x = n.
Proof.
  intros H. unfold Int_part. assert (up x = (n + 1)%Z); [|lia]. symmetry. apply tech_up; rewrite plus_IZR; lra.
Qed.

Lemma lags_above_half s : exists side q, set_lags s side None (LagQuantity q) = (Some q, None) /\ exists l, q_vals q = [l] /\ q_unit q = pix /\ INR side / 2 < l.
Proof.
  exists 64%nat, (mk_q [329 / 10] pix). split.
  - destruct (set_lags_spec s 64 None (LagQuantity (mk_q [329 / 10] pix))) as [[q [A E]]|[N _]].
    + destruct A as [A _]. injection A as <-. exact E.
    + exfalso. apply (N (mk_q [329 / 10] pix)). apply lags_acc. split; [reflexivity|]. exists (mk_q [329 / 10] pix). split; [now apply to_pixel_pixels|].
      intros l [<-|[]]. rewrite (Int_part_val _ 32) by lra. replace (INR 64) with 64 by (rewrite INR_IZR_INZ; reflexivity). lra.
  - exists (329 / 10). repeat split. replace (INR 64) with 64 by (rewrite INR_IZR_INZ; reflexivity). lra.
Qed.

(** *** Which lags are used *)
Lemma used_scales_same s a vals u : s_header s = Some a -> 0 < a -> angle_unit 1 u ->
  wavelet_used_scales s (mk_q vals u) = wavelet_used_scales s (mk_q (map (fun v => v * u_factor u / a) vals) pix) /\
  tsallis_used_lags s (mk_q vals u) = tsallis_used_lags s (mk_q (map (fun v => v * u_factor u / a) vals) pix).
Proof.
  intros H Ha Hu. unfold wavelet_used_scales, tsallis_used_lags. rewrite (to_pixel_angle s a) by auto. now rewrite to_pixel_pixels.
Qed.

Lemma init_lags_converted s side n q p : to_pixel s q = Ok p -> q_unit p = pix ->
  deltavar_init_lags s side n (Some (inr q)) = deltavar_init_lags s side n (Some (inl (q_vals p))).
Proof. intros H E. unfold deltavar_init_lags. rewrite H. cbn [bind]. destruct p as [v u]. cbn in *. now rewrite E. Qed.

Lemma deltavar_raw_lags : exists s side q p, to_pixel s q = Ok p /\ q_unit p = pix /\
  set_lags s side None (LagQuantity q) = (Some q, None) /\ set_lags s side None (LagQuantity p) = (Some p, None) /\
  deltavar_used_lags s q <> deltavar_used_lags s p.
Proof.
  set (s := mk_stat (Some (1 / 10)) None). set (q := mk_q [1] deg). set (p := mk_q [10] pix).
  assert (T : to_pixel s q = Ok p).
  { unfold q, p. rewrite (to_pixel_angle s (1 / 10)); [|reflexivity|lra|repeat split; cbn; lra]. cbn. do 3 f_equal. lra. }
  assert (A : forall v, to_pixel s v = Ok p -> set_lags s 64 None (LagQuantity v) = (Some v, None)).
  { intros v Tv. destruct (set_lags_spec s 64 None (LagQuantity v)) as [[w [B E]]|[N _]].
    - destruct B as [B _]. injection B as <-. exact E.
    - exfalso. apply (N v). apply lags_acc. split; [reflexivity|]. exists p. split; [exact Tv|]. intros l [<-|[]]. rewrite (Int_part_val _ 10) by lra.
      replace (INR 64) with 64 by (rewrite INR_IZR_INZ; reflexivity). lra. }
  exists s, 64%nat, q, p. split; [exact T|]. split; [reflexivity|]. split; [now apply A|]. split; [apply A; now apply to_pixel_pixels|].
  unfold deltavar_used_lags, q, p. cbn. intros E. injection E. lra.
Qed.

(** *** Header, data, distance *)
Lemma assign_flags o a : o_need_header (fst (assign o a)) = o_need_header o /\ o_no_data (fst (assign o a)) = o_no_data o.
Proof.
  destruct a as [v|v|v]; cbn.
  - unfold set_header. destruct (o_need_header o) eqn:E; cbn; [destruct v; cbn; auto|auto].
  - unfold set_data. destruct (o_no_data o) eqn:E; cbn; [auto|destruct v; cbn; auto].
  - unfold set_distance. destruct v; cbn; auto. destruct (is_equivalent _ _); cbn; auto. destruct isscalar; auto.
Qed.

Lemma assign_all_flags l : forall o, o_need_header (assign_all o l) = o_need_header o /\ o_no_data (assign_all o l) = o_no_data o.
Proof.
  induction l as [|a l IH]; intros o; cbn [assign_all]; auto. destruct (IH (fst (assign o a))) as [A B]. destruct (assign_flags o a) as [C D]. split; congruence.
Qed.

Lemma set_header_spec o v :
  (exists h, acceptable_header o v h /\ set_header o v = (mk_obj (o_need_header o) (o_no_data o) (Some h) (o_distance o) (o_data o), None)) \/
  ((forall h, ~ acceptable_header o v h) /\ set_header o v = (o, Some TypeError)).
Proof.
  unfold set_header, acceptable_header. destruct (o_need_header o); cbn [negb].
  - destruct v; try (right; split; [|reflexivity]; intros h [[_ (x&E&_)]|[E _]]; discriminate).
    left. exists (Some pixel_size). split; [|reflexivity]. left. split; auto. eauto.
  - left. exists None. split; [|reflexivity]. right. auto.
Qed.
Lemma set_data_spec o v :
  (exists h, acceptable_data o v h /\ set_data o v = (mk_obj (o_need_header o) (o_no_data o) (o_header o) (o_distance o) (Some h), None)) \/
  ((forall h, ~ acceptable_data o v h) /\ set_data o v = (o, Some TypeError)).
Proof.
  unfold set_data, acceptable_data. destruct (o_no_data o).
  - left. exists None. split; [|reflexivity]. right. auto.
  - destruct v; try (right; split; [|reflexivity]; intros h [[_ (x&E&_)]|[E _]]; discriminate).
    left. exists (Some (squeeze a)). split; [|reflexivity]. left. split; auto. exists a. split; auto. exists (squeeze a). auto.
Qed.
Lemma set_distance_spec o v :
  (exists q, acceptable_distance v q /\ set_distance o v = (mk_obj (o_need_header o) (o_no_data o) (o_header o) (Some q) (o_data o), None)) \/
  ((forall q, ~ acceptable_distance v q) /\ exists e, (e = TypeError \/ e = UnitConversionError) /\ set_distance o v = (o, Some e)).
Proof.
  unfold set_distance, acceptable_distance. destruct v; try (right; split; [intros q' [E _]; discriminate|]; exists TypeError; auto).
  destruct (is_equivalent (q_unit q) pc) eqn:E; cbn [negb].
  - destruct isscalar; cbn [negb].
    + left. exists q. auto.
    + right. split; [intros q' [F _]; discriminate|]. exists TypeError. auto.
  - right. split; [intros q' [F G]; injection F as <- ; congruence|]. exists UnitConversionError. auto.
Qed.

(** A rejected assignment changes nothing; an accepted one changes only its attribute. *)
Lemma assign_rejected o a e : snd (assign o a) = Some e -> fst (assign o a) = o.
Proof.
  destruct a as [v|v|v]; cbn.
  - destruct (set_header_spec o v) as [(h&_&E)|[_ E]]; rewrite E; cbn; congruence.
  - destruct (set_data_spec o v) as [(h&_&E)|[_ E]]; rewrite E; cbn; congruence.
  - destruct (set_distance_spec o v) as [(h&_&E)|[_ (x&_&E)]]; rewrite E; cbn; congruence.
Qed.

Lemma distance_history l : forall o, last_accepted acceptable_distance (o_distance o) (distance_values l) (o_distance (assign_all o l)).
Proof.
  induction l as [|a l IH]; intros o; cbn [assign_all].
  - left. split; [reflexivity|]. intros v q [].
  - destruct a as [v|v|v]; cbn [distance_values flat_map app assign].
    + destruct (set_header_spec o v) as [(h&_&E)|[_ E]]; rewrite E; cbn [fst]; [|apply IH]. exact (IH (mk_obj _ _ _ _ _)).
    + destruct (set_data_spec o v) as [(h&_&E)|[_ E]]; rewrite E; cbn [fst]; [|apply IH]. exact (IH (mk_obj _ _ _ _ _)).
    + destruct (set_distance_spec o v) as [(h&A1&E)|[N (x&_&E)]]; rewrite E; cbn [fst].
      * destruct (IH (mk_obj (o_need_header o) (o_no_data o) (o_header o) (Some h) (o_data o))) as [[F K]|(l1&w&p&l2&L&A2&F&K)].
        -- right. exists [], v, h, (distance_values l). auto.
        -- right. exists (v :: l1), w, p, l2. change (flat_map _ l) with (distance_values l). rewrite L in *. auto.
      * destruct (IH o) as [[F K]|(l1&w&p&l2&L&A2&F&K)].
        -- left. split; [exact F|]. intros w p [<-|W]; [apply N|now apply K].
        -- right. exists (v :: l1), w, p, l2. change (flat_map _ l) with (distance_values l). rewrite L in *. auto.
Qed.

Lemma acceptable_header_flag o o' v h : o_need_header o = o_need_header o' -> acceptable_header o v h -> acceptable_header o' v h.
Proof. intros E H. unfold acceptable_header in *. now rewrite <- E. Qed.
Lemma acceptable_data_flag o o' v h : o_no_data o = o_no_data o' -> acceptable_data o v h -> acceptable_data o' v h.
Proof. intros E H. unfold acceptable_data in *. now rewrite <- E. Qed.

Lemma header_history l : forall o, last_accepted (acceptable_header o) (o_header o) (header_values l) (o_header (assign_all o l)).
Proof.
  intros o0. assert (G : forall o, o_need_header o = o_need_header o0 -> last_accepted (acceptable_header o0) (o_header o) (header_values l) (o_header (assign_all o l))); [|now apply G].
  induction l as [|a l IH]; intros o Ho; cbn [assign_all].
  - left. split; [reflexivity|]. intros v q [].
  - destruct a as [v|v|v]; cbn [header_values flat_map app assign].
    + destruct (set_header_spec o v) as [(h&A1&E)|[N E]]; rewrite E; cbn [fst].
      * apply (acceptable_header_flag o o0) in A1; auto.
        destruct (IH (mk_obj (o_need_header o) (o_no_data o) (Some h) (o_distance o) (o_data o)) Ho) as [[F K]|(l1&w&p&l2&L&A2&F&K)].
        -- right. exists [], v, h, (header_values l). auto.
        -- right. exists (v :: l1), w, p, l2. change (flat_map _ l) with (header_values l). rewrite L in *. auto.
      * assert (N' : forall h, ~ acceptable_header o0 v h) by (intros h C; apply (N h); now apply (acceptable_header_flag o0 o)).
        destruct (IH o Ho) as [[F K]|(l1&w&p&l2&L&A2&F&K)].
        -- left. split; [exact F|]. intros w p [<-|W]; [apply N'|now apply K].
        -- right. exists (v :: l1), w, p, l2. change (flat_map _ l) with (header_values l). rewrite L in *. auto.
    + destruct (set_data_spec o v) as [(h&_&E)|[_ E]]; rewrite E; cbn [fst]; [|now apply IH]. exact (IH (mk_obj _ _ _ _ _) Ho).
    + destruct (set_distance_spec o v) as [(h&_&E)|[_ (x&_&E)]]; rewrite E; cbn [fst]; [|now apply IH]. exact (IH (mk_obj _ _ _ _ _) Ho).
Qed.

Lemma data_history l : forall o, last_accepted (acceptable_data o) (o_data o) (data_values l) (o_data (assign_all o l)).
Proof.
  intros o0. assert (G : forall o, o_no_data o = o_no_data o0 -> last_accepted (acceptable_data o0) (o_data o) (data_values l) (o_data (assign_all o l))); [|now apply G].
  induction l as [|a l IH]; intros o Ho; cbn [assign_all].
  - left. split; [reflexivity|]. intros v q [].
  - destruct a as [v|v|v]; cbn [data_values flat_map app assign].
    + destruct (set_header_spec o v) as [(h&_&E)|[_ E]]; rewrite E; cbn [fst]; [|now apply IH]. exact (IH (mk_obj _ _ _ _ _) Ho).
    + destruct (set_data_spec o v) as [(h&A1&E)|[N E]]; rewrite E; cbn [fst].
      * apply (acceptable_data_flag o o0) in A1; auto.
        destruct (IH (mk_obj (o_need_header o) (o_no_data o) (o_header o) (o_distance o) (Some h)) Ho) as [[F K]|(l1&w&p&l2&L&A2&F&K)].
        -- right. exists [], v, h, (data_values l). auto.
        -- right. exists (v :: l1), w, p, l2. change (flat_map _ l) with (data_values l). rewrite L in *. auto.
      * assert (N' : forall h, ~ acceptable_data o0 v h) by (intros h C; apply (N h); now apply (acceptable_data_flag o0 o)).
        destruct (IH o Ho) as [[F K]|(l1&w&p&l2&L&A2&F&K)].
        -- left. split; [exact F|]. intros w p [<-|W]; [apply N'|now apply K].
        -- right. exists (v :: l1), w, p, l2. change (flat_map _ l) with (data_values l). rewrite L in *. auto.
    + destruct (set_distance_spec o v) as [(h&_&E)|[_ (x&_&E)]]; rewrite E; cbn [fst]; [|now apply IH]. exact (IH (mk_obj _ _ _ _ _) Ho).
Qed.

(** *** Saving and loading *)
Lemma endswith_app s : endswith_pkl (s ++ ".pkl") = true.
Proof. induction s as [|c s IH]; [reflexivity|]. cbn [append]. cbn [endswith_pkl]. rewrite IH. now destruct (String.eqb _ _). Qed.
Lemma endswith_iff s : endswith_pkl s = true <-> exists t, s = (t ++ ".pkl")%string.
Proof.
  split.
  - induction s as [|c s IH]; intros H.
    + discriminate.
    + cbn [endswith_pkl] in H. destruct (String.eqb_spec (String c s) ".pkl") as [E|E]; [exists ""%string; rewrite E; reflexivity|].
      destruct (IH H) as [t ->]. exists (String c t). reflexivity.
  - intros [t ->]. apply endswith_app.
Qed.

Lemma pkl_name_spec name : (exists t, pkl_name name = (t ++ ".pkl")%string) /\ pkl_name (pkl_name name) = pkl_name name /\
  (pkl_name name = name \/ (pkl_name name = (name ++ ".pkl")%string /\ ~ exists t, name = (t ++ ".pkl")%string)).
Proof.
  assert (E : endswith_pkl (pkl_name name) = true) by (unfold pkl_name; destruct (endswith_pkl name) eqn:E; [exact E|apply endswith_app]).
  split; [now apply endswith_iff|]. split; [unfold pkl_name at 1; now rewrite E|].
  unfold pkl_name. destruct (endswith_pkl name) eqn:F; [auto|]. right. split; auto. intros K. apply endswith_iff in K. congruence.
Qed.

Lemma deref_app h a x : (a < length h)%nat -> deref (h ++ [x]) a = deref h a.
Proof. intros. unfold deref. now rewrite app_nth1. Qed.
Lemma deref_last h x : deref (h ++ [x]) (length h) = x.
Proof. unfold deref. rewrite app_nth2, Nat.sub_diag by lia. reflexivity. Qed.
Lemma update_length h : forall a o, length (update h a o) = length h.
Proof. induction h; intros [|k] o; cbn; auto. Qed.
Lemma deref_update h : forall a b o, (a < length h)%nat -> deref (update h a o) b = if Nat.eqb a b then o else deref h b.
Proof.
  induction h as [|x h IH]; intros a b o H; [cbn in H; lia|]. destruct a, b; cbn; auto. apply (IH a b o). cbn in H. lia.
Qed.
Lemma update_app h x o : update (h ++ [x]) (length h) o = h ++ [o].
Proof. induction h; cbn; [reflexivity|now f_equal]. Qed.

Lemma save_results_eq h f self name keep : save_results h f self name keep =
  let saved := if keep then deref h self else set_attr (deref h self) "_data" ANone in (h ++ [saved], (pkl_name name, saved) :: f).
Proof.
  unfold save_results, deepcopy. destruct keep; cbn [negb].
  - now rewrite deref_last.
  - unfold setattr. rewrite deref_last, update_app, deref_last. reflexivity.
Qed.

Lemma get_set_attr o name v n : get_attr (set_attr o name v) n = if String.eqb n name then Some v else get_attr o n.
Proof.
  induction o as [|[k w] o IH]; cbn.
  - rewrite String.eqb_sym. now destruct (String.eqb n name).
  - destruct (String.eqb_spec k name) as [->|E]; cbn.
    + rewrite String.eqb_sym. now destruct (String.eqb n name).
    + rewrite IH. destruct (String.eqb_spec k n) as [<-|F]; auto. destruct (String.eqb_spec k name); [contradiction|reflexivity].
Qed.

Lemma save_leaves h f self name keep : forall a, (a < length h)%nat -> deref (fst (save_results h f self name keep)) a = deref h a.
Proof. intros a Ha. rewrite save_results_eq. cbn [fst]. now apply deref_app. Qed.

Lemma save_other_files h f self name keep other : other <> pkl_name name ->
  read_file (snd (save_results h f self name keep)) other = read_file f other.
Proof. intros H. rewrite save_results_eq. cbn. destruct (String.eqb_spec (pkl_name name) other); [congruence|reflexivity]. Qed.

Lemma save_load h f self name keep : exists h' a,
  load_results (fst (save_results h f self name keep)) (snd (save_results h f self name keep)) (pkl_name name) = Ok (h', a) /\
  forall attr, get_attr (deref h' a) attr =
    if negb keep && String.eqb attr "_data" then Some ANone else get_attr (deref h self) attr.
Proof.
  rewrite save_results_eq. cbn [fst snd]. unfold load_results. cbn [read_file]. rewrite String.eqb_refl. eexists _, _. split; [reflexivity|].
  intros attr. rewrite deref_last. destruct keep; cbn [negb andb]; [reflexivity|]. apply get_set_attr.
Qed.

Lemma save_all_leaves l : forall h f a, (a < length h)%nat -> deref (fst (save_all h f l)) a = deref h a.
Proof.
  induction l as [|[[s n] k] l IH]; intros h f a Ha; [reflexivity|]. cbn [save_all]. destruct (save_results h f s n k) as [h' f'] eqn:E.
  rewrite IH.
  - pose proof (save_leaves h f s n k a Ha) as P. now rewrite E in P.
  - rewrite save_results_eq in E. injection E as <- _. rewrite app_length. lia.
Qed.

(** After any history of saves, loading the name of the last save to it gives that object. *)
Lemma save_all_length l : forall h f, (length h <= length (fst (save_all h f l)))%nat.
Proof.
  induction l as [|[[s n] k] l IH]; intros h f; [cbn; lia|]. cbn [save_all]. destruct (save_results h f s n k) as [h' f'] eqn:E.
  specialize (IH h' f'). rewrite save_results_eq in E. injection E as <- _. rewrite app_length in IH. cbn in *. lia.
Qed.
Lemma save_all_other l : forall h f name, (forall s n k, In (s, n, k) l -> pkl_name n <> name) -> read_file (snd (save_all h f l)) name = read_file f name.
Proof.
  induction l as [|[[s n] k] l IH]; intros h f name H; [reflexivity|]. cbn [save_all]. destruct (save_results h f s n k) as [h' f'] eqn:E.
  rewrite IH by (intros; eapply H; right; eauto). pose proof (save_other_files h f s n k name) as P. rewrite E in P. apply P. intros ->. eapply (H s n k); [now left|reflexivity].
Qed.
Lemma save_all_app l1 : forall l2 h f, save_all h f (l1 ++ l2) = save_all (fst (save_all h f l1)) (snd (save_all h f l1)) l2.
Proof. induction l1 as [|[[s n] k] l1 IH]; intros; [reflexivity|]. cbn [save_all app]. destruct (save_results h f s n k). apply IH. Qed.

Lemma save_all_load l1 l2 h f self name keep : (self < length h)%nat ->
  (forall s n k, In (s, n, k) l2 -> pkl_name n <> pkl_name name) ->
  exists h' a, load_results (fst (save_all h f (l1 ++ (self, name, keep) :: l2))) (snd (save_all h f (l1 ++ (self, name, keep) :: l2))) (pkl_name name) = Ok (h', a) /\
  forall attr, get_attr (deref h' a) attr =
    if negb keep && String.eqb attr "_data" then Some ANone else get_attr (deref h self) attr.
Proof.
  intros Hs H. rewrite save_all_app. cbn [save_all]. pose proof (save_all_leaves l1 h f self Hs) as D.
  set (h1 := fst (save_all h f l1)) in *. set (f1 := snd (save_all h f l1)) in *. rewrite save_results_eq. cbn zeta.
  unfold load_results. rewrite save_all_other by auto. cbn [read_file]. rewrite String.eqb_refl. eexists _, _. split; [reflexivity|].
  intros attr. rewrite deref_last, D. destruct keep; cbn [negb andb]; [reflexivity|]. apply get_set_attr.
Qed.

Lemma mvc_keeps_data : exists h f self name, get_attr (deref h self) "_data" <> Some ANone /\ get_attr (deref h self) "_data" <> None /\ exists h' a,
  load_results (fst (save_results_mvc h f self name false)) (snd (save_results_mvc h f self name false)) (pkl_name name) = Ok (h', a) /\
  get_attr (deref h' a) "_data" = get_attr (deref h self) "_data".
Proof.
  exists [[("_data", AData_ [Fin 1]); ("_centroid", AData_ [Fin 1])]]%string, [], 0%nat, "x"%string.
  split; [discriminate|]. split; [discriminate|]. eexists _, _. split; reflexivity.
Qed.

(** load_results needs the full name. *)
Lemma load_needs_suffix h f self name keep : endswith_pkl name = false -> read_file f name = None ->
  load_results (fst (save_results h f self name keep)) (snd (save_results h f self name keep)) name = Err OtherError.
Proof.
  intros E H. unfold load_results. rewrite save_other_files, H; [reflexivity|]. unfold pkl_name. rewrite E. intros C.
  assert (L : String.length name = String.length (name ++ ".pkl")) by now rewrite <- C.
  clear -L. induction name as [|c n IH]; cbn in L; [discriminate|]. injection L as L. auto.
Qed.

(** Concrete histories *)
Lemma ex_lags : acceptable_lags ex_stat 64 (LagQuantity (mk_q [3; 32] pix)) (mk_q [3; 32] pix) /\
  ~ acceptable_lags ex_stat 64 (LagQuantity (mk_q [33] pix)) (mk_q [33] pix) /\ acceptable_radius ex_stat 64 (LagQuantity (mk_q [2] pix)) (mk_q [2] pix) /\
  acceptable_smoothing 64 [1; 32] [1; 32].
Proof.
  assert (E : INR 64 = 64) by (rewrite INR_IZR_INZ; reflexivity). rewrite !lags_acc, radius_acc. repeat split.
  - exists (mk_q [3; 32] pix). split; [now apply to_pixel_pixels|]. intros l [<-|[<-|[]]]; rewrite E.
    + rewrite (Int_part_val 3 3) by lra. lra.
    + rewrite (Int_part_val 32 32) by lra. lra.
  - intros [_ (p&T&K)]. rewrite to_pixel_pixels in T by reflexivity. injection T as <-. destruct (K 33 (or_introl eq_refl)) as [_ B]. rewrite (Int_part_val 33 33), E in B by lra. lra.
  - exists (mk_q [2] pix), 2. rewrite E. split; [now apply to_pixel_pixels|]. split; [reflexivity|lra].
  - destruct H as [<-|[<-|[]]]; lra.
  - rewrite E. destruct H as [<-|[<-|[]]]; lra.
Qed.

Definition ex_obj : obj := mk_obj true false (Some (Some 1)) None None.
Lemma ex_history :
  assign_all ex_obj [ADistance POther; ADistance (PQuantity (mk_q [140] pc) true); ADistance (PQuantity (mk_q [3] deg) true); AData (PArray (mk_arr [1; 2]%nat [Fin 1; Fin 2])); AData PNone; AHeader POther] =
  mk_obj true false (Some (Some 1)) (Some (mk_q [140] pc)) (Some (Some (mk_arr [2]%nat [Fin 1; Fin 2]))).
Proof. reflexivity. Qed.
