(** More facts about blank-aware reductions. *)
From Coq Require Import Reals List Lra Lia Bool Arith.
From Verif Require Import Lib.RSum Lib.Fl Lib.Arr Spec.Blank.
Import ListNotations.
Local Open Scope R_scope.

Lemma fins_map (f : fl -> fl) (g : R -> R) x :
  (forall r, In (Fin r) x -> f (Fin r) = Fin (g r)) -> f NaN = NaN -> Forall blankable x ->
  fins (map f x) = map g (fins x).
Proof.
  intros Hf Hn H. induction H as [|v x Hv Hx IH]; [reflexivity|].
  cbn [map]. destruct v as [r| | |]; cbn in Hv; try contradiction.
  - rewrite Hf by now left. rewrite !fins_cons_Fin. cbn [map]. rewrite IH; auto.
    intros; apply Hf; now right.
  - rewrite Hn, !fins_cons_NaN. apply IH. intros; apply Hf; now right.
Qed.

Lemma blankable_map (f : fl -> fl) (g : R -> R) x :
  (forall r, In (Fin r) x -> f (Fin r) = Fin (g r)) -> f NaN = NaN -> Forall blankable x ->
  Forall blankable (map f x).
Proof.
  intros Hf Hn H. apply Forall_forall. intros v Hv. apply in_map_iff in Hv.
  destruct Hv as [u [<- Hu]]. rewrite Forall_forall in H. specialize (H u Hu).
  destruct u; cbn in H; try contradiction; [rewrite Hf by auto|rewrite Hn]; exact I.
Qed.

Lemma nan_map (f : fl -> fl) (g : R -> R) x :
  (forall r, In (Fin r) x -> f (Fin r) = Fin (g r)) -> f NaN = NaN -> Forall blankable x ->
  map is_nan (map f x) = map is_nan x.
Proof.
  intros Hf Hn H. rewrite map_map. apply map_ext_in. intros u Hu.
  rewrite Forall_forall in H. specialize (H u Hu).
  destruct u; cbn in H; try contradiction; [rewrite Hf by auto|rewrite Hn]; reflexivity.
Qed.

Lemma in_fins r x : In r (fins x) <-> In (Fin r) x.
Proof.
  unfold fins. rewrite in_flat_map. split.
  - intros [v [Hv Hr]]. destruct v; cbn in Hr; try contradiction. destruct Hr as [->|[]]. exact Hv.
  - intros H. exists (Fin r). split; [exact H|now left].
Qed.

Lemma fold_min_spec l : forall m, exists m', fold_left fmin2 (map Fin l) (Fin m) = Fin m' /\ is_min m' (m :: l).
Proof.
  induction l as [|a l IH]; intros m; cbn [map fold_left].
  - exists m. split; [reflexivity|]. split; [now left|]. intros y [<-|[]]; lra.
  - unfold fmin2 at 2. cbn [fltb]. destruct (Rltb_spec a m) as [L|L].
    + destruct (IH a) as [m' [E [Hin Hle]]]. exists m'. split; [exact E|]. split.
      * destruct Hin as [<-|Hin]; [right; now left|right; now right].
      * intros y [<-|[<-|Hy]].
        -- assert (m' <= a) by (apply Hle; now left). lra.
        -- apply Hle; now left.
        -- apply Hle; now right.
    + destruct (IH m) as [m' [E [Hin Hle]]]. exists m'. split; [exact E|]. split.
      * destruct Hin as [<-|Hin]; [now left|right; now right].
      * intros y [<-|[<-|Hy]].
        -- apply Hle; now left.
        -- assert (m' <= m) by (apply Hle; now left). lra.
        -- apply Hle; now right.
Qed.

Lemma fold_max_spec l : forall m, exists m', fold_left fmax2 (map Fin l) (Fin m) = Fin m' /\ is_max m' (m :: l).
Proof.
  induction l as [|a l IH]; intros m; cbn [map fold_left].
  - exists m. split; [reflexivity|]. split; [now left|]. intros y [<-|[]]; lra.
  - unfold fmax2 at 2. cbn [fltb]. destruct (Rltb_spec m a) as [L|L].
    + destruct (IH a) as [m' [E [Hin Hle]]]. exists m'. split; [exact E|]. split.
      * destruct Hin as [<-|Hin]; [right; now left|right; now right].
      * intros y [<-|[<-|Hy]].
        -- assert (a <= m') by (apply Hle; now left). lra.
        -- apply Hle; now left.
        -- apply Hle; now right.
    + destruct (IH m) as [m' [E [Hin Hle]]]. exists m'. split; [exact E|]. split.
      * destruct Hin as [<-|Hin]; [now left|right; now right].
      * intros y [<-|[<-|Hy]].
        -- apply Hle; now left.
        -- assert (m <= m') by (apply Hle; now left). lra.
        -- apply Hle; now right.
Qed.

Lemma nanmin_spec x : Forall blankable x -> fins x <> [] -> exists m, nanmin x = Fin m /\ is_min m (fins x).
Proof.
  intros H Hne. unfold nanmin. rewrite nonnan_fins by auto.
  destruct (fins x) as [|a l]; [contradiction|]. cbn [map]. apply fold_min_spec.
Qed.

Lemma nanmax_spec x : Forall blankable x -> fins x <> [] -> exists m, nanmax x = Fin m /\ is_max m (fins x).
Proof.
  intros H Hne. unfold nanmax. rewrite nonnan_fins by auto.
  destruct (fins x) as [|a l]; [contradiction|]. cbn [map]. apply fold_max_spec.
Qed.

Lemma is_min_unique a b l : is_min a l -> is_min b l -> a = b.
Proof. intros [H1 H2] [H3 H4]. apply Rle_antisym; auto. Qed.
Lemma is_max_unique a b l : is_max a l -> is_max b l -> a = b.
Proof. intros [H1 H2] [H3 H4]. apply Rle_antisym; auto. Qed.

Lemma is_min_map g m l : (forall x y, x <= y -> g x <= g y) -> is_min m l -> is_min (g m) (map g l).
Proof.
  intros Hg [H1 H2]. split; [apply in_map; auto|].
  intros y Hy. apply in_map_iff in Hy. destruct Hy as [z [<- Hz]]. auto.
Qed.
Lemma is_max_map g m l : (forall x y, x <= y -> g x <= g y) -> is_max m l -> is_max (g m) (map g l).
Proof.
  intros Hg [H1 H2]. split; [apply in_map; auto|].
  intros y Hy. apply in_map_iff in Hy. destruct Hy as [z [<- Hz]]. auto.
Qed.

Lemma nanmean_rmean x : Forall blankable x -> fins x <> [] -> nanmean x = Fin (rmean (fins x)).
Proof. intros. now rewrite nanmean_fins. Qed.

Lemma rmean_nonneg l : (forall r, In r l -> 0 <= r) -> 0 <= rmean l.
Proof.
  intros H. unfold rmean. destruct l as [|a l].
  - cbn. unfold Rdiv. rewrite Rmult_0_l. lra.
  - unfold Rdiv. apply Rmult_le_pos; [apply lsum_nonneg; auto|].
    left. apply Rinv_0_lt_compat. apply lt_0_INR. cbn; lia.
Qed.

Lemma rvar_nonneg l : 0 <= rvar l.
Proof.
  unfold rvar. apply rmean_nonneg. intros r Hr. apply in_map_iff in Hr.
  destruct Hr as [z [<- _]]. apply Rle_0_sqr.
Qed.

Lemma nanstd_rvar x : Forall blankable x -> fins x <> [] -> nanstd x = Fin (sqrt (rvar (fins x))).
Proof.
  intros H Hne. unfold nanstd. rewrite (nanmean_rmean x) by auto.
  set (f := fun v => fsqr (fsub v (Fin (rmean (fins x))))).
  set (g := fun r => (r - rmean (fins x)) * (r - rmean (fins x))).
  assert (Hf : forall r, In (Fin r) x -> f (Fin r) = Fin (g r)) by reflexivity.
  rewrite (nanmean_rmean (map f x)).
  - rewrite (fins_map f g) by auto. apply fsqrt_fin. apply rvar_nonneg.
  - apply (blankable_map f g); auto.
  - rewrite (fins_map f g) by auto. destruct (fins x); [contradiction|discriminate].
Qed.
