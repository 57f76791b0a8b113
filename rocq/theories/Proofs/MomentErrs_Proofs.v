From Coq Require Import String Reals List Bool Arith Lia Lra.
From Verif Require Import Lib.PyBase Lib.RSum Lib.Fl Model.MomentErrs Spec.MomentSpec Proofs.FlAlg_Proofs.
Import ListNotations.
Local Open Scope string_scope.
Local Open Scope R_scope.

Lemma shape_eqb_refl s : shape_eqb s s = true.
Proof. destruct s as [[a b] c]. simpl. now rewrite !Nat.eqb_refl. Qed.
Lemma check_ok c scale : fits_cube c scale -> check c scale = Ok tt.
Proof. destruct scale; simpl; intro H; [reflexivity |]. subst. now rewrite shape_eqb_refl. Qed.
Lemma shape_eqb_ok a b : shape_eqb a b = true -> a = b.
Proof.
  destruct a as [[a0 a1] a2], b as [[b0 b1] b2]. simpl. intro H. apply andb_true_iff in H as [H H2]. apply andb_true_iff in H as [H0 H1].
  apply Nat.eqb_eq in H0, H1, H2. congruence.
Qed.
Lemma check_bad c sh a : sh <> c_shape c -> check c (NoiseCube sh a) = Err IndexError.
Proof. intro H. simpl. destruct (shape_eqb (c_shape c) sh) eqn:E; [|reflexivity]. apply shape_eqb_ok in E. congruence. Qed.

Lemma fold_add2 {A} (g : A -> arr2 fl) l p q : forall z, fold_left (fun st i => add2 st (g i)) l z p q = fadd (z p q) (fsum (map (fun i => g i p q) l)).
Proof.
  induction l as [| a l IH]; intro z; simpl; [now rewrite fadd_0_r |]. rewrite IH. unfold add2 at 1. now rewrite fadd_assoc.
Qed.
Lemma fold_two {A} (g h : A -> arr2 fl) l p q : forall z w,
  let st := fold_left (fun st i => (add2 (fst st) (g i), add2 (snd st) (h i))) l (z, w) in
  fst st p q = fadd (z p q) (fsum (map (fun i => g i p q) l)) /\ snd st p q = fadd (w p q) (fsum (map (fun i => h i p q) l)).
Proof.
  induction l as [| a l IH]; intros z w; cbv zeta; simpl; [now rewrite !fadd_0_r |]. destruct (IH (add2 z (g a)) (add2 w (h a))) as [I J].
  rewrite I, J. unfold add2. now rewrite !fadd_assoc.
Qed.
Lemma fold_valid {A} (g : A -> arr2 fl) (h : A -> arr2 bool) l p q : forall z w,
  let st := fold_left (fun st i => (add2 (fst st) (g i), fun p q => snd st p q || h i p q)) l (z, w) in
  fst st p q = fadd (z p q) (fsum (map (fun i => g i p q) l)) /\ snd st p q = w p q || existsb (fun i => h i p q) l.
Proof.
  induction l as [| a l IH]; intros z w; cbv zeta; simpl; [now rewrite fadd_0_r, orb_false_r |].
  destruct (IH (add2 z (g a)) (fun p q => w p q || h a p q)) as [I J].
  rewrite I, J. unfold add2. now rewrite fadd_assoc, orb_assoc.
Qed.

(** The terms *)
Definition t0 c axis scale p q i := fmul (b2f (view axis (c_mask c) i p q)) (fsqr (noise_view scale axis i p q)).
Definition t1 c axis scale (m0 m1 : arr2 fl) p q i :=
  fsqr (fmul (fsub (fdiv (Fin (view axis (c_pix_cen c axis) i p q)) (axis_sum c axis m0 p q)) (fdiv (m1 p q) (axis_sum c axis m0 p q))) (noise_view scale axis i p q)).
Definition df c axis (m1 : arr2 fl) p q i := fsub (Fin (view axis (c_pix_cen c axis) i p q)) (m1 p q).
Definition t2 c axis scale (m0 m1 m2 : arr2 fl) p q i :=
  fsqr (fmul (fsub (fdiv (fsqr (df c axis m1 p q i)) (axis_sum c axis m0 p q)) (fdiv (m2 p q) (axis_sum c axis m0 p q))) (noise_view scale axis i p q)).
Definition u2 c axis (m1 : arr2 fl) p q i := fmul (nan_to_num (nan_to_num (view axis (c_filled c) i p q))) (df c axis m1 p q i).
Definition chans c axis := seq 0 (axis_len (c_shape c) axis).

Lemma slice0_val c axis scale : fits_cube c scale -> exists e, slice0 c axis scale = Ok e /\ forall p q,
  e p q = if existsb (fun i => view axis (c_mask c) i p q) (chans c axis)
          then fmul (fsqrt (fsum (map (t0 c axis scale p q) (chans c axis)))) (Fin (c_pix_size c axis p q)) else NaN.
Proof.
  intro F. unfold slice0. rewrite (check_ok _ _ F). cbn [bind].
  set (st := fold_left _ _ _). destruct st as [res valid] eqn:E. eexists. split; [reflexivity |]. intros p q.
  destruct (fold_valid (fun i p q => t0 c axis scale p q i) (fun i => view axis (c_mask c) i) (chans c axis) p q zeros2 (fun _ _ => false)) as [I J].
  assert (K : fold_left (fun st i => (add2 (fst st) (fun p q => t0 c axis scale p q i), fun p q => snd st p q || view axis (c_mask c) i p q)) (chans c axis) (zeros2, fun _ _ => false) = (res, valid)) by exact E.
  rewrite K in I, J. cbn [fst snd] in I, J. rewrite I, J. unfold zeros2. rewrite fadd_0_l. reflexivity.
Qed.
Lemma cube0_val c axis scale : fits_cube c scale -> exists e, cube0 c axis scale = Ok e /\ forall p q,
  e p q = fmul (fsqrt (fsum (map (t0 c axis scale p q) (chans c axis)))) (Fin (c_pix_size c axis p q)).
Proof. intro F. unfold cube0. rewrite (check_ok _ _ F). cbn [bind]. eexists. split; reflexivity. Qed.
Lemma slice1_val c axis scale m0 m1 : fits_cube c scale -> exists e, slice1 c axis scale m0 m1 = Ok e /\ forall p q,
  e p q = fsqrt (fsum (map (t1 c axis scale m0 m1 p q) (chans c axis))).
Proof.
  intro F. unfold slice1. rewrite (check_ok _ _ F). cbn [bind]. cbv zeta. eexists. split; [reflexivity |]. intros p q. cbv beta.
  apply (f_equal fsqrt). rewrite (fold_add2 (fun i p q => t1 c axis scale m0 m1 p q i)). unfold zeros2. now rewrite fadd_0_l.
Qed.
Lemma slice2_val c axis scale m0 m1 m2 e1 : fits_cube c scale -> exists e, slice2 c axis scale m0 m1 m2 e1 = Ok e /\ forall p q,
  e p q = fsqrt (fadd (fsum (map (t2 c axis scale m0 m1 m2 p q) (chans c axis)))
                      (fmul (Fin 4) (fsqr (fdiv (fmul (e1 p q) (fsum (map (u2 c axis m1 p q) (chans c axis)))) (axis_sum c axis m0 p q))))).
Proof.
  intro F. unfold slice2. rewrite (check_ok _ _ F). cbn [bind]. cbv zeta.
  set (st := fold_left _ _ _). destruct st as [a b] eqn:E. eexists. split; [reflexivity |]. intros p q. cbv beta.
  destruct (fold_two (fun i p q => t2 c axis scale m0 m1 m2 p q i) (fun i p q => u2 c axis m1 p q i) (chans c axis) p q zeros2 zeros2) as [I J].
  assert (K : fold_left (fun st i => (add2 (fst st) (fun p q => t2 c axis scale m0 m1 m2 p q i), add2 (snd st) (fun p q => u2 c axis m1 p q i))) (chans c axis) (zeros2, zeros2) = (a, b)) by exact E.
  rewrite K in I, J. cbn [fst snd] in I, J. rewrite I, J. unfold zeros2. rewrite !fadd_0_l. reflexivity.
Qed.

Lemma clamp_ok n j : (j < n)%nat -> clamp n j = j.
Proof. intro H. unfold clamp. destruct (Nat.eqb_spec n 1); [lia | reflexivity]. Qed.
Lemma bdim_refl n : bdim n n = Some n.
Proof. unfold bdim. now rewrite Nat.eqb_refl. Qed.
Lemma broadcast0 sh : broadcast sh 0 = Ok sh.
Proof. destruct sh as [[a b] c]. simpl. now rewrite !bdim_refl. Qed.
Lemma nan_to_num_idem x : nan_to_num (nan_to_num x) = nan_to_num x.
Proof. now destruct x. Qed.
Lemma of_image_0 sh (a : arr2 fl) i j k : (j < fst (image_shape sh 0))%nat -> (k < snd (image_shape sh 0))%nat -> of_image sh 0 a i j k = a j k.
Proof. destruct sh as [[n m] l]. unfold of_image. simpl. intros J K. now rewrite !clamp_ok. Qed.
Lemma of_cube_0 {A} sh (a : arr3 A) i j k : (j < fst (image_shape sh 0))%nat -> (k < snd (image_shape sh 0))%nat -> of_cube sh a i j k = a i j k.
Proof. destruct sh as [[n m] l]. unfold of_cube. simpl. intros J K. now rewrite !clamp_ok. Qed.

Lemma in_image_shape c axis p q : in_image c axis p q -> (p < fst (image_shape (c_shape c) axis))%nat /\ (q < snd (image_shape (c_shape c) axis))%nat.
Proof. unfold in_image. destruct (c_shape c) as [[n0 n1] n2]. destruct axis as [|[|axis]]; intros H; exact H. Qed.
Lemma cube1_val c scale m0 m1 : fits_cube c scale -> proper scale -> exists e, cube1 c 0 scale m0 m1 = Ok e /\ forall p q, in_image c 0 p q ->
  e p q = if is_fin (m0 p q) || is_fin (m1 p q) then fsqrt (fsum (map (t1 c 0 scale m0 m1 p q) (chans c 0))) else NaN.
Proof.
  intros F P. unfold cube1. rewrite (check_ok _ _ F). cbn [bind]. rewrite broadcast0. cbn [bind]. cbv zeta. unfold blank_bad.
  destruct (image_shape (c_shape c) 0) as [n m] eqn:I. rewrite !Nat.eqb_refl. cbn [andb]. eexists. split; [reflexivity |].
  intros p q JK. apply in_image_shape in JK. destruct JK as [J K]. cbv beta. destruct (_ || _); [| reflexivity]. apply (f_equal fsqrt). unfold sum_over. apply f_equal. apply map_ext. intro i.
  unfold view at 1. rewrite !of_image_0 by assumption. rewrite of_cube_0 by assumption. unfold t1. apply f_equal. apply f_equal2; [reflexivity |].
  destruct scale as [s | sh a]; [destruct P as [r ->]; reflexivity |]. unfold noise_view. rewrite of_cube_0 by assumption. reflexivity.
Qed.
Lemma cube2_val c scale m0 m1 m2 e1 : fits_cube c scale -> exists e, cube2 c 0 scale m0 m1 m2 e1 = Ok e /\ forall p q, in_image c 0 p q ->
  e p q = if is_fin (m0 p q) || is_fin (m1 p q) || is_fin (m2 p q)
          then fsqrt (fadd (fsum (map (t2 c 0 scale m0 m1 m2 p q) (chans c 0)))
                      (fmul (Fin 4) (fsqr (fdiv (fmul (e1 p q) (fsum (map (u2 c 0 m1 p q) (chans c 0)))) (axis_sum c 0 m0 p q)))))
          else NaN.
Proof.
  intros F. unfold cube2. rewrite (check_ok _ _ F). cbn [bind]. rewrite broadcast0. cbn [bind]. cbv zeta. unfold blank_bad.
  destruct (image_shape (c_shape c) 0) as [n m] eqn:I. rewrite !Nat.eqb_refl. cbn [andb]. eexists. split; [reflexivity |].
  intros p q JK. apply in_image_shape in JK. destruct JK as [J K]. cbv beta. destruct (_ || _); [| reflexivity]. apply (f_equal fsqrt). unfold sum_over.
  assert (D : forall i, of_cube (c_shape c) (c_pix_cen c 0) i p q = view 0 (c_pix_cen c 0) i p q) by (intro i; now rewrite of_cube_0).
  apply f_equal2.
  - apply f_equal. apply map_ext. intro i.
    unfold view at 1. rewrite !of_image_0 by assumption. rewrite of_cube_0 by assumption. unfold t2. apply f_equal. apply f_equal2; [reflexivity |].
    destruct scale as [s | sh a]; [reflexivity |]. unfold noise_view. rewrite of_cube_0 by assumption. reflexivity.
  - apply f_equal. apply f_equal. apply f_equal2; [| reflexivity]. apply f_equal. apply f_equal. apply map_ext. intro i.
    unfold view at 1. rewrite !of_image_0 by assumption. rewrite !of_cube_0 by assumption. reflexivity.
Qed.

(** C41 *)
Lemma how_slice strat : resolve "slice" strat = "slice". Proof. reflexivity. Qed.
Lemma how_cube strat : resolve "cube" strat = "cube". Proof. reflexivity. Qed.
Lemma in_chans c axis i : In i (chans c axis) <-> (i < axis_len (c_shape c) axis)%nat.
Proof. unfold chans. rewrite in_seq. lia. Qed.
Lemma valid_iff c axis p q : existsb (fun i => view axis (c_mask c) i p q) (chans c axis) = true <-> exists i, included c axis i p q.
Proof. rewrite existsb_exists. split; intros (i & A & B); exists i; [split; [now apply in_chans | assumption] | split; [apply in_chans; apply A | apply B]]. Qed.

Lemma agree0 strat c scale axis : fits_cube c scale -> exists s e,
  moment0_error strat c scale axis "slice" = Ok s /\ moment0_error strat c scale axis "cube" = Ok e /\
  forall p q, (exists i, included c axis i p q) -> s p q = e p q.
Proof.
  intro F. destruct (slice0_val c axis scale F) as (s & S & VS). destruct (cube0_val c axis scale F) as (e & E & VE).
  exists s, e. repeat split; [exact S | exact E |]. intros p q V. apply valid_iff in V. now rewrite VS, VE, V.
Qed.
Lemma t0_masked c axis r p q i : view axis (c_mask c) i p q = false -> t0 c axis (Level (Fin r)) p q i = Fin 0.
Proof. intro H. unfold t0. rewrite H. simpl. apply (f_equal Fin). ring. Qed.
Lemma fsum_zeros l : (forall x, In x l -> x = Fin 0) -> fsum l = Fin 0.
Proof. induction l as [| a l IH]; intro H; [reflexivity |]. simpl. rewrite (H a) by (now left). rewrite IH by (intros; apply H; now right). apply fadd_0_l. Qed.
Lemma refute0 strat c r axis p q : (forall i, ~ included c axis i p q) -> exists s e,
  moment0_error strat c (Level (Fin r)) axis "slice" = Ok s /\ moment0_error strat c (Level (Fin r)) axis "cube" = Ok e /\
  s p q = NaN /\ e p q = Fin 0.
Proof.
  intro N. assert (F : fits_cube c (Level (Fin r))) by exact I.
  destruct (slice0_val c axis _ F) as (s & S & VS). destruct (cube0_val c axis _ F) as (e & E & VE).
  exists s, e. repeat split; [exact S | exact E | |].
  - rewrite VS. destruct (existsb _ _) eqn:V; [| reflexivity]. apply valid_iff in V as [i V]. now destruct (N i).
  - rewrite VE, fsum_zeros.
    + unfold fsqrt. destruct (Rltb_spec 0 0); [lra |]. rewrite sqrt_0. simpl. apply (f_equal Fin). ring.
    + intros x X. apply in_map_iff in X as (i & <- & X). apply t0_masked. destruct (view axis (c_mask c) i p q) eqn:W; [| reflexivity].
      destruct (N i). split; [now apply in_chans | assumption].
Qed.

Lemma fsub_inf_NaN x : is_fin x = false -> fdiv x PInf = NaN /\ fdiv x NInf = NaN.
Proof. destruct x; simpl; auto; discriminate. Qed.
Lemma axis_sum_inf c axis m0 p q : is_fin (m0 p q) = false -> axis_sum c axis m0 p q = PInf \/ axis_sum c axis m0 p q = NInf \/ axis_sum c axis m0 p q = NaN.
Proof.
  unfold axis_sum. destruct (m0 p q); simpl; intro H; [discriminate | | | auto]; destruct (Rltb _ 0); auto.
Qed.
Lemma NaN_term x y : fsqr (fmul (fsub x NaN) y) = NaN.
Proof. assert (H : fsub x NaN = NaN) by (now destruct x). rewrite H. reflexivity. Qed.
Lemma t1_blank c axis scale m0 m1 p q i : is_fin (m0 p q) = false -> is_fin (m1 p q) = false -> t1 c axis scale m0 m1 p q i = NaN.
Proof.
  intros A B. unfold t1. assert (E : fdiv (m1 p q) (axis_sum c axis m0 p q) = NaN).
  { destruct (axis_sum_inf c axis m0 p q A) as [-> | [-> | ->]]; try apply (fsub_inf_NaN _ B). now destruct (m1 p q). }
  rewrite E. apply NaN_term.
Qed.
Lemma fsum_blank {A} (f : A -> fl) l : l <> [] -> (forall i, f i = NaN) -> fsum (map f l) = NaN.
Proof. destruct l; intros H B; [now destruct H |]. simpl. now rewrite B. Qed.
Lemma chans_ne c axis : (0 < axis_len (c_shape c) axis)%nat -> chans c axis <> [].
Proof. unfold chans. destruct (axis_len _ _); [lia | discriminate]. Qed.

Lemma agree1 strat c scale v0 m0 m1 : fits_cube c scale -> proper scale -> (0 < axis_len (c_shape c) 0)%nat -> exists s e,
  moment1_error strat c scale 0 "slice" v0 m0 m1 = Ok s /\ moment1_error strat c scale 0 "cube" v0 m0 m1 = Ok e /\
  forall p q, in_image c 0 p q -> s p q = e p q.
Proof.
  intros F P N. set (w := fun p q => fsub (m1 p q) (Fin v0)). destruct (slice1_val c 0 scale m0 w F) as (s & S & VS). destruct (cube1_val c scale m0 w F P) as (e & E & VE).
  exists s, e. repeat split; [exact S | exact E |]. intros p q V. rewrite VS, (VE p q V).
  destruct (is_fin (m0 p q)) eqn:A; [reflexivity |]. destruct (is_fin (w p q)) eqn:B; [reflexivity |]. cbn [orb].
  rewrite fsum_blank; [reflexivity | now apply chans_ne | intro i; now apply t1_blank].
Qed.
Lemma t2_blank c axis scale m0 m1 m2 p q i : is_fin (m0 p q) = false -> is_fin (m1 p q) = false -> is_fin (m2 p q) = false -> t2 c axis scale m0 m1 m2 p q i = NaN.
Proof.
  intros A B C. unfold t2. assert (E : fdiv (m2 p q) (axis_sum c axis m0 p q) = NaN).
  { destruct (axis_sum_inf c axis m0 p q A) as [-> | [-> | ->]]; try apply (fsub_inf_NaN _ C). now destruct (m2 p q). }
  rewrite E. apply NaN_term.
Qed.
Lemma agree2 strat c scale v0 m0 m1 m2 e1 : fits_cube c scale -> proper scale -> (0 < axis_len (c_shape c) 0)%nat -> exists s e,
  moment2_error strat c scale 0 "slice" v0 m0 m1 m2 e1 = Ok s /\ moment2_error strat c scale 0 "cube" v0 m0 m1 m2 e1 = Ok e /\
  forall p q, in_image c 0 p q -> s p q = e p q.
Proof.
  intros F P N. set (w := fun p q => fsub (m1 p q) (Fin v0)).
  assert (G : exists d, match e1 with Some e => Ok e | None => cube1 c 0 scale m0 w end = Ok d).
  { destruct e1 as [d |]; [now exists d |]. destruct (cube1_val c scale m0 w F P) as (e & E & _). now exists e. }
  destruct G as [d G].
  destruct (slice2_val c 0 scale m0 w m2 d F) as (s & S & VS). destruct (cube2_val c scale m0 w m2 d F) as (e & E & VE).
  exists s, e. unfold moment2_error. fold w. rewrite G. cbn [bind]. repeat split; [exact S | exact E |]. intros p q V. rewrite VS, (VE p q V).
  destruct (is_fin (m0 p q)) eqn:A; [reflexivity |]. destruct (is_fin (w p q)) eqn:B; [reflexivity |]. destruct (is_fin (m2 p q)) eqn:C; [reflexivity |]. cbn [orb].
  rewrite fsum_blank; [reflexivity | now apply chans_ne | intro i; now apply t2_blank].
Qed.
Lemma bdim_none n m : n <> m -> n <> 1%nat -> m <> 1%nat -> bdim n m = None.
Proof. intros A B C. unfold bdim. now rewrite (proj2 (Nat.eqb_neq _ _) A), (proj2 (Nat.eqb_neq _ _) B), (proj2 (Nat.eqb_neq _ _) C). Qed.
Lemma spatial strat c scale v0 m0 m1 m2 n0 n1 n2 : c_shape c = (n0, n1, n2) -> n0 <> n1 -> n0 <> 1%nat -> n1 <> 1%nat -> fits_cube c scale ->
  (exists s, moment1_error strat c scale 1 "slice" v0 m0 m1 = Ok s) /\ moment1_error strat c scale 1 "cube" v0 m0 m1 = Err ValueError /\
  moment2_error strat c scale 1 "slice" v0 m0 m1 m2 None = Err ValueError /\ moment2_error strat c scale 1 "cube" v0 m0 m1 m2 None = Err ValueError.
Proof.
  intros S A B C F. assert (D : forall w, cube1 c 1 scale m0 w = Err ValueError).
  { intro w. unfold cube1. rewrite (check_ok _ _ F). cbn [bind]. cbv zeta. rewrite S. unfold broadcast. cbn [image_shape].
    rewrite bdim_none by congruence. reflexivity. }
  split; [| split; [| split]].
  - destruct (slice1_val c 1 scale m0 (fun p q => fsub (m1 p q) (Fin v0)) F) as (s & E & _). exists s. exact E.
  - apply D.
  - unfold moment2_error. now rewrite D.
  - unfold moment2_error. now rewrite D.
Qed.
Lemma mismatch strat c sh a axis how v0 m0 m1 m2 : sh <> c_shape c -> how = "slice" \/ how = "cube" ->
  moment0_error strat c (NoiseCube sh a) axis how = Err IndexError /\ moment1_error strat c (NoiseCube sh a) axis how v0 m0 m1 = Err IndexError /\
  forall e1, moment2_error strat c (NoiseCube sh a) axis how v0 m0 m1 m2 e1 = Err IndexError.
Proof.
  intros N [-> | ->]; unfold moment0_error, moment1_error, moment2_error; cbn [resolve String.eqb Ascii.eqb Bool.eqb];
    unfold slice0, cube0, slice1, cube1, slice2, cube2; rewrite (check_bad _ _ _ N); repeat split; intros [d |]; reflexivity.
Qed.

(** how="auto" *)
Lemma auto_chosen : forall strategy c scale axis v0 m0 m1 m2, In strategy ["ray"; "slice"; "cube"] ->
  let how := if String.eqb strategy "cube" then "cube" else "slice" in
  moment0_error strategy c scale axis "auto" = moment0_error strategy c scale axis how /\
  moment1_error strategy c scale axis "auto" v0 m0 m1 = moment1_error strategy c scale axis how v0 m0 m1 /\
  forall e1, moment2_error strategy c scale axis "auto" v0 m0 m1 m2 (Some e1) = moment2_error strategy c scale axis how v0 m0 m1 m2 (Some e1).
Proof. intros strategy c scale axis v0 m0 m1 m2 [<-|[<-|[<-|[]]]] how; repeat split. Qed.
Lemma ray_linewidth : forall c scale v0 m0 m1 m2 e1,
  linewidth_sigma_err "ray" c scale "auto" v0 m0 m1 m2 (Some e1) = Err ValueError /\
  moment2_error "ray" c scale 0 "auto" v0 m0 m1 m2 (Some e1) = moment2_error "ray" c scale 0 "slice" v0 m0 m1 m2 (Some e1).
Proof. intros. split; reflexivity. Qed.
