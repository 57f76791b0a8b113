(** Algebra of [fl]: the special values do not spoil associativity, commutativity and the
    distribution of a finite factor. *)
From Coq Require Import Reals List Lra Lia Bool Arith.
From Verif Require Import Lib.RSum Lib.Fl.
Import ListNotations.
Local Open Scope R_scope.

Lemma fadd_comm a b : fadd a b = fadd b a.
Proof. destruct a, b; simpl; try reflexivity. apply (f_equal Fin). ring. Qed.
Lemma fadd_assoc a b c : fadd a (fadd b c) = fadd (fadd a b) c.
Proof. destruct a, b, c; simpl; try reflexivity. apply (f_equal Fin). ring. Qed.
Lemma fadd_0_l a : fadd (Fin 0) a = a.
Proof. destruct a; simpl; try reflexivity. apply (f_equal Fin). ring. Qed.
Lemma fadd_0_r a : fadd a (Fin 0) = a.
Proof. rewrite fadd_comm. apply fadd_0_l. Qed.
Lemma fmul_comm a b : fmul a b = fmul b a.
Proof. destruct a, b; simpl; try reflexivity. apply (f_equal Fin). ring. Qed.

Lemma sinf_pos r : 0 < r -> sinf r = PInf.
Proof. intro H. unfold sinf. destruct (Rltb_spec 0 r); [reflexivity | lra]. Qed.
Lemma sinf_neg r : r < 0 -> sinf r = NInf.
Proof. intro H. unfold sinf. destruct (Rltb_spec 0 r); [lra |]. destruct (Rltb_spec r 0); [reflexivity | lra]. Qed.
Lemma sinf_zero : sinf 0 = NaN.
Proof. unfold sinf. destruct (Rltb_spec 0 0); [lra |]. destruct (Rltb_spec 0 0); [lra | reflexivity]. Qed.
Ltac sgn r := let H := fresh "S" in destruct (Rtotal_order r 0) as [H | [H | H]];
  [rewrite ?(sinf_neg r H) | subst r; rewrite ?sinf_zero | rewrite ?(sinf_pos r H)].
Lemma sinf_mul a b : fmul (Fin a) (sinf b) = sinf (a * b).
Proof.
  sgn b; simpl.
  - sgn a; simpl; [rewrite sinf_pos by nra | rewrite Rmult_0_l, sinf_zero | rewrite sinf_neg by nra]; reflexivity.
  - now rewrite Rmult_0_r, sinf_zero.
  - sgn a; simpl; [rewrite sinf_neg by nra | rewrite Rmult_0_l, sinf_zero | rewrite sinf_pos by nra]; reflexivity.
Qed.
Ltac prods := rewrite ?Rmult_0_l, ?Rmult_0_r, ?sinf_zero;
  repeat match goal with |- context [sinf ?r] => first [rewrite (sinf_pos r) by nra | rewrite (sinf_neg r) by nra] end.
Lemma fmul_assoc a b c : fmul a (fmul b c) = fmul (fmul a b) c.
Proof.
  destruct a as [a | | |], b as [b | | |], c as [c | | |]; try reflexivity; simpl;
    try (apply (f_equal Fin); ring);
    try sgn a; try sgn b; try sgn c; simpl; prods; try reflexivity.
Qed.
Lemma fneg_mul k b : fmul (Fin k) (fneg b) = fneg (fmul (Fin k) b).
Proof. destruct b; simpl; try reflexivity; [apply (f_equal Fin); ring | now sgn k]. Qed.
Lemma fmul_fadd k a b : fmul (Fin k) (fadd a b) = fadd (fmul (Fin k) a) (fmul (Fin k) b).
Proof. destruct a, b; simpl; try reflexivity; try (apply (f_equal Fin); ring); now sgn k. Qed.
Lemma fmul_fdiv k a b : fdiv (fmul (Fin k) a) b = fmul (Fin k) (fdiv a b).
Proof.
  destruct a as [a | | |], b as [b | | |]; try reflexivity; try (simpl; apply (f_equal Fin); ring).
  - change (fmul (Fin k) (Fin a)) with (Fin (k * a)). unfold fdiv. destruct (Reqb_spec b 0).
    + now rewrite sinf_mul.
    + simpl. apply (f_equal Fin). field. assumption.
  - simpl. sgn k; simpl; destruct (Rltb_spec b 0); simpl; prods; reflexivity.
  - simpl. now sgn k.
  - simpl. now sgn k.
  - simpl. now sgn k.
  - simpl. sgn k; simpl; destruct (Rltb_spec b 0); simpl; prods; reflexivity.
  - simpl. now sgn k.
  - simpl. now sgn k.
  - simpl. now sgn k.
Qed.
Lemma fsum_fmul k l : fsum (map (fmul (Fin k)) l) = fmul (Fin k) (fsum l).
Proof.
  induction l as [| a l IH]; [simpl; apply (f_equal Fin); ring |].
  change (fadd (fmul (Fin k) a) (fsum (map (fmul (Fin k)) l)) = fmul (Fin k) (fadd a (fsum l))). now rewrite IH, fmul_fadd.
Qed.
Lemma fsqr_fmul k a : fsqr (fmul (Fin k) a) = fmul (Fin (k * k)) (fsqr a).
Proof.
  unfold fsqr. rewrite <- fmul_assoc, (fmul_comm a (fmul (Fin k) a)), <- (fmul_assoc (Fin k) a a), fmul_assoc. reflexivity.
Qed.
(** Not negative: NaN, infinity or a number >= 0 *)
Definition fnonneg (x : fl) : Prop := match x with Fin r => 0 <= r | NInf => False | _ => True end.
Lemma fsqr_nonneg x : fnonneg (fsqr x).
Proof. destruct x; simpl; auto. apply Rle_0_sqr. Qed.
Lemma fadd_nonneg x y : fnonneg x -> fnonneg y -> fnonneg (fadd x y).
Proof. destruct x, y; simpl; auto; try tauto. lra. Qed.
Lemma fsum_nonneg l : Forall fnonneg l -> fnonneg (fsum l).
Proof. induction 1; simpl; [lra | now apply fadd_nonneg]. Qed.
Lemma fsqrt_nonneg x : fnonneg (fsqrt x).
Proof. destruct x; simpl; auto. destruct (Rltb_spec r 0); simpl; auto. apply sqrt_pos. Qed.
Lemma fmul_nonneg x y : fnonneg x -> fnonneg y -> fnonneg (fmul x y).
Proof.
  destruct x, y; simpl; auto; try tauto; intros.
  - now apply Rmult_le_pos.
  - sgn r; simpl; auto; lra.
  - sgn r; simpl; auto; lra.
Qed.
Lemma fdiv_nonneg x y : fnonneg x -> fnonneg y -> fnonneg (fdiv x y).
Proof.
  destruct x, y; simpl; auto; try tauto; intros.
  - destruct (Reqb_spec r0 0); simpl. + sgn r; simpl; auto; lra. + apply Rmult_le_pos; [assumption |]. left. apply Rinv_0_lt_compat. lra.
  - lra.
  - destruct (Rltb_spec r 0); simpl; auto; lra.
Qed.
Lemma fsqrt_fmul k x : fnonneg x -> fsqrt (fmul (Fin (k * k)) x) = fmul (Fin (Rabs k)) (fsqrt x).
Proof.
  pose proof (Rle_0_sqr k) as Q. unfold Rsqr in Q. destruct x as [r | | |]; intro N; try reflexivity; try contradiction.
  - change (fnonneg (Fin r)) with (0 <= r) in N. change (fmul (Fin (k * k)) (Fin r)) with (Fin (k * k * r)). unfold fsqrt.
    destruct (Rltb_spec (k * k * r) 0); [nra |]. destruct (Rltb_spec r 0); [lra |]. change (fmul (Fin (Rabs k)) (Fin (sqrt r))) with (Fin (Rabs k * sqrt r)).
    apply (f_equal Fin). rewrite sqrt_mult by assumption. rewrite <- sqrt_Rsqr_abs. reflexivity.
  - change (fmul (Fin (Rabs k)) (fsqrt PInf)) with (sinf (Rabs k)). change (fmul (Fin (k * k)) PInf) with (sinf (k * k)).
    destruct (Req_dec k 0) as [-> | K].
    + now rewrite Rmult_0_l, Rabs_R0, sinf_zero.
    + rewrite !sinf_pos; [reflexivity | now apply Rabs_pos_lt | nra].
Qed.
(** A loop of additions is a sum *)
Lemma fold_fsum {A} (f : A -> fl) l : forall z, fold_left (fun acc i => fadd acc (f i)) l z = fadd z (fsum (map f l)).
Proof.
  induction l as [| a l IH]; intro z; simpl; [now rewrite fadd_0_r |]. now rewrite IH, fadd_assoc.
Qed.
Lemma fsum_NaN l : In NaN l -> fsum l = NaN.
Proof. induction l as [| a l IH]; intros []; [subst; reflexivity |]. simpl. rewrite IH by assumption. now destruct a. Qed.
