(** Vectors and matrices of size 3. *)
From Coq Require Import Reals List Lra.
Import ListNotations.
Local Open Scope R_scope.

Record v3 := V { e1 : R; e2 : R; e3 : R }.
Record m3 := M { r1 : v3; r2 : v3; r3 : v3 }.

Definition vadd (u v : v3) : v3 := V (e1 u + e1 v) (e2 u + e2 v) (e3 u + e3 v).
Definition vsub (u v : v3) : v3 := V (e1 u - e1 v) (e2 u - e2 v) (e3 u - e3 v).
Definition vscale (s : R) (u : v3) : v3 := V (s * e1 u) (s * e2 u) (s * e3 u).
Definition v0 : v3 := V 0 0 0.
Definition dot (u v : v3) : R := e1 u * e1 v + e2 u * e2 v + e3 u * e3 v.

Definition tr (m : m3) : m3 := M (V (e1 (r1 m)) (e1 (r2 m)) (e1 (r3 m))) (V (e2 (r1 m)) (e2 (r2 m)) (e2 (r3 m))) (V (e3 (r1 m)) (e3 (r2 m)) (e3 (r3 m))).
Definition msub (a b : m3) : m3 := M (vsub (r1 a) (r1 b)) (vsub (r2 a) (r2 b)) (vsub (r3 a) (r3 b)).
Definition mscale (s : R) (a : m3) : m3 := M (vscale s (r1 a)) (vscale s (r2 a)) (vscale s (r3 a)).
Definition mv (a : m3) (v : v3) : v3 := V (dot (r1 a) v) (dot (r2 a) v) (dot (r3 a) v).
Definition mm (a b : m3) : m3 := let t := tr b in M (mv t (r1 a)) (mv t (r2 a)) (mv t (r3 a)).
Definition one3 : m3 := M (V 1 0 0) (V 0 1 0) (V 0 0 1).

Definition det (m : m3) : R :=
  e1 (r1 m) * (e2 (r2 m) * e3 (r3 m) - e3 (r2 m) * e2 (r3 m))
  - e2 (r1 m) * (e1 (r2 m) * e3 (r3 m) - e3 (r2 m) * e1 (r3 m))
  + e3 (r1 m) * (e1 (r2 m) * e2 (r3 m) - e2 (r2 m) * e1 (r3 m)).
Definition adj (m : m3) : m3 :=
  let a := r1 m in let b := r2 m in let c := r3 m in
  M (V (e2 b * e3 c - e3 b * e2 c) (e3 a * e2 c - e2 a * e3 c) (e2 a * e3 b - e3 a * e2 b))
    (V (e3 b * e1 c - e1 b * e3 c) (e1 a * e3 c - e3 a * e1 c) (e3 a * e1 b - e1 a * e3 b))
    (V (e1 b * e2 c - e2 b * e1 c) (e2 a * e1 c - e1 a * e2 c) (e1 a * e2 b - e2 a * e1 b)).
(** Inverse of a matrix whose determinant is not 0 *)
Definition inv3 (m : m3) : m3 := mscale (/ det m) (adj m).

Ltac m3 := intros; repeat match goal with v : v3 |- _ => destruct v | m : m3 |- _ => destruct m end;
  unfold mm, mv, tr, msub, mscale, vadd, vsub, vscale, dot, one3, det, adj, v0 in *; cbn [e1 e2 e3 r1 r2 r3] in *.

Lemma v3_eq a b c a' b' c' : a = a' -> b = b' -> c = c' -> V a b c = V a' b' c'.
Proof. now intros -> -> ->. Qed.

Lemma mv_inv_l m v : det m <> 0 -> mv (inv3 m) (mv m v) = v.
Proof. unfold inv3. intros H. set (d := / det m). assert (D : d * det m = 1) by (unfold d; field; exact H). clearbody d. revert D. m3. 
  apply v3_eq; match goal with |- _ = ?x => transitivity (x * 1); [rewrite <- D|]; ring end. Qed.

Lemma mv_inv_r m v : det m <> 0 -> mv m (mv (inv3 m) v) = v.
Proof. unfold inv3. intros H. set (d := / det m). assert (D : d * det m = 1) by (unfold d; field; exact H). clearbody d. revert D. m3.
  apply v3_eq; match goal with |- _ = ?x => transitivity (x * 1); [rewrite <- D|]; ring end. Qed.

Lemma mm_mv a b v : mv (mm a b) v = mv a (mv b v).
Proof. m3. apply v3_eq; ring. Qed.
Lemma msub_mv a b v : mv (msub a b) v = vsub (mv a v) (mv b v).
Proof. m3. apply v3_eq; ring. Qed.
Lemma mscale_mv s a v : mv (mscale s a) v = vscale s (mv a v).
Proof. m3. apply v3_eq; ring. Qed.
Lemma mv_vscale s a v : mv a (vscale s v) = vscale s (mv a v).
Proof. m3. apply v3_eq; ring. Qed.
Lemma mv_vadd a u v : mv a (vadd u v) = vadd (mv a u) (mv a v).
Proof. m3. apply v3_eq; ring. Qed.
Lemma dot_comm u v : dot u v = dot v u.
Proof. m3. ring. Qed.
Lemma dot_tr a u v : dot u (mv a v) = dot (mv (tr a) u) v.
Proof. m3. ring. Qed.
Lemma v3_eta v : V (e1 v) (e2 v) (e3 v) = v.
Proof. now destruct v. Qed.

(** A matrix is determined by its action *)
Lemma m3_ext a b : (forall v, mv a v = mv b v) -> a = b.
Proof.
  intros H. pose proof (H (V 1 0 0)) as H1. pose proof (H (V 0 1 0)) as H2. pose proof (H (V 0 0 1)) as H3. clear H.
  destruct a as [[a1 a2 a3] [b1 b2 b3] [c1 c2 c3]], b as [[a1' a2' a3'] [b1' b2' b3'] [c1' c2' c3']].
  unfold mv, dot in *. cbn [e1 e2 e3 r1 r2 r3] in *. injection H1; injection H2; injection H3; intros.
  assert (a1 = a1') by lra. assert (a2 = a2') by lra. assert (a3 = a3') by lra.
  assert (b1 = b1') by lra. assert (b2 = b2') by lra. assert (b3 = b3') by lra.
  assert (c1 = c1') by lra. assert (c2 = c2') by lra. assert (c3 = c3') by lra. congruence.
Qed.

(** A singular matrix has a kernel *)
Lemma v3_dec (v : v3) : v = v0 \/ v <> v0.
Proof.
  destruct v as [a b c]. destruct (Req_dec a 0) as [->|H]; [|right; intros E; injection E; auto].
  destruct (Req_dec b 0) as [->|H]; [|right; intros E; injection E; auto].
  destruct (Req_dec c 0) as [->|H]; [|right; intros E; injection E; auto]. now left.
Qed.

Lemma singular_kernel m : det m = 0 -> exists v, v <> v0 /\ mv m v = v0.
Proof.
  intros D.
  assert (A : forall w, mv m (mv (adj m) w) = v0).
  { intros w. transitivity (vscale (det m) w); [|rewrite D; m3; apply v3_eq; ring]. clear D. m3. apply v3_eq; ring. }
  destruct (v3_dec (mv (adj m) (V 1 0 0))) as [A1|A1]; [|exists (mv (adj m) (V 1 0 0)); auto].
  destruct (v3_dec (mv (adj m) (V 0 1 0))) as [A2|A2]; [|exists (mv (adj m) (V 0 1 0)); auto].
  destruct (v3_dec (mv (adj m) (V 0 0 1))) as [A3|A3]; [|exists (mv (adj m) (V 0 0 1)); auto].
  clear A D. destruct m as [[a1 a2 a3] [b1 b2 b3] [c1 c2 c3]].
  unfold mv, adj, dot, v0 in *. cbn [e1 e2 e3 r1 r2 r3] in *. injection A1; injection A2; injection A3; clear A1 A2 A3. intros.
  (* rank at most one: every row is a multiple of a single one *)
  assert (K : forall x y z, (x <> 0 \/ y <> 0 \/ z <> 0) -> exists v, v <> v0 /\ dot (V x y z) v = 0 /\
     forall p q r, q * z - r * y = 0 -> r * x - p * z = 0 -> p * y - q * x = 0 -> dot (V p q r) v = 0).
  { intros x y z Hn. unfold dot, v0. cbn [e1 e2 e3].
    destruct (Req_dec x 0) as [X|X].
    - subst x. exists (V 1 0 0). split; [intros E; injection E; lra|]. cbn [e1 e2 e3]. split; [ring|]. intros p q r E1 E2 E3.
      assert (P : p * z = 0) by lra. assert (P' : p * y = 0) by lra.
      destruct Hn as [Hn|[Hn|Hn]]; [congruence| |].
      + apply Rmult_integral in P'. destruct P'; [subst; ring|congruence].
      + apply Rmult_integral in P. destruct P; [subst; ring|congruence].
    - exists (V y (- x) 0). split; [intros E; injection E; lra|]. cbn [e1 e2 e3]. split; [ring|]. intros p q r E1 E2 E3. lra. }
  destruct (Req_dec a1 0) as [Ha|Ha]; [destruct (Req_dec a2 0) as [Hb|Hb]; [destruct (Req_dec a3 0) as [Hc|Hc]|]|].
  - subst a1 a2 a3. destruct (Req_dec b1 0) as [Ha|Ha]; [destruct (Req_dec b2 0) as [Hb|Hb]; [destruct (Req_dec b3 0) as [Hc|Hc]|]|].
    + subst b1 b2 b3. destruct (Req_dec c1 0) as [Ha|Ha]; [destruct (Req_dec c2 0) as [Hb|Hb]; [destruct (Req_dec c3 0) as [Hc|Hc]|]|].
      * subst. exists (V 1 0 0). split; [intros E; injection E; lra|]. unfold dot. cbn. apply v3_eq; ring.
      * destruct (K c1 c2 c3) as [v [N [E F]]]; [auto|]. exists v. split; [exact N|]. unfold dot in *. cbn [e1 e2 e3] in *. apply v3_eq; [ring|ring|exact E].
      * destruct (K c1 c2 c3) as [v [N [E F]]]; [auto|]. exists v. split; [exact N|]. unfold dot in *. cbn [e1 e2 e3] in *. apply v3_eq; [ring|ring|exact E].
      * destruct (K c1 c2 c3) as [v [N [E F]]]; [auto|]. exists v. split; [exact N|]. unfold dot in *. cbn [e1 e2 e3] in *. apply v3_eq; [ring|ring|exact E].
    + destruct (K b1 b2 b3) as [v [N [E F]]]; [auto|]. exists v. split; [exact N|]. unfold dot in *. cbn [e1 e2 e3] in *. apply v3_eq; [ring|exact E|apply F; lra].
    + destruct (K b1 b2 b3) as [v [N [E F]]]; [auto|]. exists v. split; [exact N|]. unfold dot in *. cbn [e1 e2 e3] in *. apply v3_eq; [ring|exact E|apply F; lra].
    + destruct (K b1 b2 b3) as [v [N [E F]]]; [auto|]. exists v. split; [exact N|]. unfold dot in *. cbn [e1 e2 e3] in *. apply v3_eq; [ring|exact E|apply F; lra].
  - destruct (K a1 a2 a3) as [v [N [E F]]]; [auto|]. exists v. split; [exact N|]. unfold dot in *. cbn [e1 e2 e3] in *. apply v3_eq; [exact E|apply F; lra|apply F; lra].
  - destruct (K a1 a2 a3) as [v [N [E F]]]; [auto|]. exists v. split; [exact N|]. unfold dot in *. cbn [e1 e2 e3] in *. apply v3_eq; [exact E|apply F; lra|apply F; lra].
  - destruct (K a1 a2 a3) as [v [N [E F]]]; [auto|]. exists v. split; [exact N|]. unfold dot in *. cbn [e1 e2 e3] in *. apply v3_eq; [exact E|apply F; lra|apply F; lra].
Qed.
