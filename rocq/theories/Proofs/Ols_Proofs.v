(** Least squares on columns: a solver that exists, and what it finds on exact data. *)
From Coq Require Import Reals List Arith Lia Lra.
From Verif Require Import Lib.RSum Lib.Fl Model.LmSeg Spec.Segmented Spec.BreakFit.
Import ListNotations.
Local Open Scope R_scope.

(** *** Combinations of columns *)
Definition zipp (f : R -> R -> R) (p q : list R) : list R := map (fun t => f (fst t) (snd t)) (combine p q).
Lemma zipp_length f p q : length p = length q -> length (zipp f p q) = length p.
Proof. intros H. unfold zipp. rewrite map_length, combine_length. lia. Qed.
Lemma predicted_cons c cols a p i : predicted (c :: cols) (a :: p) i = a * nth i c 0 + predicted cols p i.
Proof. reflexivity. Qed.
Lemma predicted_sub cols : forall p q a i, length p = length cols -> length q = length cols ->
  predicted cols (zipp (fun u v => u - a * v) p q) i = predicted cols p i - a * predicted cols q i.
Proof.
  induction cols as [|c cols IH]; intros p q a i Hp Hq.
  - unfold predicted. cbn. ring.
  - destruct p as [|u p]; [discriminate|]. destruct q as [|v q]; [discriminate|]. change (zipp _ (u :: p) (v :: q)) with ((u - a * v) :: zipp (fun u v => u - a * v) p q).
    rewrite !predicted_cons, IH by (cbn in *; lia). ring.
Qed.

Section Solver.
Variable n : nat.
Variable w : nat -> R.
Hypothesis W : forall i, (i < n)%nat -> 0 < w i.
Definition dot (f g : nat -> R) : R := rsum n (fun i => w i * f i * g i).
Lemma dot_sub f g h a : dot (fun i => f i - a * g i) h = dot f h - a * dot g h.
Proof. unfold dot. rewrite <- rsum_scal, <- rsum_minus. apply rsum_ext. intros; ring. Qed.
Lemma dot_plus f g h : dot h (fun i => f i + g i) = dot h f + dot h g.
Proof. unfold dot. rewrite <- rsum_plus. apply rsum_ext. intros; ring. Qed.
Lemma dot_scal a f h : dot h (fun i => a * f i) = a * dot h f.
Proof. unfold dot. rewrite <- rsum_scal. apply rsum_ext. intros; ring. Qed.
Lemma dot_ext f f' g g' : (forall i, (i < n)%nat -> f i = f' i) -> (forall i, (i < n)%nat -> g i = g' i) -> dot f g = dot f' g'.
Proof. intros A B. apply rsum_ext. intros i Hi. now rewrite A, B. Qed.
Lemma dot_zero f : dot f f = 0 -> forall i, (i < n)%nat -> f i = 0.
Proof.
  intros H i Hi. assert (Z : w i * f i * f i = 0).
  { apply (rsum_nonneg_eq0 n (fun i => w i * f i * f i)); auto. intros j Hj. rewrite Rmult_assoc. apply Rmult_le_pos; [left; auto|]. apply Rle_0_sqr. }
  specialize (W i Hi). apply Rmult_integral in Z. destruct Z as [Z|Z]; [|exact Z]. apply Rmult_integral in Z. destruct Z; lra.
Qed.

(** Gram-Schmidt *)
Fixpoint solve (cols : list (list R)) (y : nat -> R) : list R :=
  match cols with
  | [] => []
  | c :: cs =>
      let q := solve cs (fun i => nth i c 0) in
      let c' i := nth i c 0 - predicted cs q i in
      let p := solve cs y in
      let y' i := y i - predicted cs p i in
      let a := if Req_EM_T (dot c' c') 0 then 0 else dot y' c' / dot c' c' in
      a :: zipp (fun u v => u - a * v) p q
  end.
Lemma solve_length cols : forall y, length (solve cols y) = length cols.
Proof. induction cols as [|c cs IH]; intros y; cbn [solve length]; [reflexivity|]. rewrite zipp_length; rewrite !IH; reflexivity. Qed.
Lemma dot_predicted cs f : (forall c, In c cs -> dot f (fun i => nth i c 0) = 0) -> forall q, dot f (predicted cs q) = 0.
Proof.
  induction cs as [|c cs IH]; intros H q.
  - unfold dot. apply rsum_zero. intros. unfold predicted. cbn. ring.
  - destruct q as [|a q]; [unfold dot; apply rsum_zero; intros; unfold predicted; cbn; ring|].
    rewrite (dot_ext f f (predicted (c :: cs) (a :: q)) (fun i => a * nth i c 0 + predicted cs q i)) by (intros; reflexivity).
    rewrite dot_plus, dot_scal, (H c) by now left. rewrite IH; [ring|]. intros; apply H; now right.
Qed.
Lemma solve_normal cols : forall y c, In c cols -> dot (fun i => y i - predicted cols (solve cols y) i) (fun i => nth i c 0) = 0.
Proof.
  induction cols as [|c cs IH]; intros y d Hd; [destruct Hd|]. cbn [solve].
  set (q := solve cs (fun i => nth i c 0)). set (c' := fun i => nth i c 0 - predicted cs q i). set (p := solve cs y). set (y' := fun i => y i - predicted cs p i).
  set (a := if Req_EM_T (dot c' c') 0 then 0 else dot y' c' / dot c' c').
  assert (E : forall i, y i - predicted (c :: cs) (a :: zipp (fun u v => u - a * v) p q) i = y' i - a * c' i).
  { intros i. rewrite predicted_cons, predicted_sub by (unfold p, q; now rewrite solve_length). unfold y', c'. ring. }
  rewrite (dot_ext _ (fun i => y' i - a * c' i) _ (fun i => nth i d 0)) by (intros; auto).
  assert (O1 : forall e, In e cs -> dot y' (fun i => nth i e 0) = 0) by (intros e He; apply (IH y e He)).
  assert (O2 : forall e, In e cs -> dot c' (fun i => nth i e 0) = 0) by (intros e He; apply (IH (fun i => nth i c 0) e He)).
  destruct Hd as [<-|Hd]; [|rewrite dot_sub, (O1 d Hd), (O2 d Hd); ring].
  rewrite dot_sub.
  rewrite (dot_ext y' y' (fun i => nth i c 0) (fun i => c' i + predicted cs q i)) by (intros; unfold c'; auto; ring).
  rewrite (dot_ext c' c' (fun i => nth i c 0) (fun i => c' i + predicted cs q i)) by (intros; unfold c'; auto; ring).
  rewrite (dot_plus c' (predicted cs q) y'), (dot_plus c' (predicted cs q) c'), (dot_predicted cs y' O1 q), (dot_predicted cs c' O2 q). unfold a. destruct (Req_EM_T (dot c' c') 0) as [Z|Z].
  - rewrite Z. pose proof (dot_zero c' Z) as ZZ. rewrite (dot_ext y' y' c' (fun i => 0)) by (intros; auto). unfold dot. rewrite rsum_zero; [ring|]. intros; ring.
  - field. exact Z.
Qed.
Lemma solve_least cols y q : length q = length cols ->
  rsum n (fun i => w i * (y i - predicted cols (solve cols y) i) ^ 2) <= rsum n (fun i => w i * (y i - predicted cols q i) ^ 2).
Proof.
  intros Hq. set (p := solve cols y). set (r := fun i => y i - predicted cols p i). set (d := fun i => predicted cols (zipp (fun u v => u - 1 * v) q p) i).
  assert (Ed : forall i, d i = predicted cols q i - predicted cols p i) by (intros i; unfold d; rewrite predicted_sub; [ring|exact Hq|unfold p; now rewrite solve_length]).
  assert (Z : dot r d = 0) by (apply dot_predicted; intros c Hc; apply solve_normal; exact Hc).
  assert (E : rsum n (fun i => w i * (y i - predicted cols q i) ^ 2) = rsum n (fun i => w i * r i ^ 2) - 2 * dot r d + rsum n (fun i => w i * d i ^ 2)).
  { unfold dot. rewrite <- rsum_scal, <- rsum_minus, <- rsum_plus. apply rsum_ext. intros i Hi. rewrite Ed. unfold r. ring. }
  rewrite E, Z. assert (0 <= rsum n (fun i => w i * d i ^ 2)); [|change (rsum n (fun i => w i * r i ^ 2) <= rsum n (fun i => w i * r i ^ 2) - 2 * 0 + rsum n (fun i => w i * d i ^ 2)); lra]. apply rsum_nonneg. intros i Hi. apply Rmult_le_pos; [left; auto|]. apply pow2_ge_0.
Qed.
End Solver.

(** *** A regression *)
Definition ols0 (y : list R) (w : option (list R)) (cols : list (list R)) : fit_result :=
  let p := solve (length y) (weight w) cols (fun i => nth i y 0) in
  let k := length cols in
  mk_fit (map Fin p) (repeat (Fin 1) k) (map (fun i => Fin (nth i y 0 - predicted cols p i)) (seq 0 (length y))) (repeat (repeat (Fin 1) k) k).
Lemma weight_pos y w : good_weights y w -> forall i, (i < length y)%nat -> 0 < weight w i.
Proof. destruct w as [l|]; cbn; intros H i Hi; [|lra]. destruct H as [L P]. apply P, nth_In. lia. Qed.
Lemma regression_ols0 : regression ols0.
Proof.
  intros y w G. split.
  - intros cols. unfold ols0. cbn [f_params f_bse f_cov]. rewrite map_length, solve_length, !repeat_length. repeat split. intros r Hr. apply repeat_spec in Hr. subst r. now rewrite repeat_length.
  - intros cols Hc. exists (solve (length y) (weight w) cols (fun i => nth i y 0)). split; [apply solve_length|]. split; [reflexivity|]. split; [reflexivity|].
    intros q Hq. unfold squares. apply solve_least; [now apply weight_pos|exact Hq].
Qed.

(** *** Exact data *)
Lemma exact_fit y w cols f p0 : good_weights y w -> least_squares_of y w cols f -> length p0 = length cols ->
  (forall i, (i < length y)%nat -> nth i y 0 = predicted cols p0 i) ->
  exists p, length p = length cols /\ f_params f = map Fin p /\ f_resid f = map (fun i => Fin (nth i y 0 - predicted cols p i)) (seq 0 (length y)) /\
    (forall i, (i < length y)%nat -> predicted cols p i = nth i y 0).
Proof.
  intros G [p [L [E1 [E2 M]]]] L0 X. exists p. split; [exact L|]. split; [exact E1|]. split; [exact E2|].
  specialize (M p0 L0). assert (Z : squares y w cols p0 = 0). { unfold squares. apply rsum_zero. intros i Hi. rewrite (X i Hi). ring. }
  rewrite Z in M. intros i Hi. assert (T : weight w i * (nth i y 0 - predicted cols p i) ^ 2 = 0).
  { apply (rsum_nonneg_eq0 (length y) (fun i => weight w i * (nth i y 0 - predicted cols p i) ^ 2)); [|apply Rle_antisym; [exact M|]|exact Hi].
    - intros j Hj. apply Rmult_le_pos; [left; now apply (weight_pos y)|apply pow2_ge_0].
    - apply rsum_nonneg. intros j Hj. apply Rmult_le_pos; [left; now apply (weight_pos y)|apply pow2_ge_0]. }
  pose proof (weight_pos y w G i Hi). apply Rmult_integral in T. destruct T as [T|T]; [lra|]. assert (nth i y 0 - predicted cols p i = 0); [|lra]. destruct (Req_dec (nth i y 0 - predicted cols p i) 0); [assumption|].
  exfalso. apply (pow_nonzero _ 2) in H0. contradiction.
Qed.
