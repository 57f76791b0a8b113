(** The weights DeltaVariance and StatMoments use. *)
From Coq Require Import Reals List Arith Bool Lia Lra.
From Verif Require Import Lib.PyBase Lib.Fl Model.InputData Model.Construct Spec.Construct Proofs.Construct_Proofs.
Import ListNotations.
Local Open Scope R_scope.

Definition weighted_by (delta : bool) (s : source) (q : bool) (h : option item) (ws : option source) : construction :=
  if delta then CDeltaVariance s q h ws else CStatMoments s q h ws.
Lemma weights_default delta s q h st st' o r : source_exists st s -> array_of s = Some r -> construct (weighted_by delta s q h None) st = (st', Ok o) ->
  exists w, o_other o = [w] /\ length (read st' w) = length (read st r) /\
    forall i, (i < length (read st r))%nat -> nth i (read st' w) NaN = (if delta then (if is_fin (nth i (read st r) NaN) then Fin 1 else Fin 0) else Fin 1).
Proof.
  intros E A. assert (M : forall (f : fl -> fl) l i, (i < length l)%nat -> nth i (map f l) NaN = f (nth i l NaN)) by (intros f l i Hi; rewrite (nth_indep _ NaN (f NaN)) by (now rewrite map_length); apply map_nth).
  destruct delta; cbn [weighted_by construct]; [unfold delta_variance|unfold stat_moments]; (hd_rule st s q h HR r0 n; [|discriminate]);
    destruct (header_rule_exists st s q h r0 n E HR) as [Hr A']; rewrite A in A'; injection A' as <-; unfold new; (erewrite thenc_ok by reflexivity).
  - destruct (negb _); [discriminate|]. intros [= <- <-]. exists (length st). cbn [o_other]. split; [reflexivity|]. rewrite read_new. split; [apply map_length|]. intros i Hi. rewrite M by exact Hi. reflexivity.
  - intros [= <- <-]. exists (length st). cbn [o_other]. split; [reflexivity|]. rewrite read_new. split; [apply map_length|]. intros i Hi. rewrite M by exact Hi. reflexivity.
Qed.
Lemma weights_given delta s q h ws st st' o w0 : array_of ws = Some w0 -> construct (weighted_by delta s q h (Some ws)) st = (st', Ok o) -> st' = st /\ o_other o = [w0].
Proof.
  intros A. destruct delta; cbn [weighted_by construct]; [unfold delta_variance|unfold stat_moments]; (hd_rule st s q h HR r0 n; [|discriminate]);
    (erewrite thenc_ok by (erewrite thenc_ok by (apply (input_value _ _ _ _ A); now left); reflexivity)).
  - destruct (negb _); [discriminate|]. now intros [= <- <-].
  - now intros [= <- <-].
Qed.
Lemma weights_shape s q h ws st r w0 : array_of s = Some r -> array_of ws = Some w0 -> length (read st w0) <> length (read st r) -> is_ok (header_rule s q h) = true ->
  construct (CDeltaVariance s q h (Some ws)) st = (st, Err ValueError) /\ exists o, construct (CStatMoments s q h (Some ws)) st = (st, Ok o).
Proof.
  intros A B N K. cbn [construct]. unfold delta_variance, stat_moments. destruct (header_rule s q h) as [[r0 n]|e] eqn:HR; [|discriminate].
  rewrite (header_rule_array _ _ _ _ _ HR) in A. injection A as ->. split.
  - erewrite thenc_ok by (rewrite input_data_header_rule, HR; reflexivity). erewrite thenc_ok by (erewrite thenc_ok by (apply (input_value _ _ _ _ B); now left); reflexivity). cbn [fst].
    destruct (Nat.eqb_spec (length (read st w0)) (length (read st r))); [contradiction|reflexivity].
  - erewrite thenc_ok by (rewrite input_data_header_rule, HR; reflexivity). erewrite thenc_ok by (erewrite thenc_ok by (apply (input_value _ _ _ _ B); now left); reflexivity). eexists. reflexivity.
Qed.
