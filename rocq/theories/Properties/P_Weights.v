(** C262: the weights of DeltaVariance and StatMoments. *)
From Coq Require Import Reals List Arith Bool Lia Lra.
From Verif Require Import Lib.PyBase Lib.Fl Model.InputData Model.Construct Spec.Construct Proofs.Construct_Proofs Proofs.Weights_Proofs.
Import ListNotations.
Local Open Scope R_scope.

(** Without weights: one where the pixel is finite and zero elsewhere (DeltaVariance) *)
Theorem C262_delta_default : forall s q h st st' o r, source_exists st s -> array_of s = Some r -> construct (CDeltaVariance s q h None) st = (st', Ok o) ->
  exists w, o_other o = [w] /\ length (read st' w) = length (read st r) /\
    forall i, (i < length (read st r))%nat -> nth i (read st' w) NaN = (if is_fin (nth i (read st r) NaN) then Fin 1 else Fin 0).
Proof. exact (weights_default true). Qed.
Print Assumptions C262_delta_default.
(** Without weights: one everywhere (StatMoments) *)
Theorem C262_moments_default : forall s q h st st' o r, source_exists st s -> array_of s = Some r -> construct (CStatMoments s q h None) st = (st', Ok o) ->
  exists w, o_other o = [w] /\ length (read st' w) = length (read st r) /\ forall i, (i < length (read st r))%nat -> nth i (read st' w) NaN = Fin 1.
Proof. exact (weights_default false). Qed.
Print Assumptions C262_moments_default.
Definition two : store := [[Fin 1; NaN; Fin 3]; [Fin 1; Fin 2]].
Example C262_default_case : exists st' o, construct (CDeltaVariance (ImageHDU 0 7) false None None) two = (st', Ok o) /\ o_other o = [2%nat] /\ read st' 2 = [Fin 1; Fin 0; Fin 1].
Proof. do 2 eexists. split; [reflexivity|]. split; reflexivity. Qed.
Example C262_moments_case : exists st' o, construct (CStatMoments (ImageHDU 0 7) false None None) two = (st', Ok o) /\ o_other o = [2%nat] /\ read st' 2 = [Fin 1; Fin 1; Fin 1].
Proof. do 2 eexists. split; [reflexivity|]. split; reflexivity. Qed.
(** Weights that are given are used as given *)
Theorem C262_given : forall s q h ws st st' o w, array_of ws = Some w ->
  (construct (CDeltaVariance s q h (Some ws)) st = (st', Ok o) -> st' = st /\ o_other o = [w]) /\
  (construct (CStatMoments s q h (Some ws)) st = (st', Ok o) -> st' = st /\ o_other o = [w]).
Proof. exact (fun s q h ws st st' o w A => conj (weights_given true s q h ws st st' o w A) (weights_given false s q h ws st st' o w A)). Qed.
Print Assumptions C262_given.
Example C262_given_case : construct (CDeltaVariance (ImageHDU 0 7) false None (Some (Array 0))) two = (two, Ok (mk_obj 0 [0%nat] (Some 7%nat))).
Proof. reflexivity. Qed.
(** Weights of another size: refused by DeltaVariance, taken by StatMoments *)
Theorem C262_size_partial : forall s q h ws st r w, array_of s = Some r -> array_of ws = Some w -> length (read st w) <> length (read st r) -> is_ok (header_rule s q h) = true ->
  construct (CDeltaVariance s q h (Some ws)) st = (st, Err ValueError).
Proof. intros s q h ws st r w A B N K. exact (proj1 (weights_shape s q h ws st r w A B N K)). Qed.
Print Assumptions C262_size_partial.
Theorem C262_moments_size_refuted : forall s q h ws st r w, array_of s = Some r -> array_of ws = Some w -> length (read st w) <> length (read st r) -> is_ok (header_rule s q h) = true ->
  exists o, construct (CStatMoments s q h (Some ws)) st = (st, Ok o) /\ o_other o = [w].
Proof.
  intros s q h ws st r w A B N K. destruct (weights_shape s q h ws st r w A B N K) as [_ [o E]]. exists o. split; [exact E|]. exact (proj2 (weights_given false s q h ws st st o w B E)).
Qed.
Print Assumptions C262_moments_size_refuted.
Example C262_size_case : array_of (ImageHDU 0 7) = Some 0%nat /\ length (read two 1) <> length (read two 0) /\ is_ok (header_rule (ImageHDU 0 7) false None) = true.
Proof. cbn. split; [reflexivity|]. split; [lia|reflexivity]. Qed.
