(** Delta variance: remaining statements and examples. *)
From Coq Require Import Reals List ZArith Lia Lra Arith Bool.
From Verif Require Import Lib.PyBase Lib.RSum Lib.Fl Spec.Blank Spec.DeltaVar Spec.Components
  Model.DeltaVar Proofs.Fl_Proofs Proofs.Pca_Proofs Proofs.DeltaVar_Proofs Proofs.DeltaVar2_Proofs Proofs.DeltaVar3_Proofs.
Import ListNotations.
Local Open Scope R_scope.

Lemma conv_inputs core annulus data weights cutoff : 0 <= cutoff -> length data = length weights ->
  let array := conv_arr core annulus data weights cutoff false in
  let weight := conv_weight core annulus weights cutoff in
  Forall blankable array /\ Forall weight_value weight /\ same_blanks array weight.
Proof.
  intros C L. cbv zeta. split; [now apply conv_arr_blankable|]. split; [now apply conv_weight_value|now apply conv_same_blanks].
Qed.

Lemma curve_distance_nonneg lags a b lo hi : curve a -> curve b ->
  exists d, curve_distance true a lags (lo, hi) b lags (lo, hi) = Ok (Fin d) /\ 0 <= d.
Proof. intros Ha Hb. eexists. split; [now apply curve_distance_value|apply l2_nonneg]. Qed.

Lemma ex_zero_weights : forall j, (j < 3)%nat -> nth j ex_map NaN = NaN -> nth j [0; 2; 1] 0 = 0.
Proof. intros [|[|[|j]]] H E; cbn in *; try reflexivity; try discriminate; lia. Qed.

Lemma ex_curves :
  curve [Fin 1; NaN; Fin 1] /\ curve [Fin 1; Fin 5; Fin 3] /\
  common_values 1 3 [1; 2; 3] [Fin 1; NaN; Fin 1] [Fin 1; Fin 5; Fin 3] = [(1, 1); (1, 3)] /\
  exists d, curve_distance true [Fin 1; NaN; Fin 1] [1; 2; 3] (1, 3) [Fin 1; Fin 5; Fin 3] [1; 2; 3] (1, 3) = Ok (Fin d) /\ 0 < d.
Proof.
  assert (A : curve [Fin 1; NaN; Fin 1]) by (repeat constructor; lra). assert (B : curve [Fin 1; Fin 5; Fin 3]) by (repeat constructor; lra).
  assert (C : common_values 1 3 [1; 2; 3] [Fin 1; NaN; Fin 1] [Fin 1; Fin 5; Fin 3] = [(1, 1); (1, 3)]).
  { cbn. repeat match goal with |- context [Rleb ?a ?b] => destruct (Rleb_spec a b); [|exfalso; lra] end. reflexivity. }
  repeat split; auto. destruct (curve_distance_nonneg [1; 2; 3] _ _ 1 3 A B) as [d [E D]]. exists d. split; [exact E|].
  destruct (Req_dec d 0) as [Z|Z]; [|lra]. subst d. exfalso. apply (curve_distance_zero [1; 2; 3] _ _ 1 3 A B) in E.
  destruct E as [c [_ E]]. rewrite C in E. cbn in E. injection E. lra.
Qed.

Lemma ex_ratio : 0 < 10 /\ 0 < 3 / 2 /\ 3 / 2 <> 1. Proof. repeat split; lra. Qed.
Lemma ex_grid : (6 <= 64)%nat /\ 0 < 2 /\ 2 <> 1. Proof. repeat split; try lra. lia. Qed.
Lemma ex_lags_differ : [3; 4] <> [3; 5]. Proof. intros E. injection E. lra. Qed.
Lemma distance_inputs_mixed (d1 d2 : dv_input) : d1 <> d2 -> is_ok (distance_inputs d1 d2 true) = false.
Proof. destruct d1, d2; intros H; try reflexivity; now elim H. Qed.
Lemma distance_inputs_same (d : dv_input) : distance_inputs d d true = Ok tt. Proof. destruct d; reflexivity. Qed.
Lemma distance_inputs_no_common (d1 d2 : dv_input) : is_ok (distance_inputs d1 d2 false) = false. Proof. destruct d1, d2; reflexivity. Qed.
Lemma ex_kinds : RawData <> Computed /\ length [1; 2] <> length [1; 2; 3]. Proof. split; discriminate. Qed.
