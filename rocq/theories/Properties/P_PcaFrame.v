(** C319: what blank surroundings do to the covariance matrix of a cube. *)
From Coq Require Import Reals List Bool ZArith Arith Lra Lia.
From Verif Require Import Lib.PyBase Lib.RSum Lib.Arr Lib.Fl Model.Psds Model.Pca Spec.Covariance Spec.Orders Spec.PcaFrame Proofs.PcaFrame_Proofs.
Import ListNotations.
Local Open Scope R_scope.

(** A cube without blanks has no negative eigenvalue (C81); in a field with blank pixels it can have one. *)
Theorem C319_negative_refuted : forall eps big, 0 <= eps < 1 -> ~ (forall q n m cube lambda v, (1 <= n)%nat -> channels_of n cube -> reorders q (n + m) ->
  eigen (length cube) (at2 0 (var_cov_cube eps big (in_blank_field q m cube) false)) lambda v -> 0 <= lambda).
Proof. exact field_negative_refuted. Qed.
Print Assumptions C319_negative_refuted.
(** The covariances of different channels are those of the cube, with or without its means, *)
Theorem C319_pairs_partial : forall eps big ms q n m cube i j, enough ms n -> channels_of n cube -> reorders q (n + m) -> (i < length cube)%nat -> (j < length cube)%nat -> i <> j ->
  at2 0 (var_cov_cube eps big (in_blank_field q m cube) ms) i j = covariance ms (nth i cube []) (nth j cube []).
Proof. exact field_pairs. Qed.
Print Assumptions C319_pairs_partial.
(** but the variance of a channel takes each blank pixel for one of the value eps, *)
Theorem C319_own_partial : forall eps big ms q n m cube i, enough ms n -> channels_of n cube -> reorders q (n + m) -> (i < length cube)%nat ->
  at2 0 (var_cov_cube eps big (in_blank_field q m cube) ms) i i = covariance ms (nth i cube [] ++ repeat eps m) (nth i cube [] ++ repeat eps m).
Proof. exact field_own. Qed.
Print Assumptions C319_own_partial.
(** which without the means is the variance of the cube diluted by the blanks. *)
Theorem C319_diluted_partial : forall eps big q n m cube i, (1 <= n)%nat -> channels_of n cube -> reorders q (n + m) -> (i < length cube)%nat ->
  at2 0 (var_cov_cube eps big (in_blank_field q m cube) false) i i =
  (INR n * covariance false (nth i cube []) (nth i cube []) + INR m * eps ^ 2) / (INR n + INR m).
Proof. exact field_diluted. Qed.
Print Assumptions C319_diluted_partial.
(** Two channels of two pixels, with a blank pixel before and one behind them *)
Example C319_case : channels_of 2 [[1; 3]; [2; 5]] /\ enough true 2 /\ reorders (fun k => nth k [2; 0; 1; 3]%nat 0%nat) (2 + 2) /\
  in_blank_field (fun k => nth k [2; 0; 1; 3]%nat 0%nat) 2 [[1; 3]; [2; 5]] = [[NaN; Fin 1; Fin 3; NaN]; [NaN; Fin 2; Fin 5; NaN]] /\
  covariance false [1; 3] [2; 5] = 17 / 2 /\ covariance false [1; 3] [1; 3] = 5.
Proof.
  split; [intros c [<-|[<-|[]]]; reflexivity|]. split; [cbn; lia|]. split; [|split; [reflexivity|split; unfold covariance, lsum; cbn; lra]].
  unfold reorders. cbn. apply (Permutation.Permutation_trans (l' := [0; 2; 1; 3]%nat)); [apply Permutation.perm_swap|apply Permutation.perm_skip, Permutation.perm_swap].
Qed.
