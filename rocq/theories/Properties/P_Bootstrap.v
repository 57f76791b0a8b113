(** C323: bootstrapped uncertainties of the radial profile. *)
From Coq Require Import Reals List ZArith Arith Bool Lra Lia.
From Verif Require Import Lib.PyBase Lib.Fl Lib.RSum Spec.Bins Spec.Bootstrap Model.Bootstrap Proofs.Bootstrap_Proofs.
Import ListNotations.
Local Open Scope R_scope.

(** Any number of iterations from one is accepted; none is refused where a bin holds a value. *)
Theorem C323_iterations : forall tppf draw it edges ps, (1 <= it)%Z -> exists errs, boot_errors tppf draw it edges (map fst ps) (map snd ps) = Ok errs /\ length errs = (length edges - 1)%nat.
Proof. exact some_iterations. Qed.
Print Assumptions C323_iterations.
Theorem C323_no_iterations : forall tppf draw it edges ps j d, increasing edges -> (S j < length edges)%nat -> values_in edges j ps d -> d <> [] -> (it < 1)%Z ->
  boot_errors tppf draw it edges (map fst ps) (map snd ps) = Err ValueError.
Proof. exact no_iterations. Qed.
Print Assumptions C323_no_iterations.
(** Whatever is drawn, a bin with fewer than two values has no uncertainty, and that of another bin is,
    before the factor for its number of values, between zero and half the range of its values. *)
Theorem C323_range : forall tppf draw it edges ps errs j d, increasing edges -> boot_errors tppf draw it edges (map fst ps) (map snd ps) = Ok errs -> (S j < length edges)%nat ->
  values_in edges j ps d -> (forall b, drawn_indices (length d) (draw j b)) ->
  ((length d <= 1)%nat -> nth_error errs j = Some NaN) /\
  ((2 <= length d)%nat -> exists s, nth_error errs j = Some (t_factor tppf (length d) s) /\ 0 <= s /\ forall lo hi, (forall x, In x d -> lo <= x <= hi) -> s <= (hi - lo) / 2).
Proof. exact errors_of_bins. Qed.
Print Assumptions C323_range.
(** The uncertainties are in the units of the powers. *)
Theorem C323_scaled : forall tppf draw it edges ps k errs j d, 0 <= k -> increasing edges -> (S j < length edges)%nat -> values_in edges j ps d -> (2 <= length d)%nat ->
  boot_errors tppf draw it edges (map fst ps) (map snd ps) = Ok errs ->
  exists errs' s, boot_errors tppf draw it edges (map fst ps) (map (fun p => k * snd p) ps) = Ok errs' /\
    nth_error errs j = Some (t_factor tppf (length d) s) /\ nth_error errs' j = Some (t_factor tppf (length d) (k * s)).
Proof. exact scaled. Qed.
Print Assumptions C323_scaled.
(** With each possible draw once, the bootstrapped deviation is below the default one by (n - 1) / n at
    least. *)
Theorem C323_expected : forall draw bin data it r, (2 <= length data)%nat ->
  map (draw bin) (seq 0 (Z.to_nat it)) = all_lists (length data) (length data) -> boot_std draw it bin data = Ok r -> r <= (INR (length data) - 1) / INR (length data) * sample_std data.
Proof. exact every_resample. Qed.
Print Assumptions C323_expected.
(** The possible draws. *)
Theorem C323_draws : forall n k t, In t (all_lists n k) <-> length t = k /\ forall i, In i t -> (i < n)%nat.
Proof. intros n k t. exact (eq_ind _ (fun m => In t (all_lists m k) <-> length t = k /\ forall i, In i t -> (i < m)%nat) (all_lists_iff (repeat 0 n) t k) n (repeat_length 0 n)). Qed.
Print Assumptions C323_draws.

Definition ex_draw (bin b : nat) : list nat := nth b [[0; 0]; [1; 0]; [0; 1]; [1; 1]]%nat [0; 0]%nat.
Example C323_case : increasing [0; 1; 2] /\ values_in [0; 1; 2] 0 [(0, 3); (2, 5); (1 / 2, 7)] [3; 7] /\ values_in [0; 1; 2] 1 [(0, 3); (2, 5); (1 / 2, 7)] [5] /\
  (forall b, drawn_indices 2 (ex_draw 0 b)) /\ map (ex_draw 0) (seq 0 (Z.to_nat 4)) = all_lists 2 2 /\ boot_std ex_draw 4 0 [3; 7] = Ok 1.
Proof.
  assert (B : forall j x, in_bin [0; 1; 2] j x <-> (j = 0%nat /\ 0 <= x < 1) \/ (j = 1%nat /\ 1 <= x <= 2)).
  { intros [|[|j]] x; unfold in_bin; cbn [nth length]; (split; [intros [A [C D]]|intros [[A C]|[A C]]]); try lia; try (exfalso; lia).
    - left. destruct D as [D|[D _]]; [split; [reflexivity|lra]|lia].
    - split; [lia|]. split; [lra|left; lra].
    - right. split; [reflexivity|]. destruct D as [D|[_ D]]; lra.
    - split; [lia|]. split; [lra|]. destruct (Req_dec x 2); [right; split; [reflexivity|assumption]|left; lra]. }
  split; [intros [|[|[|i]]] [|[|[|j]]] H; cbn [length nth] in *; try lia; lra|].
  split; [apply v_in; [apply B; left; split; [reflexivity|lra]|]; apply v_out; [intros H; apply B in H; destruct H as [[_ H]|[H _]]; [lra|discriminate]|]; apply v_in; [apply B; left; split; [reflexivity|lra]|constructor]|].
  split; [apply v_out; [intros H; apply B in H; destruct H as [[H _]|[_ H]]; [discriminate|lra]|]; apply v_in; [apply B; right; split; [reflexivity|lra]|]; apply v_out; [intros H; apply B in H; destruct H as [[H _]|[_ H]]; [discriminate|lra]|constructor]|].
  split; [intros [|[|[|[|[|b]]]]]; (split; [reflexivity|intros i H; cbn in H; lia])|]. split; [reflexivity|].
  assert (S : forall a b d, 0 <= d -> (a - b = 2 * d \/ b - a = 2 * d) -> np_std [a; b] = d).
  { intros a b d D H. unfold np_std. cbn [length map INR lsum fold_right]. rewrite <- (sqrt_square d) by exact D. f_equal. destruct H as [H|H]; [replace a with (b + 2 * d) by lra|replace b with (a + 2 * d) by lra]; field. }
  unfold boot_std, bootstrap. change (4 <? 1)%Z with false. cbn [bind]. f_equal. change (Z.to_nat 4) with 4%nat. cbn [seq map ex_draw nth length INR].
  rewrite (S 3 3 0), (S 7 3 2), (S 3 7 2), (S 7 7 0) by lra. cbn [lsum fold_right]. field.
Qed.
