From Coq Require Import Reals List Bool ZArith Arith Lia Lra.
From Verif Require Import Lib.PyBase Lib.PySlice Lib.RSum Lib.Fl Lib.Arr Lib.Hist Spec.Lag Spec.Blank Model.Units Model.StatsUtils Model.Tsallis
  Proofs.StatsUtils_Proofs Proofs.StatsUtils2_Proofs.
Import ListNotations.
Local Open Scope R_scope.

(** ** arrays as tables *)
Lemma shape_tab n0 n1 img : shape n0 n1 img -> img = tab2 n0 n1 (px img).
Proof.
  intros [L R]. unfold tab2. rewrite (list_tab img []) at 1. rewrite L. apply tab1_ext. intros i Hi.
  assert (E : length (nth i img []) = n1) by (apply R, nth_In; lia).
  rewrite (list_tab (nth i img []) NaN) at 1. rewrite E. reflexivity.
Qed.
Lemma tab2_shape {A} n0 n1 (f : nat -> nat -> A) : shape n0 n1 (tab2 n0 n1 f).
Proof. split; [apply tab1_length |]. intros row H. apply in_map_iff in H. destruct H as [i [<- _]]. apply tab1_length. Qed.
Lemma tab2_px n0 n1 f i j : (i < n0)%nat -> (j < n1)%nat -> px (tab2 n0 n1 f) i j = f i j.
Proof. intros Hi Hj. unfold px, tab2. rewrite tab1_nth, tab1_nth; auto. Qed.
Lemma map2_tab {A B C} (h : A -> B -> C) n f g : map2 h (tab1 n f) (tab1 n g) = tab1 n (fun i => h (f i) (g i)).
Proof. unfold tab1. induction (seq 0 n) as [|a l IH]; cbn; [reflexivity | now rewrite IH]. Qed.
Lemma im2_tab {A B C} (h : A -> B -> C) n0 n1 f g : im2 h (tab2 n0 n1 f) (tab2 n0 n1 g) = tab2 n0 n1 (fun i j => h (f i j) (g i j)).
Proof. unfold im2, tab2. rewrite map2_tab. apply tab1_ext. intros. apply map2_tab. Qed.
Definition wrap (n : nat) (z : Z) : nat := Z.to_nat (z mod Z.of_nat n).
Lemma wrap_lt n z : (0 < n)%nat -> (wrap n z < n)%nat.
Proof. intros H. unfold wrap. pose proof (Z.mod_pos_bound z (Z.of_nat n)). lia. Qed.
Lemma roll_tab {A} n (f : nat -> A) s : roll (tab1 n f) s = tab1 n (fun i => f (wrap n (Z.of_nat i - s))).
Proof.
  destruct n as [|n]; [reflexivity |]. set (m := S n).
  apply nth_ext with (d := f 0%nat) (d' := f 0%nat); [now rewrite roll_length, !tab1_length |].
  intros i Hi. rewrite roll_length, tab1_length in Hi. rewrite roll_nth by now rewrite tab1_length.
  rewrite tab1_length. fold (wrap m (Z.of_nat i - s)). rewrite !tab1_nth; [reflexivity | lia |]. apply wrap_lt. unfold m; lia.
Qed.
Lemma roll0_tab {A} n0 n1 (f : nat -> nat -> A) s : roll0 (tab2 n0 n1 f) s = tab2 n0 n1 (fun i j => f (wrap n0 (Z.of_nat i - s)) j).
Proof. unfold roll0, tab2. now rewrite roll_tab. Qed.
Lemma roll1_tab {A} n0 n1 (f : nat -> nat -> A) s : roll1 (tab2 n0 n1 f) s = tab2 n0 n1 (fun i j => f i (wrap n1 (Z.of_nat j - s))).
Proof. unfold roll1, tab2. rewrite tab1_map. apply tab1_ext. intros. apply roll_tab. Qed.
Lemma map_tab2 {A B} (g : A -> B) n0 n1 f : map (map g) (tab2 n0 n1 f) = tab2 n0 n1 (fun i j => g (f i j)).
Proof. unfold tab2. rewrite tab1_map. apply tab1_ext. intros. apply tab1_map. Qed.
Lemma px_in n0 n1 img i j : shape n0 n1 img -> (i < n0)%nat -> (j < n1)%nat -> In (px img i j) (concat img).
Proof.
  intros [L R] Hi Hj. unfold px. apply in_concat. exists (nth i img []). assert (I : In (nth i img []) img) by (apply nth_In; lia).
  split; [exact I |]. apply nth_In. rewrite (R _ I). exact Hj.
Qed.
Lemma in_px n0 n1 img v : shape n0 n1 img -> In v (concat img) -> exists i j, (i < n0)%nat /\ (j < n1)%nat /\ v = px img i j.
Proof.
  intros [L R] H. apply in_concat in H. destruct H as [row [I V]]. pose proof (R _ I) as LR. apply (In_nth _ _ []) in I. destruct I as [i [Hi <-]].
  apply (In_nth _ _ NaN) in V. destruct V as [j [Hj <-]]. exists i, j. rewrite LR in Hj. rewrite <- L. auto.
Qed.

(** ** the shifted copies *)
Definition combo (a b c d v : fl) : fl := fsub (fdiv (fadd (fadd (fadd a b) c) d) (Fin 4)) v.
Definition neigh (w0 w1 : Z -> nat) (f : nat -> nat -> fl) (lag : nat) (i j : nat) : fl :=
  combo (f (w0 (Z.of_nat i - Z.of_nat lag)%Z) j) (f (w0 (Z.of_nat i - - Z.of_nat lag)%Z) j)
        (f i (w1 (Z.of_nat j - Z.of_nat lag)%Z)) (f i (w1 (Z.of_nat j - - Z.of_nat lag)%Z)) (f i j).
Lemma difference_periodic n0 n1 f lag : lag_difference true n1 (tab2 n0 n1 f) lag = tab2 n0 n1 (neigh (wrap n0) (wrap n1) f lag).
Proof. unfold lag_difference. cbv zeta. rewrite !roll0_tab, !roll1_tab, !im2_tab. reflexivity. Qed.

Definition padded (n0 n1 lag : nat) (f : nat -> nat -> fl) (i j : nat) : fl :=
  if ((lag <=? i) && (i <? lag + n0) && (lag <=? j) && (j <? lag + n1))%nat%bool then f (i - lag)%nat (j - lag)%nat else Fin 0.
Lemma repeat_tab {A} (v : A) n : repeat v n = tab1 n (fun _ => v).
Proof. unfold tab1. generalize 0%nat. induction n; intros k; cbn; [reflexivity | now rewrite <- IHn]. Qed.
Lemma pad_tab {A} (v : A) n lag f : (1 <= lag)%nat -> padwith v (repeat v lag ++ tab1 n f ++ repeat v lag) lag lag =
  tab1 (n + 2 * lag) (fun i => if ((lag <=? i) && (i <? lag + n))%nat%bool then f (i - lag)%nat else v).
Proof.
  intros H. rewrite !repeat_tab, !tab1_app. replace (lag + (n + lag))%nat with (n + 2 * lag)%nat by lia.
  apply nth_ext with (d := v) (d' := v); [now rewrite padwith_length, !tab1_length |].
  rewrite padwith_length, tab1_length. intros i Hi. rewrite padwith_nth by (rewrite ?tab1_length; auto). rewrite tab1_length, !tab1_nth by lia.
  destruct (Nat.ltb_spec i lag), (Nat.leb_spec (n + 2 * lag - lag) i), (Nat.leb_spec lag i), (Nat.ltb_spec i (lag + n)), (Nat.ltb_spec (i - lag) n); cbn; try lia; reflexivity.
Qed.
Lemma pad_rows_tab n0 n1 lag f : (1 <= lag)%nat -> pad_rows lag n1 (tab2 n0 n1 f) = tab2 (n0 + 2 * lag) (n1 + 2 * lag) (padded n0 n1 lag f).
Proof.
  intros H. unfold pad_rows, tab2 at 1. rewrite tab1_map. cbv zeta. rewrite pad_tab by exact H. apply tab1_ext. intros i Hi. unfold padded.
  destruct ((lag <=? i) && (i <? lag + n0))%nat%bool eqn:B.
  - rewrite pad_tab by exact H. apply tab1_ext. intros j Hj. reflexivity.
  - rewrite repeat_tab. apply tab1_ext. intros j Hj. reflexivity.
Qed.
Lemma slice_mid {A} n lag (f : nat -> A) : (1 <= lag)%nat -> slice (Some (Z.of_nat lag)) (Some (- Z.of_nat lag)%Z) 1 (tab1 (n + 2 * lag) f) = tab1 n (fun i => f (lag + i)%nat).
Proof.
  intros H. rewrite slice_tab1 by lia.
  assert (E : slice_idx (Some (Z.of_nat lag)) (Some (- Z.of_nat lag)%Z) 1 (n + 2 * lag) = slice_idx (Some (Z.of_nat lag)) (Some (Z.of_nat (n + lag))) 1 (n + 2 * lag)).
  { unfold slice_idx, slice_bounds, adjust. change (1 <? 0)%Z with false. cbv beta iota zeta. destruct (Z.ltb_spec (- Z.of_nat lag) 0); [| lia]. destruct (Z.ltb_spec (Z.of_nat (n + lag)) 0); [lia |].
    replace (Z.max 0 (- Z.of_nat lag + Z.of_nat (n + 2 * lag))) with (Z.min (Z.of_nat (n + 2 * lag)) (Z.of_nat (n + lag))) by lia. reflexivity. }
  rewrite E, slice_idx_range by lia. replace (n + lag - lag)%nat with n by lia. unfold tab1. rewrite <- (map_map (fun i => (lag + i)%nat) f). f_equal.
  clear. revert lag. induction n as [|n IH]; intros lag; [reflexivity |]. cbn [seq map]. f_equal; [lia |]. rewrite IH. rewrite <- seq_shift, map_map. apply map_ext. intros; lia.
Qed.
Lemma crop_tab n0 n1 lag (f : nat -> nat -> fl) : (1 <= lag)%nat -> crop lag (tab2 (n0 + 2 * lag) (n1 + 2 * lag) f) = tab2 n0 n1 (fun i j => f (lag + i)%nat (lag + j)%nat).
Proof. intros H. unfold crop, tab2. cbv zeta. rewrite slice_mid by exact H. rewrite tab1_map. apply tab1_ext. intros. apply slice_mid, H. Qed.
Lemma difference_padded n0 n1 f lag : (1 <= lag)%nat -> lag_difference false n1 (tab2 n0 n1 f) lag =
  tab2 n0 n1 (fun i j => neigh (wrap (n0 + 2 * lag)) (wrap (n1 + 2 * lag)) (padded n0 n1 lag f) lag (lag + i)%nat (lag + j)%nat).
Proof. intros H. unfold lag_difference. cbv zeta. rewrite pad_rows_tab by exact H. rewrite !roll0_tab, !roll1_tab, !im2_tab. rewrite !crop_tab by exact H. rewrite im2_tab. reflexivity. Qed.

(** ** values of the differences *)
Lemma wrap_in n z : (0 <= z < Z.of_nat n)%Z -> wrap n z = Z.to_nat z.
Proof. intros H. unfold wrap. now rewrite Z.mod_small. Qed.
Lemma seen_periodic n0 n1 img i j : (0 < n0)%nat -> (0 < n1)%nat -> seen true n0 n1 img i j = px img (wrap n0 i) (wrap n1 j).
Proof.
  intros H0 H1. unfold seen. fold (wrap n0 i). fold (wrap n1 j).
  destruct (Z.leb_spec 0 i), (Z.ltb_spec i (Z.of_nat n0)), (Z.leb_spec 0 j), (Z.ltb_spec j (Z.of_nat n1)); cbn [andb]; try reflexivity.
  now rewrite !wrap_in by lia.
Qed.
Lemma seen_padded n0 n1 img lag i j : (- Z.of_nat lag <= i < Z.of_nat (n0 + lag))%Z -> (- Z.of_nat lag <= j < Z.of_nat (n1 + lag))%Z ->
  seen false n0 n1 img i j = padded n0 n1 lag (px img) (Z.to_nat (Z.of_nat lag + i)) (Z.to_nat (Z.of_nat lag + j)).
Proof.
  intros Hi Hj. unfold seen, padded.
  destruct (Z.leb_spec 0 i), (Z.ltb_spec i (Z.of_nat n0)), (Z.leb_spec 0 j), (Z.ltb_spec j (Z.of_nat n1)); cbn [andb];
  destruct (Nat.leb_spec lag (Z.to_nat (Z.of_nat lag + i))), (Nat.ltb_spec (Z.to_nat (Z.of_nat lag + i)) (lag + n0)),
    (Nat.leb_spec lag (Z.to_nat (Z.of_nat lag + j))), (Nat.ltb_spec (Z.to_nat (Z.of_nat lag + j)) (lag + n1)); cbn [andb]; try lia; try reflexivity.
  f_equal; lia.
Qed.

Lemma difference_px per n0 n1 img lag i j : shape n0 n1 img -> (1 <= lag)%nat -> (i < n0)%nat -> (j < n1)%nat ->
  px (lag_difference per n1 img lag) i j =
  (let p := four per n0 n1 img lag i j in combo (nth 0 p NaN) (nth 1 p NaN) (nth 2 p NaN) (nth 3 p NaN) (px img i j)).
Proof.
  intros S L Hi Hj. rewrite (shape_tab _ _ _ S) at 1. cbn [four map nth fst snd]. destruct per.
  - rewrite difference_periodic, tab2_px by auto. unfold neigh. rewrite !seen_periodic by lia. rewrite !Z.sub_opp_r, !(wrap_in _ (Z.of_nat i)), !(wrap_in _ (Z.of_nat j)) by lia. rewrite !Nat2Z.id. reflexivity.
  - rewrite difference_padded, tab2_px by auto. unfold neigh. rewrite !(seen_padded n0 n1 img lag) by lia.
    rewrite !Z.sub_opp_r. rewrite !wrap_in by lia.
    replace (px img i j) with (padded n0 n1 lag (px img) (lag + i) (lag + j)).
    2:{ unfold padded. destruct (Nat.leb_spec lag (lag + i)), (Nat.ltb_spec (lag + i) (lag + n0)), (Nat.leb_spec lag (lag + j)), (Nat.ltb_spec (lag + j) (lag + n1)); cbn; try lia. f_equal; lia. }
    assert (C : forall a a' b b', a = a' -> b = b' -> padded n0 n1 lag (px img) a b = padded n0 n1 lag (px img) a' b') by (intros; now subst).
    f_equal; apply C; lia.
Qed.
Lemma difference_shape per n0 n1 img lag : shape n0 n1 img -> (1 <= lag)%nat -> shape n0 n1 (lag_difference per n1 img lag).
Proof.
  intros S L. rewrite (shape_tab _ _ _ S). destruct per; [rewrite difference_periodic | rewrite difference_padded by exact L]; apply tab2_shape.
Qed.
Lemma combo_fin a b c d v : combo (Fin a) (Fin b) (Fin c) (Fin d) (Fin v) = Fin ((a + b + c + d) / 4 - v).
Proof. unfold combo. cbn [fadd]. unfold fdiv. destruct (Reqb_spec 4 0); [lra | reflexivity]. Qed.
Lemma blankable_cases x : blankable x -> x = NaN \/ exists r, x = Fin r.
Proof. destruct x; cbn; intros; try contradiction; eauto. Qed.
Lemma combo_nan a b c d v : blankable a -> blankable b -> blankable c -> blankable d -> blankable v ->
  combo a b c d v = NaN <-> In NaN [a; b; c; d; v].
Proof.
  intros A B C D V. destruct (blankable_cases a A) as [->|[a' ->]], (blankable_cases b B) as [->|[b' ->]], (blankable_cases c C) as [->|[c' ->]], (blankable_cases d D) as [->|[d' ->]], (blankable_cases v V) as [->|[v' ->]];
  try rewrite combo_fin; unfold combo; cbn; try (split; [intros _; tauto | reflexivity]).
  all: try (destruct (Reqb_spec 4 0); [lra |]; cbn; split; [tauto | reflexivity]).
  split; [discriminate |]. intros H. repeat (destruct H as [H|H]; [discriminate |]). contradiction.
Qed.
Lemma seen_blankable per n0 n1 img i j : shape n0 n1 img -> numbers img -> (0 < n0)%nat -> (0 < n1)%nat -> blankable (seen per n0 n1 img i j).
Proof.
  intros S N H0 H1. unfold numbers in N. rewrite Forall_forall in N. unfold seen. fold (wrap n0 i) (wrap n1 j).
  destruct (Z.leb_spec 0 i), (Z.ltb_spec i (Z.of_nat n0)), (Z.leb_spec 0 j), (Z.ltb_spec j (Z.of_nat n1)); cbn [andb];
  try (destruct per; [apply N, (px_in n0 n1); auto using wrap_lt | exact I]).
  apply N, (px_in n0 n1); auto; lia.
Qed.

Theorem difference_values per n0 n1 img lag i j : shape n0 n1 img -> numbers img -> (1 <= lag)%nat -> (i < n0)%nat -> (j < n1)%nat ->
  shape n0 n1 (lag_difference per n1 img lag) /\
  (forall a b c d v, four per n0 n1 img lag i j = [Fin a; Fin b; Fin c; Fin d] -> px img i j = Fin v ->
     px (lag_difference per n1 img lag) i j = Fin ((a + b + c + d) / 4 - v)) /\
  (px (lag_difference per n1 img lag) i j = NaN <-> In NaN (px img i j :: four per n0 n1 img lag i j)).
Proof.
  intros S N L Hi Hj. split; [now apply difference_shape |]. rewrite (difference_px per n0) by auto. split.
  - intros a b c d v -> ->. cbn [nth]. apply combo_fin.
  - cbv zeta. rewrite combo_nan.
    + unfold four. cbv zeta. cbn [map nth In]. tauto.
    + cbn. apply seen_blankable; auto; lia.
    + cbn. apply seen_blankable; auto; lia.
    + cbn. apply seen_blankable; auto; lia.
    + cbn. apply seen_blankable; auto; lia.
    + unfold numbers in N. rewrite Forall_forall in N. apply N, (px_in n0 n1); auto.
Qed.
