From Coq Require Import String Reals List Bool Arith Lia Lra Permutation.
From Verif Require Import Lib.PyBase Lib.Arr Lib.Fl Lib.RSum Model.StatsUtils Model.PcaFit Model.Psds Model.WidthMethods Model.WidthImages Spec.WidthImages
  Proofs.Psds_Proofs Proofs.WidthMethods_Proofs Proofs.WidthMethods2_Proofs.
Import ListNotations.
Local Open Scope R_scope.

(** ** Grid *)
Lemma lag_unshift n i : (i < n)%nat -> lag n (unshift n i) = INR i - INR (n / 2).
Proof.
  intro H. pose proof (Nat.div_mod n 2 ltac:(lia)) as D. pose proof (Nat.mod_upper_bound n 2 ltac:(lia)) as M. unfold unshift.
  destruct (Nat.lt_ge_cases i (n / 2)) as [L|L].
  - rewrite Nat.mod_small by lia.
    destruct (Nat.lt_ge_cases n (2 * (i + (n - n / 2)))) as [Q|Q].
    + rewrite lag_high by lia. replace (n - (i + (n - n / 2)))%nat with (n / 2 - i)%nat by lia. rewrite minus_INR by lia. lra.
    + assert (i = 0 /\ n = 2 * (n / 2))%nat as [-> E] by lia. cbn [INR]. set (m := (n / 2)%nat) in *. rewrite E. replace (0 + (2 * m - m))%nat with m by lia. rewrite lag_middle by lia. lra.
  - replace (i + (n - n / 2))%nat with ((i - n / 2) + 1 * n)%nat by lia. rewrite Nat.mod_add, Nat.mod_small by lia. rewrite lag_low by lia. rewrite minus_INR by lia. reflexivity.
Qed.
Lemma grid_nth n i : (i < n)%nat -> nth i (grid n) 0 = INR i - INR (n / 2).
Proof.
  intro H. unfold grid. change (map (lag n) (seq 0 n)) with (tab1 n (lag n)). rewrite fftshift_tab. unfold tab1.
  rewrite (nth_indep _ 0 (lag n (unshift n 0%nat))) by (rewrite map_length, seq_length; exact H). rewrite (map_nth (fun i => lag n (unshift n i)) (seq 0 n) 0%nat i), seq_nth by exact H. apply lag_unshift, H.
Qed.
Lemma pixels_in im p : In p (pixels im) <-> exists i j, (i < i_n0 im)%nat /\ (j < i_n1 im)%nat /\ p = (INR i - INR (i_n0 im / 2), INR j - INR (i_n1 im / 2), i_val im i j).
Proof.
  unfold pixels. rewrite in_flat_map. split.
  - intros (i & Hi & H). apply in_seq in Hi. apply in_map_iff in H. destruct H as (j & E & Hj). apply in_seq in Hj. exists i, j. repeat split; try lia. rewrite <- E, !grid_nth by lia. reflexivity.
  - intros (i & j & Hi & Hj & E). exists i. split; [apply in_seq; lia|]. apply in_map_iff. exists j. split; [|apply in_seq; lia]. rewrite !grid_nth by lia. now symmetry.
Qed.
Lemma flat_length {A B} (f : A -> list B) k l : (forall a, length (f a) = k) -> length (flat_map f l) = (length l * k)%nat.
Proof. intro H. induction l as [|a l IH]; [reflexivity|]. cbn [flat_map length]. rewrite app_length, H, IH. lia. Qed.
Lemma pixels_length im : length (pixels im) = (i_n0 im * i_n1 im)%nat.
Proof. unfold pixels. rewrite (flat_length _ (i_n1 im)), seq_length; [reflexivity|]. intro a. now rewrite map_length, seq_length. Qed.
Lemma minus_gauss n0 n1 A g noise : pixels (minus_noise noise (gauss_image n0 n1 A g noise)) = pixels (gauss_image n0 n1 A g (fun _ _ => 0)).
Proof.
  unfold pixels. cbn. apply flat_map_ext. intro i. apply map_ext. intro j. f_equal. ring.
Qed.

(** ** Maximum *)
Lemma amax_is l m : In m l -> (forall x, In x l -> x <= m) -> amax l = m.
Proof.
  destruct l as [|h t]; [contradiction|]. cbn [amax]. revert h. induction t as [|a t IH]; intros h Hin Hle; cbn [fold_left].
  - destruct Hin as [->|[]]. reflexivity.
  - apply IH.
    + assert (h <= m) by (apply Hle; now left). assert (a <= m) by (apply Hle; right; now left). destruct Hin as [->|[->|Hin]].
      * left. unfold Rmax. destruct (Rle_dec m a); lra.
      * left. unfold Rmax. destruct (Rle_dec h m); lra.
      * now right.
    + intros x [<-|Hx]; [|apply Hle; right; now right]. apply Rmax_lub; apply Hle; [now left|right; now left].
Qed.
Lemma amax_in l : l <> [] -> In (amax l) l /\ forall x, In x l -> x <= amax l.
Proof.
  destruct l as [|h t]; [contradiction|]. intros _. cbn [amax]. revert h. induction t as [|a t IH]; intros h; cbn [fold_left].
  - split; [now left|]. intros x [->|[]]. apply Rle_refl.
  - destruct (IH (Rmax h a)) as [I L]. split.
    + destruct I as [E|I]; [|right; now right]. rewrite <- E. unfold Rmax. destruct (Rle_dec h a); [right; now left|now left].
    + intros x [->|[->|Hx]]; [| |apply L; now right].
      * apply Rle_trans with (Rmax x a); [apply Rmax_l|apply L; now left].
      * apply Rle_trans with (Rmax h x); [apply Rmax_r|apply L; now left].
Qed.
Lemma amax_scale c l : 0 < c -> amax (map (Rmult c) l) = c * amax l.
Proof.
  intro C. destruct l as [|h t]; [cbn; ring|]. destruct (amax_in (h :: t)) as [I L]; [discriminate|]. apply amax_is.
  - apply in_map, I.
  - intros x Hx. apply in_map_iff in Hx. destruct Hx as (y & <- & Hy). apply Rmult_le_compat_l; [lra|apply L, Hy].
Qed.

(** ** Gaussians *)
Lemma form_pos g x y : proper g -> 0 <= form g x y.
Proof.
  intros [P Q]. unfold form. assert (0 < g_x g ^ 2) by (rewrite <- Rsqr_pow2; now apply Rsqr_pos_lt). assert (0 < g_y g ^ 2) by (rewrite <- Rsqr_pow2; now apply Rsqr_pos_lt).
  apply Rplus_le_le_0_compat; apply Rmult_le_pos; try apply pow2_ge_0; left; apply Rinv_0_lt_compat; lra.
Qed.
Lemma form_0 g : form g 0 0 = 0.
Proof. unfold form. rewrite !Rmult_0_l, Rplus_0_l, Rminus_0_r. unfold Rdiv. ring. Qed.
Lemma gaussian_le A g x y : 0 < A -> proper g -> gaussian A g x y <= A.
Proof.
  intros HA P. unfold gaussian. pose proof (form_pos g x y P). assert (exp (- form g x y) <= 1); [|nra].
  rewrite <- exp_0. destruct (Rle_lt_or_eq_dec 0 (form g x y) H) as [L|E]; [left; apply exp_increasing; lra|rewrite <- E; right; f_equal; ring].
Qed.
Lemma gaussian_0 A g : gaussian A g 0 0 = A.
Proof. unfold gaussian. rewrite form_0, Ropp_0, exp_0. ring. Qed.

(** The three coefficients of the form, and the width they fix *)
Definition ka (g : gauss2) : R := cos (g_theta g) ^ 2 / (2 * g_x g ^ 2) + sin (g_theta g) ^ 2 / (2 * g_y g ^ 2).
Definition kb (g : gauss2) : R := cos (g_theta g) * sin (g_theta g) * (/ g_x g ^ 2 - / g_y g ^ 2).
Definition kc (g : gauss2) : R := sin (g_theta g) ^ 2 / (2 * g_x g ^ 2) + cos (g_theta g) ^ 2 / (2 * g_y g ^ 2).
Lemma form_coef g x y : proper g -> form g x y = ka g * x ^ 2 + kb g * (x * y) + kc g * y ^ 2.
Proof. intros [P Q]. unfold form, ka, kb, kc. field. split; assumption. Qed.
Lemma cs2 t : cos t ^ 2 = 1 - sin t ^ 2.
Proof. pose proof (sin2_cos2 t) as H. unfold Rsqr in H. lra. Qed.
Lemma coef_det g : proper g -> 4 * ka g * kc g - kb g ^ 2 = / (g_x g ^ 2 * g_y g ^ 2).
Proof.
  intros [P Q]. unfold ka, kb, kc. set (s := sin (g_theta g)). set (c := cos (g_theta g)). pose proof (cs2 (g_theta g)) as E. fold s c in E.
  replace ((c * s * (/ g_x g ^ 2 - / g_y g ^ 2)) ^ 2) with (c ^ 2 * s ^ 2 * (/ g_x g ^ 2 - / g_y g ^ 2) ^ 2) by ring. rewrite E. field. split; assumption.
Qed.
Lemma coef_tr g : proper g -> ka g + kc g = (g_x g ^ 2 + g_y g ^ 2) * (4 * ka g * kc g - kb g ^ 2) / 2.
Proof.
  intros P. rewrite coef_det by exact P. destruct P as [P Q]. unfold ka, kc. set (s := sin (g_theta g)). set (c := cos (g_theta g)). pose proof (cs2 (g_theta g)) as E. fold s c in E. rewrite E. field. split; assumption.
Qed.
Lemma width_unique g h : proper g -> proper h -> ka g = ka h -> kb g = kb h -> kc g = kc h -> g_x g ^ 2 + g_y g ^ 2 = g_x h ^ 2 + g_y h ^ 2.
Proof.
  intros P Q A B C. pose proof (coef_tr g P) as T. pose proof (coef_tr h Q) as U. rewrite <- A, <- B, <- C, T in U. pose proof (coef_det g P) as D.
  assert (0 < / (g_x g ^ 2 * g_y g ^ 2)). { destruct P as [P1 P2]. apply Rinv_0_lt_compat, Rmult_lt_0_compat; rewrite <- Rsqr_pow2; now apply Rsqr_pos_lt. }
  rewrite <- D in H. nra.
Qed.

(** ** Costs *)
Lemma cost_nil A g : cost A [] g = 0. Proof. reflexivity. Qed.
Lemma cost_cons A p pts g : cost A (p :: pts) g = Rsqr (snd p - (gaussian A g (fst (fst p)) (snd (fst p)) + g_const g)) + cost A pts g.
Proof. unfold cost. cbn [map]. apply lsum_cons. Qed.
Lemma cost_pos A pts g : 0 <= cost A pts g.
Proof. induction pts as [|p pts IH]; [right; reflexivity|]. rewrite cost_cons. pose proof (Rle_0_sqr (snd p - (gaussian A g (fst (fst p)) (snd (fst p)) + g_const g))). lra. Qed.
Lemma cost_zero A pts g : cost A pts g <= 0 <-> forall p, In p pts -> snd p = gaussian A g (fst (fst p)) (snd (fst p)) + g_const g.
Proof.
  induction pts as [|p pts IH]; [split; [contradiction|intros _; right; reflexivity]|]. rewrite cost_cons. pose proof (cost_pos A pts g) as C. set (r := snd p - _). pose proof (Rle_0_sqr r) as S. split.
  - intros H q [<-|Hq]; [|apply IH; [lra|exact Hq]]. assert (E : Rsqr r = 0) by lra. apply Rsqr_0_uniq in E. unfold r in E. lra.
  - intro H. assert (E : r = 0) by (unfold r; rewrite (H p (or_introl eq_refl)); ring). rewrite E, Rsqr_0, Rplus_0_l. apply IH. intros q Hq. apply H. now right.
Qed.
Lemma gauss_top n0 n1 A g : (0 < n0)%nat -> (0 < n1)%nat -> 0 < A -> proper g -> amax (map snd (pixels (gauss_image n0 n1 A g (fun _ _ => 0)))) = A + g_const g.
Proof.
  intros H0 H1 HA P. apply amax_is.
  - apply in_map_iff. exists (INR (n0 / 2) - INR (n0 / 2), INR (n1 / 2) - INR (n1 / 2), gaussian A g (INR (n0 / 2) - INR (n0 / 2)) (INR (n1 / 2) - INR (n1 / 2)) + g_const g + 0). split.
    + cbn [snd]. rewrite !Rminus_diag_eq by reflexivity. rewrite gaussian_0. ring.
    + apply pixels_in. exists (n0 / 2)%nat, (n1 / 2)%nat. cbn [i_n0 i_n1 gauss_image]. split; [apply Nat.div_lt; lia|]. split; [apply Nat.div_lt; lia|reflexivity].
  - intros x Hx. apply in_map_iff in Hx. destruct Hx as (p & <- & Hp). apply pixels_in in Hp. destruct Hp as (i & j & _ & _ & ->). cbn [snd i_val gauss_image i_n0 i_n1].
    pose proof (gaussian_le A g (INR i - INR (n0 / 2)) (INR j - INR (n1 / 2)) HA P). lra.
Qed.
(** A fit without residuals is the Gaussian itself *)
Lemma exact_same n0 n1 A g h : (2 <= n0)%nat -> (2 <= n1)%nat -> 0 < A -> proper g -> g_const g = 0 -> proper h ->
  cost A (pixels (gauss_image n0 n1 A g (fun _ _ => 0))) h <= 0 -> g_const h = 0 /\ ka g = ka h /\ kb g = kb h /\ kc g = kc h.
Proof.
  intros H0 H1 HA P Z Q C. pose proof (proj1 (cost_zero _ _ _) C) as E. clear C.
  assert (V : forall i j, (i < n0)%nat -> (j < n1)%nat -> gaussian A g (INR i - INR (n0 / 2)) (INR j - INR (n1 / 2)) = gaussian A h (INR i - INR (n0 / 2)) (INR j - INR (n1 / 2)) + g_const h).
  { intros i j Hi Hj. specialize (E (INR i - INR (n0 / 2), INR j - INR (n1 / 2), gaussian A g (INR i - INR (n0 / 2)) (INR j - INR (n1 / 2)) + g_const g + 0)). cbn [fst snd] in E. rewrite Z in E. rewrite <- E; [ring|].
    apply pixels_in. exists i, j. repeat split; try assumption. cbn. rewrite Z. reflexivity. }
  assert (N0 : (1 <= n0 / 2 < n0)%nat) by (split; [apply Nat.div_le_lower_bound; lia|apply Nat.div_lt; lia]).
  assert (N1 : (1 <= n1 / 2 < n1)%nat) by (split; [apply Nat.div_le_lower_bound; lia|apply Nat.div_lt; lia]).
  assert (D0 : INR (n0 / 2) - INR (n0 / 2) = 0) by ring. assert (D1 : INR (n1 / 2) - INR (n1 / 2) = 0) by ring.
  assert (M0 : INR (n0 / 2 - 1) - INR (n0 / 2) = -1) by (rewrite minus_INR by lia; cbn [INR]; lra).
  assert (M1 : INR (n1 / 2 - 1) - INR (n1 / 2) = -1) by (rewrite minus_INR by lia; cbn [INR]; lra).
  assert (K : g_const h = 0). { pose proof (V (n0 / 2)%nat (n1 / 2)%nat ltac:(lia) ltac:(lia)) as W. rewrite D0, D1, !gaussian_0 in W. lra. }
  assert (F : forall i j, (i < n0)%nat -> (j < n1)%nat -> form g (INR i - INR (n0 / 2)) (INR j - INR (n1 / 2)) = form h (INR i - INR (n0 / 2)) (INR j - INR (n1 / 2))).
  { intros i j Hi Hj. pose proof (V i j Hi Hj) as W. rewrite K, Rplus_0_r in W. unfold gaussian in W. apply Rmult_eq_reg_l in W; [|lra]. apply exp_inv in W. lra. }
  pose proof (F (n0 / 2 - 1)%nat (n1 / 2)%nat ltac:(lia) ltac:(lia)) as A1. pose proof (F (n0 / 2)%nat (n1 / 2 - 1)%nat ltac:(lia) ltac:(lia)) as A2. pose proof (F (n0 / 2 - 1)%nat (n1 / 2 - 1)%nat ltac:(lia) ltac:(lia)) as A3.
  rewrite M0, D1, (form_coef g), (form_coef h) in A1 by assumption. rewrite D0, M1, (form_coef g), (form_coef h) in A2 by assumption. rewrite M0, M1, (form_coef g), (form_coef h) in A3 by assumption.
  repeat split; [exact K| | |]; nra.
Qed.
(** So is a best fit *)
Lemma best_same fit n0 n1 A g : (2 <= n0)%nat -> (2 <= n1)%nat -> 0 < A -> proper g -> g_const g = 0 -> best fit A (pixels (gauss_image n0 n1 A g (fun _ _ => 0))) ->
  let h := fst (fit A (pixels (gauss_image n0 n1 A g (fun _ _ => 0)))) in proper h /\ g_const h = 0 /\ ka g = ka h /\ kb g = kb h /\ kc g = kc h.
Proof.
  intros H0 H1 HA P Z [Q B] h. split; [exact Q|]. apply (exact_same n0 n1 A g h); try assumption. fold h in B. apply Rle_trans with (cost A (pixels (gauss_image n0 n1 A g (fun _ _ => 0))) g); [apply B, P|].
  apply cost_zero. intros p Hp. apply pixels_in in Hp. destruct Hp as (i & j & _ & _ & ->). cbn. ring.
Qed.
