From Coq Require Import String Reals List Bool Arith Lia Lra Permutation.
From Verif Require Import Lib.PyBase Lib.Arr Lib.Fl Lib.RSum Model.StatsUtils Model.PcaFit Model.Psds Model.WidthMethods Model.WidthImages Spec.WidthImages
  Proofs.WidthImages_Proofs.
Import ListNotations.
Local Open Scope R_scope.

Lemma fsqrt_fin r : 0 <= r -> fsqrt (Fin r) = Fin (sqrt r).
Proof. intro H. cbn. destruct (Rltb_spec r 0); [lra|reflexivity]. Qed.
Lemma Ok_inj {A} (a b : A) : Ok a = Ok b -> a = b.
Proof. now injection 1. Qed.

Section Fit.
Variable fit2 : R -> list pixel -> gauss2 * option (R * R).
Variable spline : list R -> list R -> list R -> result (R -> R).
Variable contours : list pixel -> list (bool * list Ellipse.point).
Variable eig : Mat3.m3 -> list Mat3.v3.
Variable leastsq : Ellipse.ellipse -> Ellipse.point -> R.
Variable alpha : R.
Variable draws : list Ellipse.draw.
Notation axis := (axis_widths fit2 spline contours eig leastsq alpha draws).
Notation axes := (all_axis_widths fit2 spline contours eig leastsq alpha draws).
Notation width := (width_2D fit2 spline contours eig leastsq alpha draws).

Lemma fit_scale n0 n1 A g : (2 <= n0)%nat -> (2 <= n1)%nat -> 0 < A -> proper g -> g_const g = 0 -> best fit2 A (pixels (gauss_image n0 n1 A g no_noise)) ->
  exists w, axis "fit" (pixels (gauss_image n0 n1 A g no_noise)) = Ok w /\ fst (scale_of None w) = Fin (true_width g).
Proof.
  intros H0 H1 HA P Z B. pose proof (best_same fit2 n0 n1 A g H0 H1 HA P Z B) as K. cbv zeta in K. fold no_noise in K. destruct K as (Q & _ & Ka & Kb & Kc).
  pose proof (width_unique g _ P Q Ka Kb Kc) as W. unfold axis_widths, fit_2D_gaussian. cbn [String.eqb Ascii.eqb Bool.eqb]. pose proof (gauss_top n0 n1 A g ltac:(lia) ltac:(lia) HA P) as T. fold no_noise in T. rewrite T, Z, Rplus_0_r.
  destruct (fit2 A (pixels (gauss_image n0 n1 A g no_noise))) as [h cov]. cbn [fst] in *.
  eexists. split; [reflexivity|]. assert (E : fsqrt (fadd (fsqr (Fin (g_y h))) (fsqr (Fin (g_x h)))) = Fin (true_width g)).
  { unfold true_width. rewrite W. cbn [fsqr fmul fadd]. rewrite fsqrt_fin by nra. do 2 f_equal. ring. }
  destruct cov as [[vx vy]|]; unfold scale_of; cbv zeta; cbn [fst]; exact E.
Qed.
Lemma fit_images n0 n1 noise l : (2 <= n0)%nat -> (2 <= n1)%nat -> l <> [] ->
  (forall A g, In (A, g) l -> 0 < A /\ proper g /\ g_const g = 0 /\ best fit2 A (pixels (gauss_image n0 n1 A g no_noise))) ->
  exists ws, width "fit" noise false None None (map (fun Ag => gauss_image n0 n1 (fst Ag) (snd Ag) noise) l) = Ok ws /\ map fst ws = map (fun Ag => Fin (true_width (snd Ag))) l.
Proof.
  intros H0 H1 Hl H. assert (K : exists ws, axes "fit" (map (fun im => pixels (minus_noise noise im)) (map (fun Ag => gauss_image n0 n1 (fst Ag) (snd Ag) noise) l)) = Ok ws /\ map fst (map (scale_of None) ws) = map (fun Ag => Fin (true_width (snd Ag))) l).
  { clear Hl. induction l as [|[A g] l IH]; [exists []; split; reflexivity|]. destruct IH as (ws & E & F); [intros A' g' Hg; apply H; now right|]. destruct (H A g (or_introl eq_refl)) as (HA & P & Z & B).
    destruct (fit_scale n0 n1 A g H0 H1 HA P Z B) as (w & G & G'). exists (w :: ws). cbn [map fst snd]. rewrite minus_gauss. cbn [all_axis_widths]. fold no_noise. rewrite G. cbn [bind]. rewrite E. cbn [bind]. split; [reflexivity|]. rewrite G', <- F. reflexivity. }
  destruct K as (ws & E & F). exists (map (scale_of None) ws). split; [|exact F]. destruct l as [|a l]; [contradiction|]. unfold width_2D. cbn [existsb String.eqb Ascii.eqb Bool.eqb orb negb]. cbn [map] in E |- *. rewrite E. reflexivity.
Qed.
(** ** Without a covariance matrix the width stays, its error is lost *)
Lemma no_covariance noise g im : fit_2D_gaussian fit2 (pixels (minus_noise noise im)) = (g, None) ->
  width "fit" noise false None None [im] = Ok [(Fin (true_width g), NaN)].
Proof.
  intros E. unfold width_2D. cbn [existsb String.eqb Ascii.eqb Bool.eqb orb negb map all_axis_widths]. unfold axis_widths. cbn [String.eqb Ascii.eqb Bool.eqb]. rewrite E. cbn [bind beam_term map]. do 2 f_equal.
  unfold scale_of. cbn [fsqr fmul fadd]. rewrite fsqrt_fin by nra. unfold true_width. f_equal. f_equal. f_equal. ring.
Qed.

(** ** Splines *)
Lemma few_knots z t : knots z = Ok t -> (length z < 200)%nat -> (length z < length t + 4)%nat.
Proof.
  unfold knots. destruct (Nat.eqb_spec (length z / 100) 0) as [E|E]; [discriminate|]. intros H L. apply Ok_inj in H. subst t. rewrite map_length.
  assert (D : (length z / 100 = 1)%nat). { assert (length z / 100 < 2)%nat by (apply Nat.div_lt_upper_bound; lia). lia. }
  rewrite D. set (n := length z) in *. assert (N : (100 <= n)%nat). { destruct (Nat.lt_ge_cases n 100) as [Q|Q]; [rewrite Nat.div_small in D by exact Q; lia|exact Q]. }
  replace (seq 0 n) with ([0%nat] ++ seq 1 (n - 2) ++ [(n - 1)%nat]).
  - rewrite !filter_app, !app_length. assert (F : filter (fun i => Nat.leb 1 i && Nat.ltb i (n - 1) && Nat.eqb (i mod 1) 0) (seq 1 (n - 2)) = seq 1 (n - 2)).
    { assert (W : forall i, In i (seq 1 (n - 2)) -> (1 <= i < n - 1)%nat) by (intros i Hi; apply in_seq in Hi; lia). revert W. generalize (seq 1 (n - 2)) as l. induction l as [|a l IH]; intro W; [reflexivity|]. cbn [filter].
      destruct (W a (or_introl eq_refl)) as [W1 W2]. rewrite (proj2 (Nat.leb_le 1 a) W1), (proj2 (Nat.ltb_lt a (n - 1)) W2), Nat.mod_1_r. cbn [andb Nat.eqb]. f_equal. apply IH. intros i Hi. apply W. now right. }
    rewrite F, seq_length. lia.
  - replace n with (1 + (n - 2) + 1)%nat at 3 by lia. rewrite !seq_app. cbn [seq app]. f_equal. f_equal. f_equal. lia.
Qed.
Lemma ins_perm p l : Permutation (ins p l) (p :: l).
Proof. induction l as [|h t IH]; [reflexivity|]. cbn. destruct (Rleb (fst p) (fst h)); [reflexivity|]. rewrite IH. apply perm_swap. Qed.
Lemma sorted_perm l : Permutation (sorted_knots l) l.
Proof. induction l as [|h t IH]; [reflexivity|]. change (sorted_knots (h :: t)) with (ins h (sorted_knots t)). rewrite ins_perm. now rewrite IH. Qed.
Lemma small_spline radius px : fitpack spline -> (length px < 200)%nat -> spline_width spline radius px = Err ValueError.
Proof.
  intros F L. unfold spline_width. set (pts := sorted_knots _). assert (N : length pts = length px). { unfold pts. rewrite (Permutation_length (sorted_perm _)). apply map_length. }
  destruct (knots (map fst pts)) as [t|e] eqn:K; cbn [bind].
  - rewrite F; [reflexivity|]. left. rewrite map_length. rewrite <- (map_length fst pts). apply few_knots; [exact K|]. rewrite map_length. lia.
  - unfold knots in K. destruct (Nat.eqb _ 0); [now injection K as <-|discriminate].
Qed.
Lemma first_error method noise b fwhm cdelt im images e : In method ["fit"; "interpolate"; "xinterpolate"; "contour"]%string -> axis method (pixels (minus_noise noise im)) = Err e -> width method noise b fwhm cdelt (im :: images) = Err e.
Proof.
  intros M E. unfold width_2D. assert (X : existsb (String.eqb method) ["fit"; "interpolate"; "xinterpolate"; "contour"]%string = true) by (apply existsb_exists; exists method; split; [exact M|apply String.eqb_refl]). rewrite X. cbn [negb map all_axis_widths]. rewrite E. reflexivity.
Qed.
Lemma small_images method noise b fwhm cdelt im images : fitpack spline -> method = "interpolate"%string \/ method = "xinterpolate"%string -> (i_n0 im * i_n1 im < 200)%nat ->
  width method noise b fwhm cdelt (im :: images) = Err ValueError.
Proof.
  intros F M L. assert (Lp : (length (pixels (minus_noise noise im)) < 200)%nat) by (rewrite pixels_length; exact L).
  apply first_error; [destruct M as [-> | ->]; cbn; auto|]. unfold axis_widths. destruct M as [-> | ->]; cbn [String.eqb Ascii.eqb Bool.eqb]; rewrite small_spline by assumption; reflexivity.
Qed.

(** Sorted values *)
Inductive nondec : list R -> Prop := nd0 : nondec [] | nd1 a l : (forall x, In x l -> a <= x) -> nondec l -> nondec (a :: l).
Lemma ins_nondec p l : nondec (map fst l) -> nondec (map fst (ins p l)).
Proof.
  induction l as [|h t IH]; intro H; [repeat constructor; contradiction|]. inversion H as [|? ? A B]; subst. cbn [ins]. destruct (Rleb_spec (fst p) (fst h)) as [L|L].
  - cbn [map]. constructor; [|exact H]. intros x [<-|Hx]; [exact L|]. apply Rle_trans with (fst h); [exact L|apply A, Hx].
  - cbn [map]. constructor; [|apply IH, B]. intros x Hx. apply (Permutation_in _ (Permutation_map fst (ins_perm p t))) in Hx. destruct Hx as [<-|Hx]; [lra|apply A, Hx].
Qed.
Lemma sorted_nondec l : nondec (map fst (sorted_knots l)).
Proof. induction l as [|h t IH]; [constructor|]. apply ins_nondec, IH. Qed.
Lemma nondec_split v l : nondec l -> l = filter (fun x => Rltb x v) l ++ filter (fun x => Reqb x v) l ++ filter (fun x => Rltb v x) l.
Proof.
  induction 1 as [|a l A N IH]; [reflexivity|]. cbn [filter].
  assert (no_lt : v <= a -> filter (fun x => Rltb x v) l = []). { intro V. clear -A V. induction l as [|x l IH]; [reflexivity|]. cbn. destruct (Rltb_spec x v); [pose proof (A x (or_introl eq_refl)); lra|]. apply IH. intros y Hy. apply A. now right. }
  assert (no_eq : v < a -> filter (fun x => Reqb x v) l = []). { intro V. clear -A V. induction l as [|x l IH]; [reflexivity|]. cbn. destruct (Reqb_spec x v); [pose proof (A x (or_introl eq_refl)); lra|]. apply IH. intros y Hy. apply A. now right. }
  destruct (Rltb_spec a v) as [L|L].
  - destruct (Reqb_spec a v); [lra|]. destruct (Rltb_spec v a); [lra|]. cbn [app]. f_equal. exact IH.
  - rewrite no_lt in * by lra. cbn [app] in *. destruct (Reqb_spec a v) as [Q|Q].
    + destruct (Rltb_spec v a); [lra|]. cbn [app]. f_equal. exact IH.
    + rewrite no_eq in * by lra. destruct (Rltb_spec v a) as [U|U]; [|lra]. cbn [app] in *. f_equal. exact IH.
Qed.
Lemma eq_block v l i : let lt := length (filter (fun x => Rltb x v) l) in let eq := length (filter (fun x => Reqb x v) l) in
  nondec l -> (lt <= i < lt + eq)%nat -> nth i l 0 = v.
Proof.
  intros lt eq N H. rewrite (nondec_split v l N). rewrite app_nth2 by (fold lt; lia). rewrite app_nth1 by (fold lt eq; lia). fold lt.
  assert (I : In (nth (i - lt) (filter (fun x => Reqb x v) l) 0) (filter (fun x => Reqb x v) l)) by (apply nth_In; fold eq; lia). apply filter_In in I. destruct I as [_ I]. destruct (Reqb_spec (nth (i - lt) (filter (fun x => Reqb x v) l) 0) v) as [E|E]; [exact E|discriminate].
Qed.
Lemma increasing_nth l : increasing l -> forall i j, (i < j < length l)%nat -> nth i l 0 < nth j l 0.
Proof.
  induction l as [|a l IH]; intros H i j L; [cbn in L; lia|]. destruct l as [|b l]; [cbn in L; lia|]. destruct H as [H1 H2].
  destruct j as [|j]; [lia|]. destruct i as [|i].
  - change (a < nth j (b :: l) 0). destruct j as [|j]; [exact H1|]. apply Rlt_trans with b; [exact H1|]. apply (IH H2 0%nat (S j)). cbn in L |- *. lia.
  - apply (IH H2 i j). cbn in L |- *. lia.
Qed.
Lemma filter_two {A} (P : A -> bool) (l : list A) (d : A) i j : (i < j < length l)%nat -> P (nth i l d) = true -> P (nth j l d) = true ->
  exists a b, (a < b < length (filter P l))%nat /\ nth a (filter P l) d = nth i l d /\ nth b (filter P l) d = nth j l d.
Proof.
  revert i j. induction l as [|h t IH]; intros i j L Pi Pj; [cbn in L; lia|]. cbn in L. destruct j as [|j]; [lia|]. destruct i as [|i]; cbn [nth] in *.
  - cbn [filter]. rewrite Pi. assert (I : In (nth j t d) (filter P t)) by (apply filter_In; split; [apply nth_In; lia|exact Pj]). apply (In_nth _ _ d) in I. destruct I as (b & Lb & E). exists 0%nat, (S b). cbn [length nth]. repeat split; [lia|lia|exact E].
  - destruct (IH i j ltac:(lia) Pi Pj) as (a & b & Lab & Ea & Eb). cbn [filter]. destruct (P h); [exists (S a), (S b); cbn [length nth]; repeat split; [lia|lia|exact Ea|exact Eb]|exists a, b; auto].
Qed.
Lemma multiple_above d m : (0 < d)%nat -> exists k, (m <= k * d < m + d)%nat.
Proof.
  intro H. destruct (Nat.eq_dec (m mod d) 0) as [E|E].
  - exists (m / d)%nat. pose proof (Nat.div_mod m d ltac:(lia)). lia.
  - exists (S (m / d)). pose proof (Nat.div_mod m d ltac:(lia)). pose proof (Nat.mod_upper_bound m d ltac:(lia)). lia.
Qed.
Lemma tied_knots v z t : nondec z -> knots z = Ok t ->
  (length z / 100 <= length (filter (fun x => Rltb x v) z))%nat -> (2 * (length z / 100) <= length (filter (fun x => Reqb x v) z))%nat -> (length z / 100 <= length (filter (fun x => Rltb v x) z))%nat -> ~ increasing t.
Proof.
  intros N. unfold knots. set (d := (length z / 100)%nat). destruct (Nat.eqb_spec d 0) as [E|E]; [discriminate|]. intros H A B C. apply Ok_inj in H. subst t. intro I.
  set (lt := length (filter (fun x => Rltb x v) z)) in *. set (eq := length (filter (fun x => Reqb x v) z)) in *. set (gt := length (filter (fun x => Rltb v x) z)) in *.
  assert (T : length z = (lt + eq + gt)%nat). { rewrite (nondec_split v z N) at 1. rewrite !app_length. fold lt eq gt. lia. }
  destruct (multiple_above d lt ltac:(lia)) as [k [K1 K2]]. set (P := fun i => Nat.leb d i && Nat.ltb i (length z - d) && Nat.eqb (i mod d) 0) in *.
  assert (Pk : forall i, (lt <= i < lt + eq)%nat -> (exists q, i = q * d)%nat -> P i = true).
  { intros i Hi [q Hq]. unfold P. rewrite (proj2 (Nat.leb_le d i)) by lia. rewrite (proj2 (Nat.ltb_lt i (length z - d))) by lia. rewrite Hq, Nat.mod_mul by lia. reflexivity. }
  destruct (filter_two P (seq 0 (length z)) 0%nat (k * d) (S k * d)) as (a & b & Lab & Ea & Eb).
  - rewrite seq_length. lia.
  - rewrite seq_nth by lia. cbn [Nat.add]. apply Pk; [lia|]. now exists k.
  - rewrite seq_nth by lia. cbn [Nat.add]. apply Pk; [lia|]. now exists (S k).
  - rewrite seq_nth in Ea, Eb by lia. cbn [Nat.add] in Ea, Eb. pose proof (increasing_nth _ I a b) as X. rewrite map_length in X. specialize (X Lab).
    rewrite !(nth_indep (map _ _) 0 (nth 0%nat z 0)) in X by (rewrite map_length; lia). rewrite !(map_nth (fun i => nth i z 0)) in X. rewrite Ea, Eb in X. rewrite !(eq_block v z) in X by (exact N || (fold lt eq; lia)). lra.
Qed.
Lemma filter_map_length {A B} (f : A -> B) (P : B -> bool) l : length (filter P (map f l)) = length (filter (fun a => P (f a)) l).
Proof. induction l as [|a l IH]; [reflexivity|]. cbn. destruct (P (f a)); cbn [length]; now rewrite IH. Qed.
Lemma perm_filter {A} (P : A -> bool) l l' : Permutation l l' -> Permutation (filter P l) (filter P l').
Proof. induction 1 as [|x l l' H IH|x y l|l l' l'' H1 IH1 H2 IH2]; cbn; [constructor| | |now rewrite IH1]. - destruct (P x); [now constructor|exact IH]. - destruct (P x), (P y); try reflexivity. apply perm_swap. Qed.
Lemma filter_len_ext {A} (P Q : A -> bool) l : (forall a, P a = Q a) -> length (filter P l) = length (filter Q l).
Proof. intro H. induction l as [|a l IH]; [reflexivity|]. cbn. rewrite H. destruct (Q a); cbn [length]; now rewrite IH. Qed.
Lemma ltb_div a b m : 0 < m -> Rltb (a / m) (b / m) = Rltb a b.
Proof.
  intro M. assert (K : forall x y, x < y <-> x / m < y / m). { intros x y. unfold Rdiv. split; intro H; [apply Rmult_lt_compat_r; [now apply Rinv_0_lt_compat|exact H]|]. apply Rmult_lt_reg_r with (/ m); [now apply Rinv_0_lt_compat|exact H]. }
  destruct (Rltb_spec a b) as [L|L], (Rltb_spec (a / m) (b / m)) as [U|U]; try reflexivity; rewrite K in L; contradiction.
Qed.
Lemma eqb_div a b m : 0 < m -> Reqb (a / m) (b / m) = Reqb a b.
Proof.
  intro M. assert (K : forall x y, x / m = y / m -> x = y). { intros x y H. apply (Rmult_eq_reg_r (/ m)); [exact H|]. apply Rinv_neq_0_compat. lra. }
  destruct (Reqb_spec a b) as [L|L], (Reqb_spec (a / m) (b / m)) as [U|U]; try reflexivity; [subst; contradiction|apply K in U; contradiction].
Qed.
Lemma tied_spline v radius px : fitpack spline -> 0 < amax (map snd px) ->
  (length px / 100 <= count (fun x => Rltb x v) px)%nat -> (2 * (length px / 100) <= count (fun x => Reqb x v) px)%nat -> (length px / 100 <= count (Rltb v) px)%nat ->
  spline_width spline radius px = Err ValueError.
Proof.
  intros F T A B C. unfold spline_width. set (top := amax (map snd px)) in *. set (raw := map (fun p : pixel => (snd p / top, radius (fst (fst p)) (snd (fst p)))) px). set (pts := sorted_knots raw).
  assert (N : length (map fst pts) = length px). { rewrite map_length. unfold pts. rewrite (Permutation_length (sorted_perm _)). unfold raw. apply map_length. }
  assert (L : forall P, length (filter P (map fst pts)) = length (filter (fun p : pixel => P (snd p / top)) px)).
  { intro P. rewrite filter_map_length. unfold pts. rewrite (Permutation_length (perm_filter _ _ _ (sorted_perm raw))). unfold raw. rewrite filter_map_length. reflexivity. }
  destruct (knots (map fst pts)) as [t|e] eqn:K; cbn [bind].
  - rewrite F; [reflexivity|]. right. apply (tied_knots (v / top) (map fst pts) t); [apply sorted_nondec|exact K| | |]; rewrite N, L; unfold count in *.
    + rewrite (filter_len_ext _ (fun p : pixel => Rltb (snd p) v)); [exact A|]. intro p. apply ltb_div, T.
    + rewrite (filter_len_ext _ (fun p : pixel => Reqb (snd p) v)); [exact B|]. intro p. apply eqb_div, T.
    + rewrite (filter_len_ext _ (fun p : pixel => Rltb v (snd p))); [exact C|]. intro p. apply ltb_div, T.
  - unfold knots in K. destruct (Nat.eqb _ 0); [now injection K as <-|discriminate].
Qed.
Lemma tied_images method noise b fwhm cdelt im images v : fitpack spline -> method = "interpolate"%string \/ method = "xinterpolate"%string ->
  let px := pixels (minus_noise noise im) in let dz := (i_n0 im * i_n1 im / 100)%nat in 0 < amax (map snd px) ->
  (dz <= count (fun x => Rltb x v) px)%nat -> (2 * dz <= count (fun x => Reqb x v) px)%nat -> (dz <= count (Rltb v) px)%nat ->
  width method noise b fwhm cdelt (im :: images) = Err ValueError.
Proof.
  intros F M px dz T A B C. assert (Lp : length px = (i_n0 im * i_n1 im)%nat) by (unfold px; rewrite pixels_length; reflexivity). unfold dz in *. rewrite <- Lp in A, B, C.
  apply first_error; [destruct M as [-> | ->]; cbn; auto|]. fold px. unfold axis_widths. destruct M as [-> | ->]; cbn [String.eqb Ascii.eqb Bool.eqb]; rewrite (tied_spline v) by assumption; reflexivity.
Qed.
End Fit.
