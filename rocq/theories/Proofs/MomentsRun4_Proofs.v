(** The distance of two lists of moments: common bins, histograms, Hellinger distance. *)
From Coq Require Import Reals List Bool ZArith Arith Lra Lia Permutation.
From Verif Require Import Lib.PyBase Lib.RSum Lib.Fl Lib.Arr Lib.Hist Spec.Bins Spec.Blank Spec.Distrib Model.Units Model.StatsUtils Model.StatMoments Model.MomentsRun Spec.MomentsRun Proofs.Fl_Proofs Proofs.Hist_Proofs Proofs.Moments_Proofs Proofs.Moments2_Proofs Proofs.PdfDistance3_Proofs.
Import ListNotations.
Local Open Scope R_scope.

Definition edges_of (l1 l2 : list fl) (nb : nat) : result mbins :=
  b <- common_histogram_bins 1 1 l1 l2 (Some nb) false None None ;; Ok (match b with Some (e, _) => Bins (Edges e) | None => BlankEdges nb end).
Definition list_hist (l : list fl) (b : mbins) : result hist :=
  match b with
  | BlankEdges n => Ok (repeat NaN (n - 1), repeat NaN (n - 1))
  | Bins b => h <- spatial_histogram l (Some b) None ;; Ok (map Fin (fst h), snd h)
  end.
Definition pair_value (l1 l2 : list fl) (nb : nat) : result fl :=
  e <- edges_of l1 l2 nb ;; a <- list_hist l1 e ;; b <- list_hist l2 e ;; compare (Some a) (Some b).

(** ** Only the numbers count *)
Lemma nonnan_fins l : Forall blankable l -> nonnan l = map Fin (fins l).
Proof. intros H. induction H as [|a l A H IH]; [reflexivity|]. destruct a as [x| | |]; try contradiction; unfold nonnan, fins in *; cbn; [now rewrite IH|exact IH]. Qed.
Definition range_of (x1 x2 : list R) : option (R * R) :=
  match fmin2 (nanmin (map Fin x1)) (nanmin (map Fin x2)), fmax2 (nanmax (map Fin x1)) (nanmax (map Fin x2)) with Fin a, Fin b => Some (a, b) | _, _ => None end.
Lemma nanmin_fins l : Forall blankable l -> nanmin l = nanmin (map Fin (fins l)).
Proof. intros H. unfold nanmin. rewrite nonnan_fins by exact H. rewrite nonnan_fins by apply blankable_map_Fin. now rewrite fins_map_Fin. Qed.
Lemma nanmax_fins l : Forall blankable l -> nanmax l = nanmax (map Fin (fins l)).
Proof. intros H. unfold nanmax. rewrite nonnan_fins by exact H. rewrite nonnan_fins by apply blankable_map_Fin. now rewrite fins_map_Fin. Qed.
Lemma edges_fins l1 l2 nb : Forall blankable l1 -> Forall blankable l2 ->
  edges_of l1 l2 nb = Ok (match range_of (fins l1) (fins l2) with Some (a, b) => Bins (Edges (linspace a b nb)) | None => BlankEdges nb end).
Proof.
  intros H1 H2. unfold edges_of, common_histogram_bins. cbn [Nat.ltb Nat.leb orb]. cbv zeta. rewrite (nanmin_fins l1), (nanmin_fins l2), (nanmax_fins l1), (nanmax_fins l2) by assumption.
  unfold range_of. destruct (fmin2 _ _); try reflexivity; destruct (fmax2 _ _); reflexivity.
Qed.
Lemma list_hist_edges l e : nondecreasing e = true -> Forall blankable l -> list_hist l (Bins (Edges e)) = Ok (map Fin (mid e), density (fins l) e).
Proof.
  intros H B. unfold list_hist, spatial_histogram, histogram_fl. rewrite nonnan_fins by exact B. rewrite fins_map_Fin. unfold histogram, bin_edges. rewrite H. reflexivity.
Qed.

(** ** The range of two lists *)
Lemma min_real l : l <> [] -> exists m, nanmin (map Fin l) = Fin m /\ is_min m l.
Proof. intros N. destruct (nanmin_spec (map Fin l)) as (m & E & M); [apply blankable_map_Fin|now rewrite fins_map_Fin|]. rewrite fins_map_Fin in M. eauto. Qed.
Lemma max_real l : l <> [] -> exists m, nanmax (map Fin l) = Fin m /\ is_max m l.
Proof. intros N. destruct (nanmax_spec (map Fin l)) as (m & E & M); [apply blankable_map_Fin|now rewrite fins_map_Fin|]. rewrite fins_map_Fin in M. eauto. Qed.
Lemma fmin_fin a b : fmin2 (Fin a) (Fin b) = Fin (Rmin a b).
Proof. unfold fmin2. cbn [fltb]. destruct (Rltb_spec b a); f_equal; [rewrite Rmin_right by lra|rewrite Rmin_left by lra]; reflexivity. Qed.
Lemma fmax_fin a b : fmax2 (Fin a) (Fin b) = Fin (Rmax a b).
Proof. unfold fmax2. cbn [fltb]. destruct (Rltb_spec a b); f_equal; [rewrite Rmax_right by lra|rewrite Rmax_left by lra]; reflexivity. Qed.
Lemma range_both x1 x2 : x1 <> [] -> x2 <> [] -> exists lo hi, range_of x1 x2 = Some (lo, hi) /\ is_min lo (x1 ++ x2) /\ is_max hi (x1 ++ x2).
Proof.
  intros N1 N2. destruct (min_real x1 N1) as (m1 & A1 & I1 & M1), (min_real x2 N2) as (m2 & A2 & I2 & M2), (max_real x1 N1) as (y1 & B1 & J1 & Y1), (max_real x2 N2) as (y2 & B2 & J2 & Y2).
  unfold range_of. rewrite A1, A2, B1, B2, fmin_fin, fmax_fin. exists (Rmin m1 m2), (Rmax y1 y2). split; [reflexivity|]. split; split.
  - apply in_app_iff. unfold Rmin. destruct (Rle_dec m1 m2); auto.
  - intros z Hz. apply in_app_iff in Hz. destruct Hz as [Hz|Hz]; [apply M1 in Hz; pose proof (Rmin_l m1 m2)|apply M2 in Hz; pose proof (Rmin_r m1 m2)]; lra.
  - apply in_app_iff. unfold Rmax. destruct (Rle_dec y1 y2); auto.
  - intros z Hz. apply in_app_iff in Hz. destruct Hz as [Hz|Hz]; [apply Y1 in Hz; pose proof (Rmax_l y1 y2)|apply Y2 in Hz; pose proof (Rmax_r y1 y2)]; lra.
Qed.
Lemma range_first x1 : x1 <> [] -> exists lo hi, range_of x1 [] = Some (lo, hi) /\ is_min lo x1 /\ is_max hi x1.
Proof.
  intros N1. destruct (min_real x1 N1) as (m1 & A1 & I1 & M1), (max_real x1 N1) as (y1 & B1 & J1 & Y1). unfold range_of. rewrite A1, B1. cbn. exists m1, y1. repeat split; auto.
Qed.
Lemma range_none x2 : range_of [] x2 = None.
Proof. unfold range_of. cbn. destruct (nanmin (map Fin x2)); reflexivity. Qed.
Lemma min_unique a b l : is_min a l -> is_min b l -> a = b.
Proof. intros [I A] [J B]. apply Rle_antisym; auto. Qed.
Lemma max_unique a b l : is_max a l -> is_max b l -> a = b.
Proof. intros [I A] [J B]. apply Rle_antisym; auto. Qed.
Lemma range_perm x1 x2 y1 y2 : Permutation x1 y1 -> Permutation x2 y2 -> range_of x1 x2 = range_of y1 y2.
Proof.
  assert (Z : forall l l', Permutation l l' -> nanmin (map Fin l) = nanmin (map Fin l') /\ nanmax (map Fin l) = nanmax (map Fin l')).
  { intros l l' P. destruct l as [|a l]; [apply Permutation_nil in P; subst; auto|]. assert (N : a :: l <> []) by discriminate. assert (N' : l' <> []) by (intros ->; symmetry in P; apply Permutation_nil in P; discriminate).
    split.
    - destruct (min_real _ N) as (m & -> & I & M), (min_real _ N') as (m' & -> & I' & M'). f_equal. apply Rle_antisym; [apply M; now apply (Permutation_in _ (Permutation_sym P))|apply M'; now apply (Permutation_in _ P)].
    - destruct (max_real _ N) as (m & -> & I & M), (max_real _ N') as (m' & -> & I' & M'). f_equal. apply Rle_antisym; [apply M'; now apply (Permutation_in _ P)|apply M; now apply (Permutation_in _ (Permutation_sym P))]. }
  intros P Q. destruct (Z _ _ P) as [A B]. destruct (Z _ _ Q) as [C D]. unfold range_of. now rewrite A, B, C, D.
Qed.

(** ** Edges *)
Lemma linspace_nondec lo hi nb : lo <= hi -> nondecreasing (linspace lo hi nb) = true.
Proof.
  intros H. destruct nb as [|[|nb]]; [reflexivity|reflexivity|]. unfold linspace, tab1. generalize 0%nat. generalize (S (S nb)). intros n. assert (D : 0 <= (hi - lo) / INR (S nb)).
  { apply Rmult_le_pos; [lra|]. left. apply Rinv_0_lt_compat, lt_0_INR. lia. }
  induction n as [|n IH]; intros s; [reflexivity|]. cbn [seq map]. destruct n as [|n]; [reflexivity|]. specialize (IH (S s)). cbn [seq map] in IH |- *. cbn [nondecreasing]. rewrite (S_INR s).
  match goal with |- Rleb ?a ?b && _ = true => destruct (Rleb_spec a b) as [L|L]; [|exfalso; lra] end. cbn [andb]. rewrite <- (S_INR s). exact IH.
Qed.
Lemma range_le x1 x2 a b : range_of x1 x2 = Some (a, b) -> a <= b.
Proof.
  intros E. destruct x1 as [|x x1]; [rewrite range_none in E; discriminate|]. destruct x2 as [|y x2].
  - destruct (range_first (x :: x1)) as (lo & hi & E' & M & X); [discriminate|]. rewrite E in E'. inversion E'; subst. destruct M as [_ M]. apply M. apply X.
  - destruct (range_both (x :: x1) (y :: x2)) as (lo & hi & E' & M & X); [discriminate|discriminate|]. rewrite E in E'. inversion E'; subst. destruct M as [_ M]. apply M. apply X.
Qed.
Lemma pair_fins l1 l2 nb : Forall blankable l1 -> Forall blankable l2 -> pair_value l1 l2 nb =
  match range_of (fins l1) (fins l2) with
  | Some (a, b) => let e := linspace a b nb in compare (Some (map Fin (mid e), density (fins l1) e)) (Some (map Fin (mid e), density (fins l2) e))
  | None => compare (Some (repeat NaN (nb - 1), repeat NaN (nb - 1))) (Some (repeat NaN (nb - 1), repeat NaN (nb - 1)))
  end.
Proof.
  intros H1 H2. unfold pair_value. rewrite edges_fins by assumption. cbn [bind]. destruct (range_of (fins l1) (fins l2)) as [[a b]|] eqn:E; [|reflexivity].
  pose proof (range_le _ _ _ _ E) as L. rewrite !list_hist_edges by (try assumption; now apply linspace_nondec). reflexivity.
Qed.
Lemma lin_length a b n : length (linspace a b n) = n.
Proof. unfold linspace. destruct n as [|n]; [reflexivity|]. destruct n as [|n]; [reflexivity|]. unfold tab1. now rewrite map_length, seq_length. Qed.
Lemma lin_nth a b n i : (2 <= n)%nat -> (i < n)%nat -> nth i (linspace a b n) 0 = a + INR i * ((b - a) / INR (n - 1)).
Proof. intros H Hi. destruct n as [|[|n]]; try lia. unfold linspace. rewrite tab1_nth by lia. replace (S (S n) - 1)%nat with (S n) by lia. reflexivity. Qed.
Lemma lin_last a b n : (2 <= n)%nat -> nth (n - 1) (linspace a b n) 0 = b.
Proof. intros H. rewrite lin_nth by lia. assert (INR (n - 1) <> 0) by (apply not_0_INR; lia). field. assumption. Qed.
Lemma lin_first a b n : (2 <= n)%nat -> nth 0 (linspace a b n) 0 = a.
Proof. intros H. rewrite lin_nth by lia. cbn [INR]. lra. Qed.
Lemma lin_increasing a b n : a < b -> increasing (linspace a b n).
Proof.
  intros H i j Hij. rewrite lin_length in Hij. rewrite !lin_nth by lia. assert (D : 0 < (b - a) / INR (n - 1)) by (apply Rdiv_lt_0_compat; [lra|apply lt_0_INR; lia]).
  assert (INR i < INR j) by (apply lt_INR; lia). nra.
Qed.
Lemma mid_two a b nb : (3 <= nb)%nat -> exists c0 c1 r, mid (linspace a b nb) = c0 :: c1 :: r /\ c1 - c0 = (b - a) / INR (nb - 1).
Proof.
  intros H. unfold mid. rewrite lin_length. destruct (nb - 1)%nat as [|[|k]] eqn:E; try lia. unfold tab1. cbn [seq map]. do 3 eexists. split; [reflexivity|].
  rewrite !lin_nth by lia. rewrite E. set (D := (b - a) / _). clearbody D. cbn [INR]. lra.
Qed.
