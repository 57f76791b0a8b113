(** Proofs that some statistics do not see the order of channels or pixels. *)
From Coq Require Import Reals List Arith Lra Lia Permutation String.
From Coquelicot Require Import Complex.
From Coq Require Import List.
From Verif Require Import Lib.PyBase Lib.RSum Lib.Arr Lib.Fl Lib.DFT Lib.DFT2 Lib.DFT3 Lib.PySlice Model.Psds Model.Scf Model.Pca Spec.Orders Spec.Covariance.
From Verif Require Import Model.RfftToFft Model.StatsUtils Proofs.Fl_Proofs Proofs.RfftToFft_Proofs Proofs.Psds_Proofs Proofs.Psds2_Proofs Proofs.Psds3_Proofs Proofs.Cov_Proofs.
Import ListNotations.
Local Open Scope R_scope.

(** ** Sums in another order *)
Lemma rsum_reorders n p f : reorders p n -> rsum n (fun i => f (p i)) = rsum n f.
Proof. intros P. rewrite !rsum_lsum, <- (map_map p f). apply lsum_perm, Permutation_map, P. Qed.
Lemma rsum2_pairs ny nx (f : nat * nat -> R) : rsum ny (fun y => rsum nx (fun x => f (y, x))) = lsum (map f (list_prod (seq 0 ny) (seq 0 nx))).
Proof.
  rewrite rsum_lsum. induction (seq 0 ny) as [|y l IH]; [reflexivity|]. cbn [map list_prod]. rewrite map_app, lsum_app, <- IH, map_map.
  unfold lsum at 1. cbn [fold_right]. fold (lsum (map (fun y => rsum nx (fun x => f (y, x))) l)). now rewrite rsum_lsum.
Qed.
Lemma rsum2_rearranges ny nx q f : rearranges q ny nx -> rsum ny (fun y => rsum nx (fun x => f (q (y, x)))) = rsum ny (fun y => rsum nx (fun x => f (y, x))).
Proof.
  intros Q. rewrite (rsum2_pairs ny nx (fun p => f (q p))), rsum2_pairs, <- (map_map q f). apply lsum_perm, Permutation_map, Q.
Qed.
Lemma reorders_lt p n i : reorders p n -> (i < n)%nat -> (p i < n)%nat.
Proof. intros P I. assert (H : In (p i) (seq 0 n)) by (eapply Permutation_in; [exact P|apply in_map, in_seq; lia]). apply in_seq in H. lia. Qed.
Lemma rearranges_in q ny nx y x : rearranges q ny nx -> (y < ny)%nat -> (x < nx)%nat -> (fst (q (y, x)) < ny)%nat /\ (snd (q (y, x)) < nx)%nat.
Proof.
  intros Q Y X. assert (H : In (q (y, x)) (list_prod (seq 0 ny) (seq 0 nx))).
  { eapply Permutation_in; [exact Q|]. apply in_map. apply in_prod; apply in_seq; lia. }
  destruct (q (y, x)) as [a b]. apply in_prod_iff in H. rewrite !in_seq in H. cbn. lia.
Qed.
Lemma existsb_perm {A} (f : A -> bool) l l' : Permutation l l' -> existsb f l = existsb f l'.
Proof. induction 1; cbn; try congruence; destruct (f x), (f y); reflexivity. Qed.
Lemma filter_perm {A} (f : A -> bool) l l' : Permutation l l' -> Permutation (filter f l) (filter f l').
Proof.
  induction 1; cbn; try reflexivity.
  - destruct (f x); [now constructor|assumption].
  - destruct (f x), (f y); try reflexivity. constructor.
  - now transitivity (filter f l').
Qed.
Lemma filter_map {A B} (g : A -> B) (f : B -> bool) l : filter f (map g l) = map g (filter (fun a => f (g a)) l).
Proof. induction l as [|a l IH]; [reflexivity|]. cbn. rewrite IH. destruct (f (g a)); reflexivity. Qed.
Lemma existsb_map {A B} (g : A -> B) (f : B -> bool) l : existsb f (map g l) = existsb (fun a => f (g a)) l.
Proof. induction l as [|a l IH]; [reflexivity|]. cbn. now rewrite IH. Qed.

(** ** VCA *)
Lemma vca_tab nz ny nx a : (1 <= nz)%nat -> (1 <= ny)%nat -> (1 <= nx)%nat ->
  exists g, forall b, vca_ps2D nz ny nx b = tab2 ny nx (g b) /\ (b = a -> True).
Proof.
  intros Hz Hy Hx. eexists. intros b. split; [|trivial]. unfold vca_ps2D. rewrite rfft_3d by lia. rewrite fftshift3_tab.
  assert (E : forall g : nat -> nat -> nat -> R, map (map (map (fun v => v * v))) (tab3 nz ny nx g) = tab3 nz ny nx (fun k i j => g k i j * g k i j)).
  { intros g. unfold tab3, tab2, tab1. rewrite map_map. apply map_ext. intros. rewrite map_map. apply map_ext. intros. rewrite map_map. reflexivity. }
  rewrite E. unfold sum_axis0. rewrite flip2_tab. reflexivity.
Qed.
Lemma vca_eq nz ny nx a b : (1 <= nz)%nat -> (1 <= ny)%nat -> (1 <= nx)%nat ->
  (forall i j, (i < ny)%nat -> (j < nx)%nat -> at2 0 (vca_ps2D nz ny nx a) i j = at2 0 (vca_ps2D nz ny nx b) i j) -> vca_ps2D nz ny nx a = vca_ps2D nz ny nx b.
Proof.
  intros Hz Hy Hx H. destruct (vca_tab nz ny nx a Hz Hy Hx) as [g G]. destruct (G a) as [A _]. destruct (G b) as [B _]. rewrite A, B in *.
  apply tab2_ext. intros i j I J. specialize (H i j I J). now rewrite !at2_tab in H by assumption.
Qed.
Lemma vca_channels nz ny nx p cube : (1 <= nz)%nat -> (1 <= ny)%nat -> (1 <= nx)%nat -> reorders p nz ->
  vca_ps2D nz ny nx (channels p cube) = vca_ps2D nz ny nx cube.
Proof.
  intros Hz Hy Hx P. apply vca_eq; try assumption. intros i j I J. rewrite !vca_ps2D_at by assumption. f_equal.
  exact (rsum_reorders nz p (fun z => Cnorm2 (dft2 ny nx (fun y x => RtoC (cube z y x)) (unshift ny (ny - 1 - i)) (unshift nx j))) P).
Qed.

(** ** VCS *)
Lemma good_spectra nz ny nx q cube : rearranges q ny nx -> vcs_good nz ny nx (spectra q cube) = vcs_good nz ny nx cube.
Proof.
  intros Q. unfold vcs_good.
  replace (existsb (fun z => existsb (fun p => is_nan (spectra q cube z (fst p) (snd p))) (pixels ny nx)) (seq 0 nz))
    with (existsb (fun z => existsb (fun p => is_nan (cube z (fst p) (snd p))) (pixels ny nx)) (seq 0 nz)).
  - destruct (existsb _ (seq 0 nz)); [|reflexivity].
    transitivity (List.length (filter (fun p => negb (Reqb (max_upto (nz - 1) (fun z => clean3 cube z (fst p) (snd p))) 0)) (map q (pixels ny nx)))).
    + rewrite filter_map, map_length. f_equal. apply filter_ext. intros [y x]. reflexivity.
    + apply Permutation_length, filter_perm, Q.
  - induction (seq 0 nz) as [|z l IH]; [reflexivity|]. cbn [existsb]. rewrite IH. f_equal.
    rewrite <- (existsb_perm _ _ _ Q), existsb_map. fold (pixels ny nx). clear IH. induction (pixels ny nx) as [|[y x] r IHr]; [reflexivity|]. cbn [existsb]. rewrite IHr. reflexivity.
Qed.
Lemma vcs_total nz ny nx cube kz planes : (1 <= nz)%nat -> (1 <= ny)%nat -> (1 <= nx)%nat -> (kz < nz)%nat ->
  rfft_to_fft (Real3 nz ny nx (clean3 cube)) false = Ok (Abs3 planes) ->
  rsum ny (fun y => rsum nx (fun x => at3 0 planes kz y x * at3 0 planes kz y x)) =
  INR ny * INR nx * rsum ny (fun y => rsum nx (fun x => Cnorm2 (dft1 nz (fun z => RtoC (clean3 cube z y x)) kz))).
Proof.
  intros Hz Hy Hx Hk E. rewrite rfft_3d in E by lia. injection E as <-.
  rewrite rsum_ext with (g := fun y => rsum nx (fun x => Cnorm2 (dft3 nz ny nx (fun z y x => RtoC (clean3 cube z y x)) kz y x))).
  2:{ intros y Hy'. apply rsum_ext. intros x Hx'. rewrite at3_tab by auto. apply Cmod_sqr. }
  rewrite rsum_ext with (g := fun y => rsum nx (fun x => Cnorm2 (dft2 ny nx (fun y x => dft1 nz (fun z => RtoC (clean3 cube z y x)) kz) y x))).
  2:{ intros y Hy'. apply rsum_ext. intros x Hx'. now rewrite dft3_yx. }
  now rewrite parseval2.
Qed.
Lemma vcs_spectra nz ny nx q cube : (1 <= nz)%nat -> (1 <= ny)%nat -> (1 <= nx)%nat -> rearranges q ny nx ->
  vcs_ps1D nz ny nx (spectra q cube) = vcs_ps1D nz ny nx cube.
Proof.
  intros Hz Hy Hx Q. unfold vcs_ps1D.
  destruct (rfft_to_fft (Real3 nz ny nx (clean3 (spectra q cube))) false) as [o1|] eqn:E1; [|rewrite rfft_3d in E1 by lia; discriminate].
  destruct (rfft_to_fft (Real3 nz ny nx (clean3 cube)) false) as [o2|] eqn:E2; [|rewrite rfft_3d in E2 by lia; discriminate].
  assert (A : exists l, o1 = Abs3 l) by (rewrite rfft_3d in E1 by lia; injection E1 as <-; eexists; reflexivity).
  assert (B : exists l, o2 = Abs3 l) by (rewrite rfft_3d in E2 by lia; injection E2 as <-; eexists; reflexivity).
  destruct A as [p1 ->]. destruct B as [p2 ->]. apply tab1_ext. intros kz Hk.
  rewrite good_spectra by exact Q. do 2 f_equal. rewrite (vcs_total nz ny nx (spectra q cube) kz p1), (vcs_total nz ny nx cube kz p2) by assumption. f_equal.
  exact (rsum2_rearranges ny nx q (fun p => Cnorm2 (dft1 nz (fun z => RtoC (clean3 cube z (fst p) (snd p))) kz)) Q).
Qed.

(** ** SCF *)
Lemma fadd_comm a b : fadd a b = fadd b a.
Proof. destruct a, b; cbn; try reflexivity. f_equal. lra. Qed.
Lemma fadd_assoc a b c : fadd a (fadd b c) = fadd (fadd a b) c.
Proof. destruct a, b, c; cbn; try reflexivity. f_equal. lra. Qed.
Lemma fsum_perm l l' : Permutation l l' -> fsum l = fsum l'.
Proof.
  induction 1 as [|x l l' _ IH|x y l|l l' l'' _ IH1 _ IH2]; unfold fsum in *; cbn [fold_right]; [reflexivity|now rewrite IH| |congruence].
  rewrite !fadd_assoc. now rewrite (fadd_comm y x).
Qed.
Lemma nansum_perm l l' : Permutation l l' -> nansum l = nansum l'.
Proof. intros P. apply fsum_perm. now apply filter_perm. Qed.
Lemma nansum_reorders n p f : reorders p n -> nansum (tab1 n (fun i => f (p i))) = nansum (tab1 n f).
Proof. intros P. apply nansum_perm. unfold tab1. rewrite <- (map_map p f). apply Permutation_map, P. Qed.
Lemma pair_channels nz p d t : reorders p nz -> pair_value nz (fun z => d (p z)) (fun z => t (p z)) = pair_value nz d t.
Proof.
  intros P. unfold pair_value. rewrite (nansum_reorders nz p (fun z => fsqr (fsub (d z) (t z))) P).
  rewrite (nansum_reorders nz p (fun z => fsqr (d z)) P), (nansum_reorders nz p (fun z => fsqr (t z)) P). reflexivity.
Qed.
Lemma scf_value_channels nz ny nx p cube b x_shift y_shift : reorders p nz ->
  scf_value nz ny nx (channels p cube) b x_shift y_shift = scf_value nz ny nx cube b x_shift y_shift.
Proof.
  intros P. unfold scf_value. destruct (if String.eqb b "cut" then _ else _) as [dy ty]. destruct (if String.eqb b "cut" then (cut_data nx y_shift, cut_tmp nx y_shift) else _) as [dx tx].
  destruct (negb _); [reflexivity|].
  replace (map _ (combine (list_prod dy dx) (list_prod ty tx))) with
    (map (fun pq => let '((yd, xd), (yt, xt)) := pq in pair_value nz (fun z => cube z yd xd) (fun z => shifted ny nx cube x_shift y_shift z yt xt)) (combine (list_prod dy dx) (list_prod ty tx))); [reflexivity|].
  apply map_ext. intros [[yd xd] [yt xt]]. symmetry.
  exact (pair_channels nz p (fun z => cube z yd xd) (fun z => shifted ny nx cube x_shift y_shift z yt xt) P).
Qed.
Lemma surface_channels nz ny nx p cube lags b : reorders p nz -> compute_surface nz ny nx (channels p cube) lags b = compute_surface nz ny nx cube lags b.
Proof.
  intros P. unfold compute_surface. destruct (negb _); [reflexivity|]. apply (f_equal (@sequence _)), map_ext. intros y. apply (f_equal (@sequence _)), map_ext. intros x. now apply scf_value_channels.
Qed.

(** ** PCA *)
Lemma nth_in_order {A} p (d d' : A) l i : (i < List.length l)%nat -> nth i (in_order p d l) d' = nth (p i) l d.
Proof.
  intros I. unfold in_order. rewrite (nth_indep _ d' (nth (p 0%nat) l d)) by (rewrite map_length, seq_length; exact I).
  rewrite (map_nth (fun i => nth (p i) l d) (seq 0 (List.length l)) 0%nat i). now rewrite seq_nth by exact I.
Qed.
Lemma in_order_length {A} p (d : A) l : List.length (in_order p d l) = List.length l.
Proof. unfold in_order. now rewrite map_length, seq_length. Qed.
Lemma list_as_seq {A} (d : A) l : map (fun i => nth i l d) (seq 0 (List.length l)) = l.
Proof.
  induction l as [|a l IH]; [reflexivity|]. cbn [List.length seq map]. f_equal. rewrite <- seq_shift, map_map. cbn [nth]. exact IH.
Qed.
Lemma in_order_perm {A} p (d : A) l : reorders p (List.length l) -> Permutation (in_order p d l) l.
Proof.
  intros P. unfold in_order. rewrite <- (map_map p (fun i => nth i l d)). transitivity (map (fun i => nth i l d) (seq 0 (List.length l))); [apply Permutation_map, P|rewrite list_as_seq; reflexivity].
Qed.
Lemma in_order_map {A B} p (d : A) (d' : B) (f : A -> B) l : reorders p (List.length l) -> map f (in_order p d l) = in_order p d' (map f l).
Proof.
  intros P. unfold in_order. rewrite map_map, map_length. apply map_ext_in. intros i I. apply in_seq in I.
  rewrite (nth_indep (map f l) d' (f d)) by (rewrite map_length; apply reorders_lt; [exact P|lia]). symmetry. apply map_nth.
Qed.
Lemma map2_seq {A B C} (f : A -> B -> C) da db l : forall m, List.length m = List.length l -> map2 f l m = map (fun i => f (nth i l da) (nth i m db)) (seq 0 (List.length l)).
Proof.
  induction l as [|a l IH]; intros [|b m] H; cbn in H; try discriminate; [reflexivity|]. cbn [map2 List.length seq map nth]. f_equal.
  rewrite (IH m) by lia. rewrite <- seq_shift, map_map. reflexivity.
Qed.
Lemma in_order_map2 p da db (f : fl -> fl -> fl) l m : reorders p (List.length l) -> List.length m = List.length l ->
  Permutation (map2 f (in_order p da l) (in_order p db m)) (map2 f l m).
Proof.
  intros P L. rewrite (map2_seq f da db l m L). rewrite (map2_seq f da db) by now rewrite !in_order_length. rewrite in_order_length.
  transitivity (map (fun i => f (nth i l da) (nth i m db)) (map p (seq 0 (List.length l)))); [|apply Permutation_map, P].
  rewrite map_map. apply Permutation_refl'. apply map_ext_in. intros i I. apply in_seq in I. rewrite !nth_in_order by lia. reflexivity.
Qed.
Lemma nanmean_perm l l' : Permutation l l' -> nanmean l = nanmean l'.
Proof.
  intros P. unfold nanmean. rewrite (nansum_perm _ _ P). pose proof (Permutation_length (filter_perm (fun v => negb (is_nan v)) _ _ P)) as L. unfold nancount, nonnan. rewrite L. reflexivity.
Qed.
Lemma sub_mean_order p d d' ms l : reorders p (List.length l) -> sub_mean ms (in_order p d l) = in_order p (if ms then d' else d) (sub_mean ms l).
Proof.
  intros P. unfold sub_mean. destruct ms; [|reflexivity]. rewrite (nanmean_perm _ _ (in_order_perm p d l P)). now apply in_order_map.
Qed.
Lemma sub_mean_length ms l : List.length (sub_mean ms l) = List.length l.
Proof. unfold sub_mean. destruct ms; [apply map_length|reflexivity]. Qed.
Lemma cov_lower_order eps ms p a b : reorders p (List.length a) -> List.length b = List.length a ->
  cov_lower eps ms (in_order p NaN a) (in_order p NaN b) = cov_lower eps ms a b.
Proof.
  intros P L. unfold cov_lower. cbv zeta. rewrite (in_order_map p NaN NaN) by exact P.
  rewrite !(sub_mean_order p NaN NaN) by (rewrite ?map_length, ?L; exact P).
  assert (Q : Permutation (map2 fmul (in_order p (if ms then NaN else NaN) (sub_mean ms (map (fun v => if is_nan v then Fin eps else v) a))) (in_order p (if ms then NaN else NaN) (sub_mean ms b)))
                          (map2 fmul (sub_mean ms (map (fun v => if is_nan v then Fin eps else v) a)) (sub_mean ms b))).
  { apply in_order_map2; rewrite !sub_mean_length, ?map_length; assumption. }
  rewrite (nansum_perm _ _ Q), (Permutation_length (filter_perm Fl.is_fin _ _ Q)). reflexivity.
Qed.
Lemma half_variance_order eps ms p a : reorders p (List.length a) -> half_variance eps ms (in_order p NaN a) = half_variance eps ms a.
Proof.
  intros P. unfold half_variance. cbv zeta. rewrite (in_order_map p NaN NaN) by exact P.
  rewrite !(sub_mean_order p NaN NaN) by (rewrite ?map_length; exact P).
  set (l := sub_mean ms (map (fun v => if is_nan v then Fin eps else v) a)).
  assert (L : List.length l = List.length a) by (unfold l; now rewrite sub_mean_length, map_length).
  assert (P' : reorders p (List.length l)) by now rewrite L.
  rewrite (nansum_perm _ _ (in_order_map2 p (if ms then NaN else NaN) (if ms then NaN else NaN) fmul l l P' eq_refl)).
  rewrite (Permutation_length (filter_perm Fl.is_fin _ _ (in_order_perm p (if ms then NaN else NaN) l P'))). reflexivity.
Qed.
Lemma cov_pixels eps big ms p n cube : Forall (fun c => List.length c = n) cube -> reorders p n ->
  var_cov_cube eps big (map (in_order p NaN) cube) ms = var_cov_cube eps big cube ms.
Proof.
  intros F P. unfold var_cov_cube. rewrite map_length. apply tab2_ext. intros i j I J.
  assert (N : forall k, (k < List.length cube)%nat -> nth k (map (in_order p NaN) cube) [] = in_order p NaN (nth k cube [])).
  { intros k K. rewrite (nth_indep _ [] (in_order p NaN [])) by now rewrite map_length. apply map_nth. }
  assert (Len : forall k, (k < List.length cube)%nat -> List.length (nth k cube []) = n).
  { intros k K. rewrite Forall_forall in F. apply F, nth_In, K. }
  rewrite !N by assumption.
  rewrite !cov_lower_order, !half_variance_order by (rewrite ?Len by assumption; auto). reflexivity.
Qed.

Lemma reorders_onto p n i : reorders p n -> (i < n)%nat -> exists k, (k < n)%nat /\ p k = i.
Proof.
  intros P I. assert (H : In i (map p (seq 0 n))) by (eapply Permutation_in; [symmetry; exact P|apply in_seq; lia]).
  apply in_map_iff in H. destruct H as [k [E K]]. apply in_seq in K. exists k. split; [lia|exact E].
Qed.
Lemma eigen_reordered p n m m' : reorders p n -> (forall i j, (i < n)%nat -> (j < n)%nat -> m' i j = m (p i) (p j)) -> same_up_to p n m m'.
Proof.
  intros P H lambda v. unfold eigen.
  assert (S : forall i, (i < n)%nat -> rsum n (fun j => m' i j * v (p j)) = rsum n (fun j => m (p i) j * v j)).
  { intros i I. rewrite <- (rsum_reorders n p (fun j => m (p i) j * v j) P). apply rsum_ext. intros j J. now rewrite H. }
  split; intros [[i [I V]] E]; split.
  - destruct (reorders_onto p n i P I) as [k [K <-]]. exists k. split; assumption.
  - intros k K. rewrite S by exact K. apply E. now apply reorders_lt.
  - exists (p i). split; [now apply reorders_lt|exact V].
  - intros k K. destruct (reorders_onto p n k P K) as [l [L <-]]. rewrite <- S by exact L. now apply E.
Qed.

Lemma cov_channels eps big ms n p cube : channels_of n cube -> enough ms n -> reorders p (List.length cube) ->
  (forall i j, (i < List.length cube)%nat -> (j < List.length cube)%nat ->
    at2 0 (var_cov_cube eps big (map (map Fin) (in_order p [] cube)) ms) i j = at2 0 (var_cov_cube eps big (map (map Fin) cube) ms) (p i) (p j)) /\
  same_up_to p (List.length cube) (at2 0 (var_cov_cube eps big (map (map Fin) cube) ms)) (at2 0 (var_cov_cube eps big (map (map Fin) (in_order p [] cube)) ms)).
Proof.
  intros C E P.
  assert (C' : channels_of n (in_order p [] cube)).
  { intros c I. apply C. eapply Permutation_in; [apply in_order_perm, P|exact I]. }
  assert (H : forall i j, (i < List.length cube)%nat -> (j < List.length cube)%nat ->
    at2 0 (var_cov_cube eps big (map (map Fin) (in_order p [] cube)) ms) i j = at2 0 (var_cov_cube eps big (map (map Fin) cube) ms) (p i) (p j)).
  { intros i j I J. rewrite (cov_value eps big _ ms n), (cov_value eps big _ ms n) by (rewrite ?in_order_length; auto using reorders_lt).
    now rewrite !nth_in_order by assumption. }
  split; [exact H|]. now apply eigen_reordered.
Qed.

(** With a blank pixel the covariance of two channels depends on which comes first. *)
Definition swap01 (i : nat) : nat := match i with 0%nat => 1%nat | 1%nat => 0%nat | _ => i end.
Lemma swap_reorders : reorders swap01 2.
Proof. unfold reorders. cbn. apply perm_swap. Qed.
Lemma cov_channels_refuted eps big : 0 < eps < 1 -> exists cube,
  Forall (fun c => List.length c = 2%nat) cube /\ reorders swap01 (List.length cube) /\ at2 0 (var_cov_cube eps big (in_order swap01 [] cube) false) 0 1 <> at2 0 (var_cov_cube eps big cube false) (swap01 0) (swap01 1).
Proof.
  intros E. exists [[Fin 1; NaN]; [Fin 2; Fin 1]]. split; [repeat constructor|]. split; [exact swap_reorders|].
  assert (A : cov_lower eps false [Fin 2; Fin 1] [Fin 1; NaN] = Fin 2).
  { unfold cov_lower, fdiv, nansum, fsum. cbn -[Rplus Rmult Rdiv Rminus INR]. match goal with |- context [Reqb ?a 0] => destruct (Reqb_spec a 0) as [Z|_]; [cbn in Z; lra|] end. f_equal. cbn. field. }
  assert (B : cov_lower eps false [Fin 1; NaN] [Fin 2; Fin 1] = Fin ((2 + eps) / 2)).
  { unfold cov_lower, fdiv, nansum, fsum. cbn -[Rplus Rmult Rdiv Rminus INR]. match goal with |- context [Reqb ?a 0] => destruct (Reqb_spec a 0) as [Z|_]; [cbn in Z; lra|] end. f_equal. cbn. field. }
  unfold var_cov_cube, in_order. cbn [List.length seq map nth swap01]. rewrite !at2_tab by lia.
  cbn [Nat.ltb Nat.leb Nat.eqb nth]. rewrite A, B. cbn. lra.
Qed.
