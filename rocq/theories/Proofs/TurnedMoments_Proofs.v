(** Moments of a picture seen from another side. *)
From Coq Require Import Reals List Bool ZArith Arith Lra Lia Permutation.
From Verif Require Import Lib.PyBase Lib.RSum Lib.Fl Lib.Arr Lib.Hist Spec.Bins Spec.Blank Spec.Distrib Model.Units Model.StatsUtils Model.StatMoments Model.MomentsRun Spec.MomentsRun Spec.Turned Spec.TurnedMoments
  Proofs.Fl_Proofs Proofs.Hist_Proofs Proofs.Moments_Proofs Proofs.MomentsRun_Proofs Proofs.MomentsRun2_Proofs Proofs.MomentsRun3_Proofs Proofs.MomentsRun4_Proofs Proofs.MomentsRun5_Proofs Proofs.MomentsRun6_Proofs.
From Verif Require Model.Genus Proofs.Psds_Proofs Proofs.Wavelet2_Proofs Proofs.Orders_Proofs Proofs.Dendro4_Proofs.
Import ListNotations.
Local Open Scope R_scope.

(** ** Where a pixel and an offset come from *)
Definition source (v : view) (ny nx : nat) (yx : nat * nat) : nat * nat :=
  match v with
  | LeftRight => (fst yx, nx - 1 - snd yx)%nat
  | UpDown => (ny - 1 - fst yx, snd yx)%nat
  | Swapped => (snd yx, fst yx)
  | QuarterTurn => (ny - 1 - snd yx, fst yx)%nat
  end.
Definition back (v : view) (d : Z * Z) : Z * Z :=
  match v with
  | LeftRight => (fst d, - snd d)%Z
  | UpDown => (- fst d, snd d)%Z
  | Swapped => (snd d, fst d)
  | QuarterTurn => (- snd d, fst d)%Z
  end.
Lemma seen_source {A} v ny nx (a : nat -> nat -> A) y x : seen v ny nx a y x = a (fst (source v ny nx (y, x))) (snd (source v ny nx (y, x))).
Proof. destruct v; reflexivity. Qed.
Lemma source_in v ny nx y x : (y < rows_seen v ny nx)%nat -> (x < columns_seen v ny nx)%nat -> (fst (source v ny nx (y, x)) < ny)%nat /\ (snd (source v ny nx (y, x)) < nx)%nat.
Proof. destruct v; cbn; lia. Qed.

Lemma mirror_mod n y d : (y < n)%nat -> (n - 1 - Z.to_nat ((Z.of_nat y + d) mod Z.of_nat n))%nat = Z.to_nat ((Z.of_nat (n - 1 - y) + - d) mod Z.of_nat n).
Proof.
  intros H. pose proof (Z.mod_pos_bound (Z.of_nat y + d) (Z.of_nat n) ltac:(lia)) as B.
  apply Nat2Z.inj. rewrite Z2Nat.id by (apply Z.mod_pos_bound; lia). rewrite Nat2Z.inj_sub by lia. rewrite Z2Nat.id by lia.
  rewrite (Zmod_unique (Z.of_nat (n - 1 - y) + - d) (Z.of_nat n) (- ((Z.of_nat y + d) / Z.of_nat n)) (Z.of_nat (n - 1) - (Z.of_nat y + d) mod Z.of_nat n)); [reflexivity|lia|].
  pose proof (Z.div_mod (Z.of_nat y + d) (Z.of_nat n) ltac:(lia)). lia.
Qed.
Lemma at_seen per v n0 n1 a y x d : (y < rows_seen v n0 n1)%nat -> (x < columns_seen v n0 n1)%nat ->
  at_offset per (rows_seen v n0 n1) (columns_seen v n0 n1) (seen v n0 n1 a) y x d =
  at_offset per n0 n1 a (fst (source v n0 n1 (y, x))) (snd (source v n0 n1 (y, x))) (back v d).
Proof.
  intros Hy Hx. unfold at_offset. destruct per.
  - unfold wrapped. destruct v; cbn in *; unfold left_right, up_down, axes_swapped, quarter_turn; try reflexivity; rewrite mirror_mod by assumption; reflexivity.
  - unfold or_blank. destruct d as [d0 d1]. destruct v; cbn [rows_seen columns_seen source back fst snd seen] in *; unfold left_right, up_down, axes_swapped, quarter_turn.
    + destruct (Z.leb_spec 0 (Z.of_nat y + d0)), (Z.ltb_spec (Z.of_nat y + d0) (Z.of_nat n0)), (Z.leb_spec 0 (Z.of_nat x + d1)), (Z.ltb_spec (Z.of_nat x + d1) (Z.of_nat n1)),
        (Z.leb_spec 0 (Z.of_nat (n1 - 1 - x) + - d1)), (Z.ltb_spec (Z.of_nat (n1 - 1 - x) + - d1) (Z.of_nat n1)); cbn; try reflexivity; try lia. f_equal; lia.
    + destruct (Z.leb_spec 0 (Z.of_nat y + d0)), (Z.ltb_spec (Z.of_nat y + d0) (Z.of_nat n0)), (Z.leb_spec 0 (Z.of_nat x + d1)), (Z.ltb_spec (Z.of_nat x + d1) (Z.of_nat n1)),
        (Z.leb_spec 0 (Z.of_nat (n0 - 1 - y) + - d0)), (Z.ltb_spec (Z.of_nat (n0 - 1 - y) + - d0) (Z.of_nat n0)); cbn; try reflexivity; try lia. f_equal; lia.
    + destruct (Z.leb_spec 0 (Z.of_nat y + d0)), (Z.ltb_spec (Z.of_nat y + d0) (Z.of_nat n1)), (Z.leb_spec 0 (Z.of_nat x + d1)), (Z.ltb_spec (Z.of_nat x + d1) (Z.of_nat n0)); cbn; reflexivity.
    + destruct (Z.leb_spec 0 (Z.of_nat y + d0)), (Z.ltb_spec (Z.of_nat y + d0) (Z.of_nat n1)), (Z.leb_spec 0 (Z.of_nat x + d1)), (Z.ltb_spec (Z.of_nat x + d1) (Z.of_nat n0)),
        (Z.leb_spec 0 (Z.of_nat (n0 - 1 - x) + - d1)), (Z.ltb_spec (Z.of_nat (n0 - 1 - x) + - d1) (Z.of_nat n0)); cbn; try reflexivity; try lia. f_equal; lia.
Qed.

(** ** The region is the same from every side *)
Lemma in_span k z : In z (span k) <-> (- Z.of_nat k <= z <= Z.of_nat k)%Z.
Proof.
  unfold span. rewrite in_map_iff. split.
  - intros (a & <- & H). apply in_seq in H. lia.
  - intros H. exists (Z.to_nat (z + Z.of_nat k)). rewrite in_seq. lia.
Qed.
Lemma NoDup_span k : NoDup (span k).
Proof. unfold span. apply FinFun.Injective_map_NoDup; [|apply seq_NoDup]. intros a b H. lia. Qed.
Lemma back_inj v d e : back v d = back v e -> d = e.
Proof. destruct d as [a b], e as [a' b']. destruct v; cbn; intros H; inversion H; f_equal; lia. Qed.
Lemma back_perm v l : NoDup l -> (forall d, In d l -> In (back v d) l) -> Permutation (map (back v) l) l.
Proof.
  intros N H. apply NoDup_Permutation_bis.
  - apply FinFun.Injective_map_NoDup; [intros d e; apply back_inj|exact N].
  - now rewrite map_length.
  - intros e He. apply in_map_iff in He. destruct He as (d & <- & Hd). now apply H.
Qed.
Lemma NoDup_square k : NoDup (square k).
Proof. apply Psds_Proofs.NoDup_list_prod; apply NoDup_span. Qed.
Lemma back_square v k : Permutation (map (back v) (square k)) (square k).
Proof.
  apply back_perm; [apply NoDup_square|]. intros [a b] H. apply in_prod_iff in H. rewrite !in_span in H. destruct v; cbn [back fst snd]; apply in_prod_iff; rewrite !in_span; lia.
Qed.
Lemma back_disc v k : Permutation (map (back v) (disc k)) (disc k).
Proof.
  apply back_perm; [apply NoDup_filter, NoDup_square|]. intros [a b] H. unfold disc in *. rewrite filter_In in *. destruct H as [H L]. apply in_prod_iff in H. rewrite !in_span in H. cbn [fst snd] in L.
  destruct v; cbn [back fst snd]; (split; [apply in_prod_iff; rewrite !in_span; lia|]); rewrite <- L; f_equal; ring.
Qed.
Lemma map_back {A} v (f : Z * Z -> A) l : Permutation (map (back v) l) l -> Permutation (map (fun d => f (back v d)) l) (map f l).
Proof. intros P. rewrite <- (map_map (back v) f). now apply Permutation_map. Qed.

(** ** Sums do not depend on the order *)
Lemma share_perm l l' : Permutation l l' -> finite_share l = finite_share l'.
Proof. intros P. unfold finite_share. now rewrite (filter_perm _ _ _ P), (Permutation_length P). Qed.
Lemma cm_perm l l' : Permutation l l' -> cm l = cm l'.
Proof.
  intros P. assert (E : forall f, nansum (map f l) = nansum (map f l')) by (intros f; apply Orders_Proofs.nansum_perm, Permutation_map, P).
  rewrite !cm_eq. cbv zeta. now rewrite !E.
Qed.

(** ** The maps *)
Lemma around_seen v p w k per mf y x : (y < rows_seen v (pic_n0 p) (pic_n1 p))%nat -> (x < columns_seen v (pic_n0 p) (pic_n1 p))%nat ->
  around (seen_picture v p) (seen v (pic_n0 p) (pic_n1 p) w) k per mf y x = seen v (pic_n0 p) (pic_n1 p) (around p w k per mf) y x.
Proof.
  intros Hy Hx. rewrite seen_source, !around_cm. cbv zeta. cbn [seen_picture pic_n0 pic_n1 pic_data].
  assert (S : forall a, finite_share (map (at_offset per (rows_seen v (pic_n0 p) (pic_n1 p)) (columns_seen v (pic_n0 p) (pic_n1 p)) (seen v (pic_n0 p) (pic_n1 p) a) y x) (square k)) =
    finite_share (map (at_offset per (pic_n0 p) (pic_n1 p) a (fst (source v (pic_n0 p) (pic_n1 p) (y, x))) (snd (source v (pic_n0 p) (pic_n1 p) (y, x)))) (square k))).
  { intros a. apply share_perm. etransitivity; [|apply (map_back v _ _ (back_square v k))]. apply Permutation_refl'. apply map_ext. intros d. now apply at_seen. }
  rewrite !S. destruct (_ || _); [reflexivity|]. apply cm_perm. unfold pairs_at. cbn [seen_picture pic_n0 pic_n1 pic_data].
  etransitivity; [|apply (map_back v _ _ (back_disc v k))]. apply Permutation_refl'. apply map_ext. intros d. now rewrite !at_seen.
Qed.
Lemma weights_seen v p w : weights_of (seen_weights v p w) = seen v (pic_n0 p) (pic_n1 p) (weights_of w).
Proof. destruct w; [reflexivity|]. destruct v; reflexivity. Qed.
Lemma maps_seen v p w k per mf y x : (y < rows_seen v (pic_n0 p) (pic_n1 p))%nat -> (x < columns_seen v (pic_n0 p) (pic_n1 p))%nat ->
  region_maps (seen_picture v p) (seen_weights v p w) k per mf y x = seen v (pic_n0 p) (pic_n1 p) (region_maps p w k per mf) y x.
Proof. intros Hy Hx. rewrite region_around, weights_seen, around_seen by assumption. rewrite !seen_source. now rewrite region_around. Qed.

(** ** The pixels *)
Lemma pixels_seen {A} v n0 n1 (f : nat -> nat -> A) (g : nat -> nat -> A) :
  (forall y x, (y < rows_seen v n0 n1)%nat -> (x < columns_seen v n0 n1)%nat -> g y x = seen v n0 n1 f y x) ->
  Permutation (map (fun yx => g (fst yx) (snd yx)) (list_prod (seq 0 (rows_seen v n0 n1)) (seq 0 (columns_seen v n0 n1)))) (map (fun yx => f (fst yx) (snd yx)) (list_prod (seq 0 n0) (seq 0 n1))).
Proof.
  intros H. symmetry. apply (Wavelet2_Proofs.pixels_perm (fun yx => f (fst yx) (snd yx)) (fun yx => g (fst yx) (snd yx)) (source v n0 n1)).
  - intros [y x] Hp. unfold Genus.pixels in *. apply in_prod_iff in Hp. rewrite !in_seq in Hp. cbn [fst snd]. destruct (source_in v n0 n1 y x ltac:(lia) ltac:(lia)) as [H0 H1]. split.
    + destruct (source v n0 n1 (y, x)) as [y' x']. cbn [fst snd] in *. apply in_prod_iff. rewrite !in_seq. lia.
    + rewrite H by lia. now rewrite seen_source.
  - intros [y x] [y' x'] Hp Hq E. unfold Genus.pixels in *. apply in_prod_iff in Hp, Hq. rewrite !in_seq in *. destruct v; cbn in *; inversion E; f_equal; lia.
  - destruct v; cbn; lia.
Qed.
Lemma values_seen v p w k per mf f : Permutation (values_of (seen_picture v p) (region_maps (seen_picture v p) (seen_weights v p w) k per mf) f) (values_of p (region_maps p w k per mf) f).
Proof.
  unfold values_of. cbn [seen_picture pic_n0 pic_n1]. apply (pixels_seen v (pic_n0 p) (pic_n1 p) (fun y x => f (region_maps p w k per mf y x)) (fun y x => f (region_maps (seen_picture v p) (seen_weights v p w) k per mf y x))).
  intros y x Hy Hx. rewrite maps_seen by assumption. now rewrite !seen_source.
Qed.
Lemma whole_seen v p w : let p' := seen_picture v p in
  compute_moments (flat (pic_n0 p') (pic_n1 p') (pic_data p')) (flat (pic_n0 p') (pic_n1 p') (weights_of (seen_weights v p w))) =
  compute_moments (flat (pic_n0 p) (pic_n1 p) (pic_data p)) (flat (pic_n0 p) (pic_n1 p) (weights_of w)).
Proof.
  cbv zeta. cbn [seen_picture pic_n0 pic_n1 pic_data]. rewrite weights_seen. set (w' := weights_of w). clearbody w'.
  assert (E : forall n0 n1 a b, compute_moments (flat n0 n1 a) (flat n0 n1 b) = cm (map (fun yx => (a (fst yx) (snd yx), b (fst yx) (snd yx))) (list_prod (seq 0 n0) (seq 0 n1)))) by (intros; unfold cm, flat; rewrite !map_map; reflexivity).
  rewrite !E. apply cm_perm. apply (pixels_seen v (pic_n0 p) (pic_n1 p) (fun y x => (pic_data p y x, w' y x)) (fun y x => (seen v (pic_n0 p) (pic_n1 p) (pic_data p) y x, seen v (pic_n0 p) (pic_n1 p) w' y x))).
  intros y x _ _. now rewrite !seen_source.
Qed.

(** ** Histograms *)
Lemma outer_perm l l' : Permutation l l' -> outer_edges l = outer_edges l'.
Proof.
  intros P. destruct l as [|x l]; [apply Permutation_nil in P; subst; reflexivity|]. destruct l' as [|y l']; [symmetry in P; apply Permutation_nil in P; discriminate|]. unfold outer_edges.
  assert (LO : forall z r u, In u (z :: r) -> lmin z r <= u) by (intros z r u [<-|I]; [apply (proj1 (lmin_le z r))|now apply (proj2 (lmin_le z r))]).
  assert (HI : forall z r u, In u (z :: r) -> u <= lmax z r) by (intros z r u [<-|I]; [apply (proj1 (lmax_ge z r))|now apply (proj2 (lmax_ge z r))]).
  assert (E1 : lmin x l = lmin y l'). { apply Rle_antisym; apply LO; [apply (Permutation_in _ (Permutation_sym P))|apply (Permutation_in _ P)]; apply Dendro4_Proofs.lmin_in. }
  assert (E2 : lmax x l = lmax y l'). { apply Rle_antisym; apply HI; [apply (Permutation_in _ P)|apply (Permutation_in _ (Permutation_sym P))]; apply lmax_in. }
  now rewrite E1, E2.
Qed.
Lemma bins_perm l l' b : Permutation l l' -> histogram l b = histogram l' b.
Proof.
  intros P. unfold histogram, bin_edges. destruct b as [[|n]|e]; cbn [bind]; [reflexivity| |].
  - rewrite (outer_perm _ _ P). destruct (outer_edges l') as [lo hi]. cbn [bind]. now rewrite (density_perm _ _ _ P).
  - destruct (nondecreasing e); [|reflexivity]. cbn [bind]. now rewrite (density_perm _ _ _ P).
Qed.
Lemma forallb_perm {A} (P : A -> bool) l l' : Permutation l l' -> forallb P l = forallb P l'.
Proof. induction 1 as [|x l l' _ IH|x y l|l l' l'' _ IH1 _ IH2]; cbn; [reflexivity|now rewrite IH| |congruence]. destruct (P x), (P y); reflexivity. Qed.
Lemma perm_filter {A} (f : A -> bool) l l' : Permutation l l' -> Permutation (filter f l) (filter f l').
Proof.
  induction 1 as [|x l l' _ IH|x y l|l l' l'' _ IH1 _ IH2]; cbn; [constructor|destruct (f x); [now constructor|exact IH]| |now transitivity (filter f l')].
  destruct (f x), (f y); try apply Permutation_refl. constructor.
Qed.
Lemma spatial_perm l l' b n : Permutation l l' -> spatial_histogram l b n = spatial_histogram l' b n.
Proof.
  intros P. unfold spatial_histogram. destruct (match b with None => n | Some b => Some b end) as [c|]; [|reflexivity].
  assert (Q : Permutation (nonnan l) (nonnan l')) by now apply perm_filter. unfold histogram_fl.
  rewrite (forallb_perm is_fin _ _ Q). rewrite (bins_perm _ _ c (fins_perm _ _ Q)). reflexivity.
Qed.

(** ** One run *)
Definition alike (v : view) (p : picture) (o' o : mobj) : Prop :=
  m_nbins o' = m_nbins o /\ m_whole o' = m_whole o /\
  (exists m' m, m_maps o' = Some m' /\ m_maps o = Some m /\
    forall y x, (y < rows_seen v (pic_n0 p) (pic_n1 p))%nat -> (x < columns_seen v (pic_n0 p) (pic_n1 p))%nat -> m' y x = seen v (pic_n0 p) (pic_n1 p) m y x) /\
  m_pic o' = seen_picture v p /\ m_pic o = p /\
  m_mean_hist o' = m_mean_hist o /\ m_variance_hist o' = m_variance_hist o /\ m_skewness_hist o' = m_skewness_hist o /\ m_kurtosis_hist o' = m_kurtosis_hist o.
Lemma one_hist_alike v p o' o f b : alike v p o' o -> one_hist o' f b = one_hist o f b.
Proof.
  intros (N & _ & (m' & m & M' & M & S) & P' & P & _). unfold one_hist, moment_list. rewrite M', M, P', P, N. cbn [bind]. cbn [seen_picture pic_n0 pic_n1].
  assert (Q : Permutation (flat (rows_seen v (pic_n0 p) (pic_n1 p)) (columns_seen v (pic_n0 p) (pic_n1 p)) (fun y x => f (m' y x))) (flat (pic_n0 p) (pic_n1 p) (fun y x => f (m y x)))).
  { unfold flat. apply (pixels_seen v (pic_n0 p) (pic_n1 p) (fun y x => f (m y x)) (fun y x => f (m' y x))). intros y x Hy Hx. rewrite S by assumption. now rewrite !seen_source. }
  destruct b as [[b|n]|]; [now rewrite (spatial_perm _ _ _ _ Q)|reflexivity|now rewrite (spatial_perm _ _ _ _ Q)].
Qed.
Definition alike_out (v : view) (p : picture) (r' r : outcome) : Prop := snd r' = snd r /\ alike v p (fst r') (fst r).
Lemma also_alike v p r' r k' k : alike_out v p r' r -> (forall o' o, alike v p o' o -> alike_out v p (k' o') (k o)) -> alike_out v p (also r' k') (also r k).
Proof. intros [E A] K. unfold also. rewrite E. destruct (snd r) as [e|]; [now split|now apply K]. Qed.
Lemma put_alike v p o' o f b wr : alike v p o' o -> (forall h o' o, alike v p o' o -> alike v p (wr o' h) (wr o h)) -> alike_out v p (put (one_hist o' f b) o' wr) (put (one_hist o f b) o wr).
Proof. intros A W. rewrite (one_hist_alike v p _ _ _ _ A). unfold put. destruct (one_hist o f b); (split; [reflexivity|]); cbn [fst]; auto. Qed.
Lemma hists_alike v p o' o b : alike v p o' o -> alike_out v p (spatial_hists o' b) (spatial_hists o b).
Proof.
  assert (W : forall wr, In wr [with_mean_hist; with_variance_hist; with_skewness_hist; with_kurtosis_hist] -> forall h o' o, alike v p o' o -> alike v p (wr o' h) (wr o h)).
  { intros wr I h u' u (A1 & A2 & A3 & A4 & A5 & A6 & A7 & A8 & A9). destruct I as [<-|[<-|[<-|[<-|[]]]]]; unfold alike; cbn; auto 12. }
  intros A. unfold spatial_hists. repeat (apply also_alike; [apply put_alike; [assumption|apply W; cbn; tauto]|clear o' o A; intros o' o A]). apply put_alike; [assumption|apply W; cbn; tauto].
Qed.
Lemma radius_seen v p q : set_radius (pic_stat (seen_picture v p)) (pic_n0 (seen_picture v p)) (pic_n1 (seen_picture v p)) q = set_radius (pic_stat p) (pic_n0 p) (pic_n1 p) q.
Proof. unfold set_radius. destruct v; cbn [seen_picture pic_n0 pic_n1 pic_stat rows_seen columns_seen]; try reflexivity; now rewrite (Nat.min_comm (pic_n1 p)). Qed.
Lemma size_seen v p : (pic_n0 (seen_picture v p) * pic_n1 (seen_picture v p) = pic_n0 p * pic_n1 p)%nat.
Proof. destruct v; cbn; lia. Qed.

Lemma also_ok o k : also (o, None) k = k o.
Proof. reflexivity. Qed.
Lemma seen_run memory memory' v p w q nb radius per mf b :
  match moments_init p w q nb, moments_init (seen_picture v p) (seen_weights v p w) q nb with
  | Ok o, Ok o' => same_moments v p (moments_run memory' o' radius per mf b) (moments_run memory o radius per mf b)
  | Err e, Err e' => e = e'
  | _, _ => False
  end.
Proof.
  unfold moments_init. rewrite radius_seen, size_seen. destruct (set_radius (pic_stat p) (pic_n0 p) (pic_n1 p) q) as [r|e]; [|reflexivity]. cbn [bind]. cbv zeta. set (n := match nb with None => _ | Some n => n end). clearbody n.
  unfold moments_run. pose proof (whole_seen v p w) as EW. cbv zeta in EW. unfold whole_moments. cbn [m_pic m_weights with_whole m_radius m_nbins m_maps m_mean_hist m_variance_hist m_skewness_hist m_kurtosis_hist]. rewrite EW. clear EW.
  set (wh := compute_moments _ _). clearbody wh. rewrite !also_ok. unfold spatial.
  destruct (Rleb (8 / 10) 0 || Rltb 1 (8 / 10)); [unfold also, same_moments; cbn; split; [reflexivity|split; [reflexivity|discriminate]]|].
  assert (REL : forall r0, same_moments v p
    (also (let o := mk_mobj (seen_picture v p) (weights_of (seen_weights v p w)) r0 (Some n) (Some wh) (Some memory') None None None None in
       match to_pixel (pic_stat (m_pic o)) (m_radius o) with Err e => (o, Some e) | Ok q0 => (with_maps o (local_moments (pic_n0 (m_pic o)) (pic_n1 (m_pic o)) (Z.to_nat (ceil (hd 0 (q_vals q0)))) per (8 / 10) (pic_data (m_pic o)) (m_weights o)), None) end) (fun o => spatial_hists o b))
    (also (let o := mk_mobj p (weights_of w) r0 (Some n) (Some wh) (Some memory) None None None None in
       match to_pixel (pic_stat (m_pic o)) (m_radius o) with Err e => (o, Some e) | Ok q0 => (with_maps o (local_moments (pic_n0 (m_pic o)) (pic_n1 (m_pic o)) (Z.to_nat (ceil (hd 0 (q_vals q0)))) per (8 / 10) (pic_data (m_pic o)) (m_weights o)), None) end) (fun o => spatial_hists o b))).
  { intros r0. cbv zeta. cbn [m_pic m_radius m_weights]. change (pic_stat (seen_picture v p)) with (pic_stat p). destruct (to_pixel (pic_stat p) r0) as [q0|e]; [|unfold also, same_moments; cbn; split; [reflexivity|split; [reflexivity|discriminate]]].
    set (k := Z.to_nat _). clearbody k. unfold also. cbn [snd fst].
    assert (A : alike v p (with_maps (mk_mobj (seen_picture v p) (weights_of (seen_weights v p w)) r0 (Some n) (Some wh) (Some memory') None None None None) (region_maps (seen_picture v p) (seen_weights v p w) k per (8 / 10)))
                          (with_maps (mk_mobj p (weights_of w) r0 (Some n) (Some wh) (Some memory) None None None None) (region_maps p w k per (8 / 10)))).
    { unfold alike. cbn [with_maps m_nbins m_whole m_maps m_pic m_mean_hist m_variance_hist m_skewness_hist m_kurtosis_hist]. repeat (split; [reflexivity|]). split; [|auto 10].
      do 2 eexists. split; [reflexivity|]. split; [reflexivity|]. intros y x. apply maps_seen. }
    destruct (hists_alike v p _ _ b A) as [E (_ & B2 & B3 & _ & _ & B4)]. split; [exact E|]. split; [exact B2|]. intros _. split; [exact B3|exact B4]. }
  rewrite !also_ok. destruct radius as [q1|]; [|rewrite !also_ok; apply REL].
  unfold assign_radius. cbn [with_maps with_whole m_pic]. rewrite radius_seen. destruct (set_radius (pic_stat p) (pic_n0 p) (pic_n1 p) q1) as [r1|e]; [rewrite !also_ok; apply REL|].
  unfold also, same_moments; cbn; split; [reflexivity|split; [reflexivity|discriminate]].
Qed.

(** ** Two pictures *)
Lemma readable_seen v p : readable p -> readable (seen_picture v p).
Proof. intros D i j Hi Hj. cbn [seen_picture pic_data pic_n0 pic_n1] in *. rewrite seen_source. destruct (source_in v _ _ i j Hi Hj). now apply D. Qed.
Lemma weighted_seen v p w : weighted p w -> weighted (seen_picture v p) (seen_weights v p w).
Proof. intros D. destruct w as [w|]; [|exact I]. intros i j Hi Hj. cbn [seen_picture pic_data pic_n0 pic_n1] in *. rewrite seen_source. destruct (source_in v _ _ i j Hi Hj). now apply D. Qed.
Lemma distance_seen memory memory' tol v1 v2 p1 p2 w1 w2 a nbins : readable p1 -> readable p2 -> weighted p1 w1 -> weighted p2 w2 ->
  moments_distance memory' tol (Data (seen_picture v1 p1) (seen_weights v1 p1 w1)) (Data (seen_picture v2 p2) (seen_weights v2 p2 w2)) a nbins =
  moments_distance memory tol (Data p1 w1) (Data p2 w2) a nbins.
Proof.
  intros D1 D2 W1 W2. rewrite !data_distance by (try assumption; try (now apply readable_seen); now apply weighted_seen).
  change (two_radii (seen_picture v1 p1) (seen_picture v2 p2) (ma_radius a) tol) with (two_radii p1 p2 (ma_radius a) tol). destruct (two_radii p1 p2 (ma_radius a) tol) as [[q1 q2]|e]; [|reflexivity]. cbn [bind fst snd].
  assert (RG : forall v p q, region (seen_picture v p) q (ma_min_frac a) = region p q (ma_min_frac a)) by (intros v p q; unfold region; rewrite radius_seen; reflexivity). rewrite !RG.
  destruct (region p1 q1 (ma_min_frac a)) as [k1|e]; [|reflexivity]. destruct (region p2 q2 (ma_min_frac a)) as [k2|e]; [|reflexivity]. cbn [bind]. cbv zeta.
  assert (NB : nbins_of (seen_picture v1 p1) (seen_picture v2 p2) (ma_nbins a) = nbins_of p1 p2 (ma_nbins a)) by (unfold nbins_of, size_of; now rewrite !size_seen). rewrite NB.
  destruct (Nat.eqb _ 0); [reflexivity|]. unfold lists_value. set (n := match nbins with None => _ | Some n => n end). clearbody n.
  assert (E : forall f, In f [mean_of; variance_of; skewness_of; kurtosis_of] ->
    pair_value (values_of (seen_picture v1 p1) (region_maps (seen_picture v1 p1) (seen_weights v1 p1 w1) k1 (ma_periodic1 a) (ma_min_frac a)) f) (values_of (seen_picture v2 p2) (region_maps (seen_picture v2 p2) (seen_weights v2 p2 w2) k2 (ma_periodic2 a) (ma_min_frac a)) f) n =
    pair_value (values_of p1 (region_maps p1 w1 k1 (ma_periodic1 a) (ma_min_frac a)) f) (values_of p2 (region_maps p2 w2 k2 (ma_periodic2 a) (ma_min_frac a)) f) n).
  { intros f F. symmetry. apply pair_perm; try (now apply region_fine); symmetry; apply values_seen. }
  rewrite !E by (cbn; tauto). reflexivity.
Qed.
