(** Proofs about Model/PdfDistance.v: when the distances are defined. *)
From Coq Require Import String Reals List Bool Arith ZArith Lia Lra Permutation.
From Verif Require Import Lib.PyBase Lib.RSum Lib.Fl Lib.Arr Lib.Hist Spec.Blank Spec.Bins Spec.Distrib Spec.PdfPairs Model.StatsUtils Model.Pdf Model.PdfDistance
  Proofs.Fl_Proofs Proofs.StatsUtils_Proofs Proofs.StatsUtils2_Proofs Proofs.Pdf_Proofs Proofs.PdfDistance_Proofs Proofs.PdfDistance2_Proofs Proofs.PdfDistance3_Proofs.
Import ListNotations.
Local Open Scope R_scope.

Lemma kept_valid img mn : init_data img mn None None = Ok (map Fin (valid img mn)).
Proof.
  unfold init_data, valid. f_equal. unfold fins. induction img as [|x img IH]; [reflexivity|]. cbn [filter flat_map].
  destruct x as [x| | |]; cbn [is_fin andb app]; [|exact IH..]. cbn [filter]. destruct (fltb mn (Fin x)); cbn [map]; now rewrite IH.
Qed.
Lemma steps_increasing e w : 0 < w -> (forall i, (S i < length e)%nat -> nth (S i) e 0 - nth i e 0 = w) -> increasing e.
Proof.
  intros Hw H i j [Hij Hj]. induction j as [|j IH]; [lia|]. assert (S1 := H j ltac:(lia)). destruct (Nat.eq_dec i j) as [->|N]; [lra|].
  assert (nth i e 0 < nth j e 0) by (apply IH; lia). lra.
Qed.
Lemma nondec_le e : (forall i, (S i < length e)%nat -> nth i e 0 <= nth (S i) e 0) -> nondecreasing e = true.
Proof.
  induction e as [|x e IH]; intros H; [reflexivity|]. destruct e as [|y e]; [reflexivity|]. cbn [nondecreasing]. apply andb_true_intro. split.
  - destruct (Rleb_spec x y) as [_|N]; [reflexivity|]. assert (H0 := H 0%nat ltac:(cbn; lia)). cbn in H0. lra.
  - apply IH. intros i Hi. exact (H (S i) ltac:(cbn in *; lia)).
Qed.
Lemma density_positive l e w x : 0 < w -> (2 <= length e)%nat -> (forall i, (S i < length e)%nat -> nth (S i) e 0 - nth i e 0 = w) -> In x l -> in_range e x ->
  exists v, density l e = map Fin v /\ (forall y, In y v -> 0 <= y) /\ 0 < lsum v /\ length v = (length e - 1)%nat.
Proof.
  intros Hw Le St Hx Rx. assert (I := steps_increasing e w Hw St).
  destruct (pdf_edges l (mk_pdf (map Fin l) None None) e x eq_refl I Le Hx Rx) as [st' [M [[v [E [Lv [Nn Sm]]]] _]]].
  unfold make_pdf in M. cbn [p_data p_bins] in M. unfold histogram_fl, histogram, bin_edges in M. rewrite fins_Fin in M. destruct (nondecreasing e); [|discriminate]. cbn [bind fst snd] in M.
  assert (pdf_values st' = density l e) as P by (injection M as <-; reflexivity). exists v. rewrite <- P. split; [exact E|]. split; [exact Nn|]. split; [|lia].
  assert (Q : rsum (length v) (fun i => nth i v 0 * (nth (S i) e 0 - nth i e 0)) = w * lsum v).
  { rewrite (lsum_nth v 0), <- rsum_scal. apply rsum_ext. intros i Hi. rewrite St by lia. ring. }
  rewrite Q in Sm. assert (lsum v <> 0) by (intros Z; rewrite Z in Sm; lra). assert (0 <= lsum v) by (apply lsum_nonneg; auto). lra.
Qed.
Lemma default_bins l1 l2 nb mn mx : enough_bins nb (length l1 + length l2) -> exists k, (2 <= k)%nat /\
  common_histogram_bins 1 1 (map Fin l1) (map Fin l2) nb false mn mx = common_histogram_bins 1 1 (map Fin l1) (map Fin l2) (Some k) false mn mx.
Proof.
  intros H. destruct nb as [k|]; cbn in H; [eauto|].
  destruct (common_bins_default 1 1 (map Fin l1) (map Fin l2) false mn mx) as [k [E [A B]]]; [rewrite !map_length; lia|]. rewrite !map_length in *.
  exists k. split; [|exact E]. destruct k as [|[|k]]; [cbn in B; lia|cbn in B; lia|lia].
Qed.
Section Distances.
Variable fit_lognorm : list fl -> result (fl * fl).
Let dist := distances fit_lognorm.
Lemma run_plain l e : nondecreasing e = true -> exists p, pdf_run fit_lognorm (map Fin l) e false = Ok p.
Proof.
  intros H. unfold pdf_run, make_pdf, histogram_fl, histogram, bin_edges, make_ecdf. cbn [p_data p_bins p_pdf bind]. rewrite H. cbn [bind fst snd p_data p_bins p_pdf]. eauto.
Qed.
Lemma dist_defined img1 img2 o l1 l2 x y : l1 = valid img1 (po_min1 o) -> l2 = valid img2 (po_min2 o) -> po_norm o = None -> unweighted o -> po_do_fit o = false ->
  po_bin_min o = None -> po_bin_max o = None -> l1 <> [] -> l2 <> [] -> In x (l1 ++ l2) -> In y (l1 ++ l2) -> x <> y -> enough_bins (po_nbins o) (length l1 + length l2) ->
  exists h k, dist img1 img2 o (mk_str "all" true) = Ok (mk_out (Some (Fin h)) (Some k) None) /\ 0 <= h <= 1 /\ 0 <= k <= 1.
Proof.
  intros L1 L2 Hn [W1 W2] Hd Bmin Bmax N1 N2 Hx Hy Hxy Hb.
  destruct (default_bins l1 l2 (po_nbins o) None None Hb) as [k [Hk EB]].
  destruct (common_bins_linear 1 1 (map Fin l1) (map Fin l2) k None None ltac:(lia) ltac:(lia) Hk (blank_Fin l1) (blank_Fin l2)) as (lo & hi & e & c & Mlo & Mhi & B & Le & Lc & E0 & E1 & St); rewrite ?fins_Fin in *; try assumption.
  cbn [clip_lo clip_hi] in *.
  assert (Hlt : lo < hi). { assert (A1 := proj2 Mlo x Hx). assert (A2 := proj2 Mlo y Hy). assert (A3 := proj2 Mhi x Hx). assert (A4 := proj2 Mhi y Hy). destruct (Rtotal_order x y) as [G|[G|G]]; [lra|contradiction|lra]. }
  assert (Hw : 0 < (hi - lo) / INR (k - 1)) by (apply Rmult_lt_0_compat; [lra|apply Rinv_0_lt_compat, lt_0_INR; lia]).
  assert (Hs : forall i, (S i < length e)%nat -> nth (S i) e 0 - nth i e 0 = (hi - lo) / INR (k - 1)) by (intros i Hi; apply St; lia).
  assert (ND : nondecreasing e = true) by (apply nondec_le; intros i Hi; assert (H := Hs i Hi); lra).
  assert (Rg : forall z, In z (l1 ++ l2) -> in_range e z) by (intros z Hz; unfold in_range; rewrite Le, E0, E1; split; [now apply (proj2 Mlo)|now apply (proj2 Mhi)]).
  destruct l1 as [|z1 l1'] eqn:G1; [contradiction|]. rewrite <- G1 in *. destruct l2 as [|z2 l2'] eqn:G2; [contradiction|]. rewrite <- G2 in *.
  assert (I1 : In z1 l1) by (rewrite G1; now left). assert (I2 : In z2 l2) by (rewrite G2; now left). clear G1 G2.
  destruct (density_positive l1 e _ z1 Hw ltac:(lia) Hs I1 (Rg z1 (in_or_app _ _ _ (or_introl I1)))) as (v1 & D1 & P1 & S1 & V1).
  destruct (density_positive l2 e _ z2 Hw ltac:(lia) Hs I2 (Rg z2 (in_or_app _ _ _ (or_intror I2)))) as (v2 & D2 & P2 & S2 & V2).
  destruct (run_plain l1 e ND) as [p1 R1]. destruct (run_plain l2 e ND) as [p2 R2].
  assert (K1 : init_data img1 (po_min1 o) (po_weights1 o) (po_norm o) = Ok (map Fin l1)) by (rewrite W1, Hn, L1; apply kept_valid).
  assert (K2 : init_data img2 (po_min2 o) (po_weights2 o) (po_norm o) = Ok (map Fin l2)) by (rewrite W2, Hn, L2; apply kept_valid).
  assert (BB : common_histogram_bins 1 1 (map Fin l1) (map Fin l2) (po_nbins o) false (po_bin_min o) (po_bin_max o) = Ok (Some (e, c))) by (rewrite Bmin, Bmax; congruence).
  assert (U : distance_init (po_do_fit o) (po_norm o) = Ok tt) by (rewrite Hd; reflexivity).
  assert (RR1 := R1). assert (RR2 := R2). rewrite <- Hd in RR1, RR2.
  assert (IN := init_intro fit_lognorm img1 img2 o l1 l2 e c p1 p2 N1 N2 U K1 K2 BB RR1 RR2).
  destruct (run_data _ _ _ _ _ R1) as (A1 & Q1 & _). destruct (run_data _ _ _ _ _ R2) as (A2 & Q2 & _).
  destruct (hell_laws v1 v2 ltac:(lia) S1 S2 P1 P2) as [_ [h [Hh [Rh _]]]]. destruct (ks_range l1 l2 N1 N2) as [q [Kq Rq]].
  exists h, q. split; [|auto]. unfold dist, distances. rewrite IN, Hd. cbn [bind]. unfold metric. cbn [is_literal str_value str_interned andb String.eqb Ascii.eqb Bool.eqb pd_do_fit].
  unfold compute_hellinger, compute_ks. cbn [pd_1 pd_2 bind out_hellinger out_ks out_lognormal nothing]. rewrite Q1, Q2, D1, D2, Hh, A1, A2, !fins_Fin, Kq. reflexivity.
Qed.
(** A much brighter copy of an image is at the largest KS distance from it *)
Lemma not_standardized l a : l <> [] -> (forall x y, In x l -> In y l -> x < a * y) ->
  dist (map Fin l) (map Fin (map (Rmult a) l)) plain (mk_str "ks" true) = Ok (mk_out None (Some 1) None).
Proof.
  intros N H. assert (V : forall m, valid (map Fin m) NInf = m).
  { intros m. unfold valid. rewrite fins_Fin. induction m as [|x m IH]; [reflexivity|]. cbn [filter]. change (fltb NInf (Fin x)) with true. cbv iota. now rewrite IH. }
  set (m := map (Rmult a) l). assert (N2 : m <> []) by (unfold m; destruct l; [contradiction|discriminate]).
  assert (B : exists e c, common_histogram_bins 1 1 (map Fin l) (map Fin m) None false None None = Ok (Some (e, c)) /\ nondecreasing e = true).
  { unfold common_histogram_bins. cbn [Nat.ltb Nat.leb orb]. cbv zeta.
    destruct (nanmin_real l N) as [m1 [-> M1]]. destruct (nanmin_real m N2) as [m2 [-> M2]]. destruct (nanmax_real l N) as [x1 [-> X1]]. destruct (nanmax_real m N2) as [x2 [-> X2]].
    set (nb := Z.to_nat _). clearbody nb.
    assert (G : exists lo hi, fmin2 (Fin m1) (Fin m2) = Fin lo /\ fmax2 (Fin x1) (Fin x2) = Fin hi /\ lo <= hi).
    { assert (m1 <= x1) by (apply (proj2 M1); apply X1). assert (m2 <= x2) by (apply (proj2 M2); apply X2). unfold fmin2, fmax2. cbn [fltb].
      destruct (Rltb_spec m2 m1), (Rltb_spec x1 x2); do 2 eexists; (split; [reflexivity|]); (split; [reflexivity|]); lra. }
    destruct G as (lo & hi & -> & -> & Hlh). do 2 eexists. split; [reflexivity|]. apply nondec_le. rewrite linspace_length. intros i Hi.
    unfold linspace. destruct nb as [|[|nb]]; [lia|lia|]. unfold tab1. 
    rewrite !(nth_indep _ 0 (lo + INR 0 * ((hi - lo) / INR (S nb)))) by (rewrite map_length, seq_length; lia).
    rewrite !(map_nth (fun i => lo + INR i * ((hi - lo) / INR (S nb)))), !seq_nth by lia. cbn [plus]. rewrite (S_INR i).
    assert (0 <= (hi - lo) / INR (S nb)) by (apply Rmult_le_pos; [lra|left; apply Rinv_0_lt_compat, lt_0_INR; lia]). lra. }
  destruct B as (e & c & B & ND). destruct (run_plain l e ND) as [p1 R1]. destruct (run_plain m e ND) as [p2 R2].
  assert (K1 : init_data (map Fin l) NInf None None = Ok (map Fin l)) by (rewrite kept_valid; now rewrite V).
  assert (K2 : init_data (map Fin m) NInf None None = Ok (map Fin m)) by (rewrite kept_valid; now rewrite V).
  unfold dist, distances. rewrite (init_intro fit_lognorm (map Fin l) (map Fin m) plain l m e c p1 p2 N N2 eq_refl K1 K2 B R1 R2). cbn [bind].
  destruct (run_data _ _ _ _ _ R1) as (A1 & _). destruct (run_data _ _ _ _ _ R2) as (A2 & _).
  unfold metric. cbn [is_literal str_value str_interned andb String.eqb Ascii.eqb Bool.eqb]. unfold compute_ks. cbn [pd_1 pd_2]. rewrite A1, A2, !fins_Fin.
  rewrite ks_separated; [reflexivity|exact N|exact N2|]. intros x y Hx Hy. unfold m in Hy. apply in_map_iff in Hy as [z [<- Hz]]. now apply H.
Qed.
End Distances.
