(** Proofs about Model/Psds.v: the radial profile (C12), VCA (C14), VCS (C15). *)
From Coq Require Import Reals List ZArith Lia Lra Arith Bool Permutation.
From Coquelicot Require Import Complex.
From Verif Require Import Lib.PyBase Lib.PySlice Lib.Arr Lib.DFT Lib.Fl Lib.RSum Lib.Bins Lib.Trig2
  Spec.Blank Spec.Bins Spec.Freq Spec.Annulus
  Model.RfftToFft Model.StatsUtils Model.Psds
  Proofs.Fl_Proofs Proofs.StatsUtils_Proofs Proofs.StatsUtils2_Proofs Proofs.RfftToFft_Proofs
  Proofs.Psds_Proofs.
Import ListNotations.
Local Open Scope R_scope.

Lemma rmax_list_spec l : l <> [] -> is_max (rmax_list l) l.
Proof.
  induction l as [|a [|b l] IH]; intros H; [congruence| |].
  - cbn. split; [now left|]. intros y [->|[]]. lra.
  - destruct IH as [I1 I2]; [discriminate|].
    change (rmax_list (a :: b :: l)) with (Rmax a (rmax_list (b :: l))). split.
    + destruct (Rle_dec a (rmax_list (b :: l))).
      * rewrite Rmax_right by auto. now right.
      * rewrite Rmax_left by lra. now left.
    + intros y [<-|Hy]; [apply Rmax_l|]. eapply Rle_trans; [apply I2, Hy|apply Rmax_r].
Qed.

Lemma rmin_list_spec l : l <> [] -> is_min (rmin_list l) l.
Proof.
  induction l as [|a [|b l] IH]; intros H; [congruence| |].
  - cbn. split; [now left|]. intros y [->|[]]. lra.
  - destruct IH as [I1 I2]; [discriminate|].
    change (rmin_list (a :: b :: l)) with (Rmin a (rmin_list (b :: l))). split.
    + destruct (Rle_dec a (rmin_list (b :: l))).
      * rewrite Rmin_left by auto. now left.
      * rewrite Rmin_right by lra. now right.
    + intros y [<-|Hy]; [apply Rmin_l|]. eapply Rle_trans; [apply Rmin_r|apply I2, Hy].
Qed.

(** ** Edges *)

Lemma steps_increasing (e : list R) : (forall i, (S i < length e)%nat -> nth i e 0 < nth (S i) e 0) -> increasing e.
Proof.
  intros H i j Hij. destruct Hij as [Hij Hj]. induction j as [|j IH]; [lia|].
  destruct (Nat.eq_dec i j) as [->|Hne]; [apply H; lia|].
  apply Rlt_trans with (nth j e 0); [apply IH; lia|apply H; lia].
Qed.

Lemma linspace_increasing a b n : a < b -> increasing (linspace a b n).
Proof.
  intros Hab. apply steps_increasing. intros i Hi. rewrite linspace_length in Hi.
  pose proof (linspace_step a b n i) as E. rewrite !linspace_nth by lia.
  assert (0 < INR (n - 1)) by (apply lt_0_INR; lia). rewrite S_INR.
  assert (0 < (b - a) / INR (n - 1)) by (apply Rdiv_lt_0_compat; lra). lra.
Qed.

Lemma logspace_increasing a b n : 0 < a -> a < b -> increasing (logspace10 a b n).
Proof.
  intros Ha Hab. apply steps_increasing. intros i Hi. rewrite logspace_length in Hi.
  assert (H10 : 0 < ln 10) by (rewrite <- ln_1; apply ln_increasing; lra).
  assert (ln a < ln b) by now apply ln_increasing.
  unfold logspace10.
  rewrite !nth_indep with (d := 0) (d' := Rpower 10 0) by (rewrite map_length, linspace_length; lia).
  rewrite !(map_nth (fun e => Rpower 10 e)).
  unfold Rpower. apply exp_increasing, Rmult_lt_compat_r; auto.
  rewrite !linspace_nth by lia. rewrite S_INR.
  assert (0 < INR (n - 1)) by (apply lt_0_INR; lia).
  assert (0 < (ln b / ln 10 - ln a / ln 10) / INR (n - 1)).
  { apply Rdiv_lt_0_compat; [|lra]. unfold Rdiv. rewrite <- Rmult_minus_distr_r.
    apply Rmult_lt_0_compat; [lra|]. now apply Rinv_0_lt_compat. }
  lra.
Qed.

(** ** The profile *)

Section Profile.
  Variables (tppf : nat -> fl) (psd2 : list (list fl)) (nbins : option nat) (sd : bool) (binsize : R)
    (logspacing : bool) (max_bin min_bin : option R) (rf : bool) (theta_0 delta_theta : option R)
    (prof : radial_profile).
  Let ny := length psd2.
  Let nx := length (hd [] psd2).
  Hypothesis Hrun : pspec tppf psd2 nbins sd binsize logspacing max_bin min_bin rf theta_0 delta_theta nanmean = Ok prof.

  Definition sel_pixels (mask : option (nat -> nat -> bool)) : list (nat * nat) :=
    filter (fun p => is_fin (at2 NaN psd2 (fst p) (snd p)) &&
                     match mask with Some m => m (fst p) (snd p) | None => true end) (pixels ny nx).

  Definition bin_pixels (b : nat) : list (nat * nat) :=
    filter (fun p => opt_eqb (bin_number (prof_edges prof) (radial_distance rf ny nx (fst p) (snd p))) b)
           (sel_pixels (prof_mask prof)).

  Lemma bin_pixels_NoDup b : NoDup (bin_pixels b).
  Proof. unfold bin_pixels, sel_pixels. apply NoDup_filter, NoDup_filter, NoDup_pixels. Qed.

  Lemma bin_pixels_in b i j : increasing (prof_edges prof) -> (2 <= length (prof_edges prof))%nat ->
    In (i, j) (bin_pixels b) <-> in_annulus psd2 rf (prof_edges prof) (prof_mask prof) b i j.
  Proof.
    intros H1 H2. unfold bin_pixels, sel_pixels, in_annulus. fold ny nx.
    rewrite !filter_In, in_pixels, opt_eqb_spec, bin_number_spec by auto. cbn [fst snd].
    rewrite andb_true_iff. destruct (prof_mask prof) as [m|].
    - split.
      + intros [[[? ?] [? ?]] ?]. repeat (split; auto). intros m' E. now injection E as <-.
      + intros (? & ? & ? & Hm & ?). repeat (split; auto).
    - split; [intros [[[? ?] [? ?]] ?]|intros (? & ? & ? & Hm & ?)]; repeat (split; auto); discriminate.
  Qed.

  Lemma bin_pixels_vals b :
    map (fun p => at2 NaN psd2 (fst p) (snd p)) (bin_pixels b) = map Fin (map (pixel_value psd2) (bin_pixels b)).
  Proof.
    rewrite map_map. apply map_ext_in. intros p Hp. unfold bin_pixels, sel_pixels in Hp.
    apply filter_In in Hp. destruct Hp as [Hp _]. apply filter_In in Hp. destruct Hp as [_ Hp].
    apply andb_true_iff in Hp. destruct Hp as [Hp _]. unfold pixel_value.
    destruct (at2 NaN psd2 (fst p) (snd p)); try discriminate. reflexivity.
  Qed.

  Lemma pspec_shape :
    length (prof_ps1D prof) = (length (prof_edges prof) - 1)%nat /\
    prof_bins prof = centers (prof_edges prof) /\
    (theta_0 = None -> prof_mask prof = None) /\
    (forall t0, theta_0 = Some t0 -> exists dt, delta_theta = Some dt /\ prof_mask prof = Some (azim_mask ny nx t0 dt)) /\
    (forall b, (S b < length (prof_edges prof))%nat ->
       nth b (prof_ps1D prof) NaN =
         (if sd && Nat.leb (length (bin_pixels b)) 1 then NaN
          else nanmean (map (fun p => at2 NaN psd2 (fst p) (snd p)) (bin_pixels b))) /\
       match prof_stddev prof with
       | None => sd = false
       | Some s => sd = true /\
           nth b s NaN =
             if Nat.leb (length (bin_pixels b)) 1 then NaN
             else let A := fdiv (tppf (length (bin_pixels b))) (fsqrt (Fin (INR (length (bin_pixels b))))) in
                  let v := nanstd1 (map (fun p => at2 NaN psd2 (fst p) (snd p)) (bin_pixels b)) in
                  if fltb (Fin 1) A then fmul v A else v
       end).
  Proof.
    generalize Hrun. unfold pspec. fold ny nx. cbv zeta.
    set (mres := match theta_0 with None => Ok None | Some t0 => _ end).
    assert (Hm : (theta_0 = None -> mres = Ok None) /\
                 forall t0, theta_0 = Some t0 -> mres = Err ValueError \/ exists dt, delta_theta = Some dt /\ mres = Ok (Some (azim_mask ny nx t0 dt))).
    { unfold mres. split.
      - now intros ->.
      - intros t0 ->. destruct delta_theta; [right; eauto|now left]. }
    destruct mres as [mask|e] eqn:Em; cbn [bind]; [|discriminate].
    destruct (_ || _)%bool; [discriminate|].
    destruct (_ && negb _)%bool; [discriminate|].
    set (bins := if logspacing then _ else _).
    change (if rf then freqs_dist ny nx else dists ny nx) with (if rf then freqs_dist ny nx else dists ny nx).
    intros Hprof.
    assert (Hedges : prof_edges prof = bins) by (destruct sd; injection Hprof as <-; reflexivity).
    assert (Hbins : prof_bins prof = centers bins) by (destruct sd; injection Hprof as <-; reflexivity).
    assert (Hmask : prof_mask prof = mask) by (destruct sd; injection Hprof as <-; reflexivity).
    rewrite Hedges, Hbins, Hmask.
    assert (Hsel : forall b, in_bin_values bins
        (map (fun p => (if rf then freqs_dist ny nx else dists ny nx) (fst p) (snd p)) (sel_pixels mask))
        (map (fun p => at2 NaN psd2 (fst p) (snd p)) (sel_pixels mask)) b =
        map (fun p => at2 NaN psd2 (fst p) (snd p)) (bin_pixels b)).
    { intros b. rewrite in_bin_values_map. unfold bin_pixels. rewrite Hedges, Hmask.
      unfold radial_distance. destruct rf; reflexivity. }
    assert (Hstat : forall (W : Type) (stat : list fl -> W) b d, (S b < length bins)%nat ->
        nth b (binned_statistic stat bins
          (map (fun p => (if rf then freqs_dist ny nx else dists ny nx) (fst p) (snd p)) (sel_pixels mask))
          (map (fun p => at2 NaN psd2 (fst p) (snd p)) (sel_pixels mask))) d =
        stat (map (fun p => at2 NaN psd2 (fst p) (snd p)) (bin_pixels b))).
    { intros W stat b d Hb. unfold binned_statistic. rewrite tab1_nth by lia. now rewrite Hsel. }
    assert (Hlen : forall (W : Type) (stat : list fl -> W), length (binned_statistic stat bins
          (map (fun p => (if rf then freqs_dist ny nx else dists ny nx) (fst p) (snd p)) (sel_pixels mask))
          (map (fun p => at2 NaN psd2 (fst p) (snd p)) (sel_pixels mask))) = (length bins - 1)%nat).
    { intros. unfold binned_statistic. now rewrite tab1_length. }
    split.
    { destruct sd; cbn [negb] in Hprof; injection Hprof as <-; cbn [prof_ps1D]; unfold sel_pixels in Hlen.
      - rewrite map2_length. rewrite !Hlen. lia.
      - apply Hlen. }
    split; [auto|]. split.
    { intros H0. destruct Hm as [Hm _]. specialize (Hm H0). now injection Hm. }
    split.
    { intros t0 H0. destruct Hm as [_ Hm]. specialize (Hm t0 H0). destruct Hm as [Hm|[dt [H1 Hm]]]; [discriminate|].
      exists dt. split; auto. now injection Hm as ->. }
    intros b Hb.
    unfold sel_pixels in Hstat, Hlen.
    destruct sd; cbn [negb andb] in Hprof |- *; injection Hprof as <-; cbn [prof_ps1D prof_stddev].
    - split; [|split; [reflexivity|]].
      + rewrite map2_nth with (da := NaN) (db := 0%nat); [|rewrite Hlen; lia|rewrite Hlen; lia].
        rewrite !Hstat, map_length by auto. reflexivity.
      + rewrite map2_nth with (da := NaN) (db := 0%nat); [|rewrite map2_length, !Hlen; lia|rewrite Hlen; lia].
        rewrite map2_nth with (da := NaN) (db := 0%nat); [|rewrite Hlen; lia|rewrite Hlen; lia].
        rewrite !Hstat, map_length by auto. reflexivity.
    - split; [|reflexivity]. rewrite Hstat by auto. reflexivity.
  Qed.
End Profile.

Lemma annulus_mean tppf psd2 nbins sd binsize logspacing max_bin min_bin rf theta_0 delta_theta prof b :
  pspec tppf psd2 nbins sd binsize logspacing max_bin min_bin rf theta_0 delta_theta nanmean = Ok prof ->
  increasing (prof_edges prof) -> (S b < length (prof_edges prof))%nat ->
  exists px : list (nat * nat),
    NoDup px /\
    (forall i j, In (i, j) px <-> in_annulus psd2 rf (prof_edges prof) (prof_mask prof) b i j) /\
    (length px = 0%nat -> nth b (prof_ps1D prof) NaN = NaN) /\
    (length px = 1%nat -> sd = true -> nth b (prof_ps1D prof) NaN = NaN) /\
    ((2 <= length px)%nat \/ (length px = 1%nat /\ sd = false) ->
       nth b (prof_ps1D prof) NaN = Fin (rmean (map (pixel_value psd2) px))) /\
    match prof_stddev prof with
    | None => sd = false
    | Some s =>
        sd = true /\
        ((length px <= 1)%nat -> nth b s NaN = NaN) /\
        (forall t, (2 <= length px)%nat -> tppf (length px) = Fin t ->
           nth b s NaN = Fin (sample_std (map (pixel_value psd2) px) * Rmax 1 (t / sqrt (INR (length px)))))
    end.
Proof.
  intros Hrun Hinc Hb.
  destruct (pspec_shape _ _ _ _ _ _ _ _ _ _ _ _ Hrun) as (_ & _ & _ & _ & H). specialize (H b Hb).
  set (px := bin_pixels psd2 rf prof b) in *. exists px.
  assert (Hv : map (fun p => at2 NaN psd2 (fst p) (snd p)) px = map Fin (map (pixel_value psd2) px)) by apply bin_pixels_vals.
  rewrite Hv in H. destruct H as [H1 H2].
  assert (Hlen : forall l : list R, l <> [] -> nanmean (map Fin l) = Fin (rmean l)).
  { intros l Hl. rewrite nanmean_rmean; rewrite ?fins_map_Fin; auto. apply blankable_map_Fin. }
  split; [apply bin_pixels_NoDup|]. split; [intros; apply bin_pixels_in; auto; lia|].
  split; [|split; [|split]].
  - intros L. rewrite H1, L. destruct px; [|discriminate]. destruct sd; cbn [andb Nat.leb]; [reflexivity|].
    cbn [map]. unfold nanmean. unfold nancount. cbn. destruct (Reqb_spec 0 0); [|lra]. unfold sinf. destruct (Rltb_spec 0 0); [lra|]. reflexivity.
  - intros L ->. rewrite H1, L. reflexivity.
  - intros L. rewrite H1. assert (px <> []) by (destruct px; cbn in L; [lia|discriminate]).
    replace (sd && Nat.leb (length px) 1) with false.
    + apply Hlen. destruct px; [congruence|discriminate].
    + destruct L as [L|[L ->]]; [|reflexivity]. destruct (Nat.leb_spec (length px) 1); [lia|now rewrite andb_false_r].
  - destruct (prof_stddev prof) as [s|]; [|exact H2]. destruct H2 as [H2 H3]. split; [exact H2|]. split.
    + intros L. rewrite H3. destruct (Nat.leb_spec (length px) 1); [reflexivity|lia].
    + intros t L Ht. rewrite H3. destruct (Nat.leb_spec (length px) 1); [lia|]. cbv zeta.
      rewrite Ht. assert (Hn : 0 < INR (length px)) by (apply lt_0_INR; lia).
      assert (Hs : 0 < sqrt (INR (length px))) by now apply sqrt_lt_R0.
      rewrite fsqrt_fin by lra. rewrite fdiv_fin by lra.
      rewrite nanstd1_Fin by now rewrite map_length.
      cbn [fltb]. destruct (Rltb_spec 1 (t / sqrt (INR (length px)))) as [A|A].
      * rewrite Rmax_right by lra. reflexivity.
      * rewrite Rmax_left by lra. now rewrite Rmult_1_r.
Qed.

Lemma lsum_bounds l lo hi : (forall x, In x l -> lo <= x <= hi) ->
  INR (length l) * lo <= lsum l <= INR (length l) * hi.
Proof.
  induction l as [|x l IH]; intros H.
  - cbn. lra.
  - change (length (x :: l)) with (S (length l)). rewrite S_INR, lsum_cons.
    assert (B := H x (or_introl eq_refl)). assert (I := IH (fun y Hy => H y (or_intror Hy))). lra.
Qed.

Lemma rmean_between l : l <> [] -> exists a b, In a l /\ In b l /\ a <= rmean l <= b.
Proof.
  intros H. destruct (rmin_list_spec l H) as [A1 A2]. destruct (rmax_list_spec l H) as [B1 B2].
  exists (rmin_list l), (rmax_list l). split; [auto|]. split; [auto|].
  assert (Hn : 0 < INR (length l)) by (destruct l; [congruence|apply lt_0_INR; cbn; lia]).
  destruct (lsum_bounds l (rmin_list l) (rmax_list l)) as [L1 L2]; [intros; split; auto|].
  unfold rmean. split.
  - apply Rmult_le_reg_l with (INR (length l)); auto. replace (INR (length l) * (lsum l / INR (length l))) with (lsum l) by (field; lra). auto.
  - apply Rmult_le_reg_l with (INR (length l)); auto. replace (INR (length l) * (lsum l / INR (length l))) with (lsum l) by (field; lra). auto.
Qed.

Lemma annulus_between tppf psd2 nbins sd binsize logspacing max_bin min_bin rf theta_0 delta_theta prof b v :
  pspec tppf psd2 nbins sd binsize logspacing max_bin min_bin rf theta_0 delta_theta nanmean = Ok prof ->
  increasing (prof_edges prof) -> (S b < length (prof_edges prof))%nat ->
  nth b (prof_ps1D prof) NaN = Fin v ->
  exists p q : nat * nat,
    in_annulus psd2 rf (prof_edges prof) (prof_mask prof) b (fst p) (snd p) /\
    in_annulus psd2 rf (prof_edges prof) (prof_mask prof) b (fst q) (snd q) /\
    pixel_value psd2 p <= v <= pixel_value psd2 q.
Proof.
  intros Hrun Hinc Hb Hv.
  destruct (annulus_mean _ _ _ _ _ _ _ _ _ _ _ _ b Hrun Hinc Hb) as (px & _ & Hin & H0 & H1 & H2 & _).
  assert (Hl : (2 <= length px)%nat \/ (length px = 1%nat /\ sd = false)).
  { destruct px as [|p [|q px]]; [|destruct sd|left; cbn; lia].
    - rewrite H0 in Hv by reflexivity. discriminate.
    - rewrite H1 in Hv by reflexivity. discriminate.
    - now right. }
  rewrite H2 in Hv by auto. injection Hv as <-.
  destruct (rmean_between (map (pixel_value psd2) px)) as (a & c & Ha & Hc & Hac).
  { destruct px; [cbn in Hl; lia|discriminate]. }
  apply in_map_iff in Ha, Hc. destruct Ha as [[i j] [<- Ha]], Hc as [[k l] [<- Hc]].
  exists (i, j), (k, l). cbn [fst snd]. split; [now apply Hin|]. split; [now apply Hin|]. exact Hac.
Qed.

(** Every distance in range lies in exactly one annulus. *)
Lemma annulus_unique edges x : increasing edges -> (2 <= length edges)%nat ->
  (in_range edges x <-> exists b, in_bin edges b x) /\
  (forall b c, in_bin edges b x -> in_bin edges c x -> b = c).
Proof.
  intros H1 H2. split.
  - rewrite <- bin_number_range by auto. split; intros [b Hb]; exists b; now apply bin_number_spec.
  - intros b c Hb Hc. apply bin_number_spec in Hb, Hc; auto. congruence.
Qed.

Lemma pspec_edges tppf psd2 nbins sd binsize logspacing max_bin min_bin rf theta_0 delta_theta mf prof lo hi :
  pspec tppf psd2 (Some nbins) sd binsize logspacing max_bin min_bin rf theta_0 delta_theta mf = Ok prof ->
  (min_bin = Some lo \/ (min_bin = None /\ lo = if rf then 1 / INR (Nat.min (length psd2) (length (hd [] psd2))) else 1 / 2)) ->
  (max_bin = Some hi \/ (max_bin = None /\ if rf then hi = 1 / 2
     else is_max hi (map (fun p => dists (length psd2) (length (hd [] psd2)) (fst p) (snd p))
                         (pixels (length psd2) (length (hd [] psd2)))))) ->
  lo < hi -> (1 <= nbins)%nat ->
  length (prof_edges prof) = S nbins /\ increasing (prof_edges prof) /\
  nth 0 (prof_edges prof) 0 = lo /\ nth nbins (prof_edges prof) 0 = hi.
Proof.
  unfold pspec. set (ny := length psd2). set (nx := length (hd [] psd2)). cbv zeta. intros Hrun Hlo Hhi Hlt Hn.
  destruct (match theta_0 with None => Ok None | Some t0 => _ end) as [mask|e]; cbn [bind] in Hrun; [|discriminate].
  destruct (Nat.eqb_spec (length (pixels ny nx)) 0) as [|Hp]; [discriminate|]. cbn [orb] in Hrun.
  destruct (rf && _)%bool; [discriminate|].
  assert (Elo : match min_bin with Some b => b | None => if rf then 1 / INR (Nat.min ny nx) else 1 / 2 end = lo).
  { destruct Hlo as [->|[-> ->]]; auto. }
  assert (Ehi : match max_bin with Some b => b | None => if rf then 1 / 2 else
       rmax_list (map (fun p : nat * nat => dists ny nx (fst p) (snd p)) (pixels ny nx)) end = hi).
  { destruct Hhi as [->|[-> Hhi]]; auto. destruct rf; auto.
    eapply is_max_unique; [|exact Hhi]. apply rmax_list_spec. intros E. apply map_eq_nil in E. rewrite E in Hp. cbn in Hp. lia. }
  rewrite Elo, Ehi in Hrun.
  destruct logspacing; cbn [andb] in Hrun.
  - destruct (Rltb_spec 0 lo) as [L|L]; [|discriminate]. destruct (Rltb_spec 0 hi); [|discriminate]. cbn in Hrun.
    assert (E : prof_edges prof = logspace10 lo hi (nbins + 1)) by (destruct sd; injection Hrun as <-; reflexivity).
    rewrite E, logspace_length. split; [lia|]. split; [now apply logspace_increasing|].
    split; [apply logspace_first; [lia|auto]|].
    replace nbins with (nbins + 1 - 1)%nat at 1 by lia. apply logspace_last; [lia|auto].
  - assert (E : prof_edges prof = linspace lo hi (nbins + 1)) by (destruct sd; injection Hrun as <-; reflexivity).
    rewrite E, linspace_length. split; [lia|]. split; [now apply linspace_increasing|].
    split; [apply linspace_first; lia|].
    replace nbins with (nbins + 1 - 1)%nat at 1 by lia. apply linspace_last. lia.
Qed.

(** The distances used with return_freqs. *)
Lemma freqs_dist_spec ny nx i j : (i < ny)%nat -> (j < nx)%nat ->
  exists fy fx,
    is_freq ny (unshift ny (ny - 1 - i)) fy /\ is_freq nx (unshift nx j) fx /\
    fy = at2 0 (yy_freq ny nx) i j /\ fx = at2 0 (xx_freq ny nx) i j /\
    (fy <> 0 \/ fx <> 0 -> freqs_dist ny nx i j = sqrt (fy * fy + fx * fx)).
Proof.
  intros Hi Hj. exists (at2 0 (yy_freq ny nx) i j), (at2 0 (xx_freq ny nx) i j).
  split; [rewrite yy_freq_at by auto; apply fftfreq_is_freq, unshift_lt; lia|].
  split; [rewrite xx_freq_at by auto; apply fftfreq_is_freq, unshift_lt; lia|].
  split; [reflexivity|]. split; [reflexivity|]. intros H. unfold freqs_dist.
  destruct (Reqb_spec (freqs_raw ny nx i j) 0) as [E|E]; [|reflexivity].
  exfalso. unfold freqs_raw in E. set (a := at2 0 (yy_freq ny nx) i j) in *. set (c := at2 0 (xx_freq ny nx) i j) in *.
  apply sqrt_eq_0 in E; nra.
Qed.

Lemma freqs_dist_zero ny nx i j : (i < ny)%nat -> (j < nx)%nat -> nonzero_freqs ny nx <> [] ->
  at2 0 (yy_freq ny nx) i j = 0 -> at2 0 (xx_freq ny nx) i j = 0 ->
  exists r, is_min r (nonzero_freqs ny nx) /\ freqs_dist ny nx i j = r / 2.
Proof.
  intros Hi Hj Hne Ey Ex. exists (rmin_list (nonzero_freqs ny nx)). split; [now apply rmin_list_spec|].
  unfold freqs_dist, freqs_raw. rewrite Ey, Ex.
  replace (0 * 0 + 0 * 0) with 0 by ring. rewrite sqrt_0. destruct (Reqb_spec 0 0); [reflexivity|lra].
Qed.

(** ** VCA (C14) *)

Lemma vca_ps2D_at nz ny nx a i j : (1 <= nz)%nat -> (i < ny)%nat -> (j < nx)%nat ->
  at2 0 (vca_ps2D nz ny nx a) i j =
  INR nz * rsum nz (fun z => Cnorm2 (dft2 ny nx (fun y x => RtoC (a z y x)) (unshift ny (ny - 1 - i)) (unshift nx j))).
Proof.
  intros Hz Hi Hj. unfold vca_ps2D. rewrite rfft_3d by lia. rewrite fftshift3_tab.
  assert (E : forall g : nat -> nat -> nat -> R, map (map (map (fun v => v * v))) (tab3 nz ny nx g) =
              tab3 nz ny nx (fun k i j => g k i j * g k i j)).
  { intros g. unfold tab3, tab2, tab1. rewrite map_map. apply map_ext. intros. rewrite map_map.
    apply map_ext. intros. rewrite map_map. reflexivity. }
  rewrite E. unfold sum_axis0. rewrite flip2_tab, at2_tab by auto.
  set (ky := unshift ny (ny - 1 - i)). set (kx := unshift nx j).
  rewrite rsum_ext with (g := fun z => Cnorm2 (dft3 nz ny nx (fun z y x => RtoC (a z y x)) (unshift nz z) ky kx)).
  2:{ intros z Hz'. rewrite at3_tab by lia. apply Cmod_sqr. }
  rewrite (rsum_reindex nz (fun k => Cnorm2 (dft3 nz ny nx (fun z y x => RtoC (a z y x)) k ky kx)) (unshift nz)).
  2:{ intros k Hk. now apply unshift_lt. }
  2:{ intros k l Hk Hl. now apply unshift_inj. }
  rewrite rsum_ext with (g := fun kz => Cnorm2 (dft1 nz (fun z => dft2 ny nx (fun y x => RtoC (a z y x)) ky kx) kz)).
  2:{ intros. now rewrite dft3_z. }
  rewrite parseval. reflexivity.
Qed.

Lemma vca_ps2D_channels nz ny nx (a : nat -> nat -> nat -> R) i j : (1 <= nz)%nat -> (i < ny)%nat -> (j < nx)%nat ->
  exists ky kx, (ky < ny)%nat /\ (kx < nx)%nat /\
    at2 0 (vca_ps2D nz ny nx a) i j = INR nz * rsum nz (fun z => Cnorm2 (dft2 ny nx (fun y x => RtoC (a z y x)) ky kx)) /\
    is_freq ny ky (at2 0 (yy_freq ny nx) i j) /\ is_freq nx kx (at2 0 (xx_freq ny nx) i j).
Proof.
  intros Hz Hi Hj. exists (unshift ny (ny - 1 - i)), (unshift nx j).
  assert (unshift ny (ny - 1 - i) < ny)%nat by (apply unshift_lt; lia).
  assert (unshift nx j < nx)%nat by now apply unshift_lt.
  split; [auto|]. split; [auto|]. split; [now apply vca_ps2D_at|].
  rewrite yy_freq_at, xx_freq_at by auto. split; now apply fftfreq_is_freq.
Qed.

(** VCA as the sum of the power spectra of its channel maps. *)
Lemma vca_sum_of_channels nz ny nx (a : nat -> nat -> nat -> R) i j : (1 <= nz)%nat -> (i < ny)%nat -> (j < nx)%nat ->
  at2 0 (vca_ps2D nz ny nx a) i j = INR nz * rsum nz (fun z => at2 0 (power_ps2D ny nx (a z)) i j).
Proof.
  intros. rewrite vca_ps2D_at by auto. f_equal. apply rsum_ext. intros. now rewrite power_ps2D_at.
Qed.

(** ** VCS (C15) *)

Lemma parseval2 ny nx a :
  rsum ny (fun ky => rsum nx (fun kx => Cnorm2 (dft2 ny nx a ky kx))) =
  INR ny * INR nx * rsum ny (fun y => rsum nx (fun x => Cnorm2 (a y x))).
Proof.
  rewrite rsum_ext with (g := fun ky => INR nx * rsum nx (fun x => Cnorm2 (dft1 ny (fun y => a y x) ky))).
  2:{ intros ky Hky. rewrite <- parseval. apply rsum_ext. intros kx Hkx. f_equal. apply dft2_cols. }
  rewrite rsum_scal, rsum_exchange.
  rewrite rsum_ext with (g := fun x => INR ny * rsum ny (fun y => Cnorm2 (a y x))).
  2:{ intros x Hx. apply parseval. }
  rewrite rsum_scal, rsum_exchange. ring.
Qed.

Lemma vcs_ps1D_at nz ny nx cube kz : (1 <= nz)%nat -> (1 <= ny)%nat -> (1 <= nx)%nat -> (kz < nz)%nat ->
  (1 <= vcs_good nz ny nx cube)%nat ->
  nth kz (vcs_ps1D nz ny nx cube) NaN =
  Fin (INR (ny * nx) / INR (vcs_good nz ny nx cube) *
       rsum ny (fun y => rsum nx (fun x => Cnorm2 (dft1 nz (fun z => RtoC (clean3 cube z y x)) kz)))).
Proof.
  intros Hz Hy Hx Hk Hg. unfold vcs_ps1D. rewrite rfft_3d by lia. rewrite tab1_nth by auto.
  assert (0 < INR (vcs_good nz ny nx cube)) by (apply lt_0_INR; lia).
  rewrite fdiv_fin by lra. f_equal.
  rewrite rsum_ext with (g := fun y => rsum nx (fun x => Cnorm2 (dft3 nz ny nx (fun z y x => RtoC (clean3 cube z y x)) kz y x))).
  2:{ intros y Hy'. apply rsum_ext. intros x Hx'. rewrite at3_tab by auto. apply Cmod_sqr. }
  rewrite rsum_ext with (g := fun y => rsum nx (fun x => Cnorm2 (dft2 ny nx (fun y x => dft1 nz (fun z => RtoC (clean3 cube z y x)) kz) y x))).
  2:{ intros y Hy'. apply rsum_ext. intros x Hx'. now rewrite dft3_yx. }
  rewrite parseval2, mult_INR. field. lra.
Qed.
