(** Proofs about changing the slice thickness. *)
From Coq Require Import Reals List ZArith Arith Bool String Lia Lra.
From Coq Require Import List.
From Verif Require Import Lib.PyBase Lib.RSum Lib.Fl Lib.Arr Spec.Blank Spec.Bins Spec.Spectral Model.StatsUtils Model.Scf Model.Psds Model.DeltaVar Model.SliceThickness
  Proofs.Fl_Proofs Proofs.Psds2_Proofs Proofs.StatsUtils2_Proofs Proofs.Wavelet_Proofs Proofs.Wavelet2_Proofs Proofs.Wavelet3_Proofs.
Import ListNotations.
Local Open Scope R_scope.

Lemma ceil_rounded r : rounded_up r (np_ceil r).
Proof. pose proof (ceil_bounds r). unfold rounded_up. lra. Qed.
Lemma rounded_up_unique r k : rounded_up r k -> np_ceil r = k.
Proof. intros H. pose proof (ceil_bounds r). unfold rounded_up in H. assert (np_ceil r < k + 1)%Z by (apply lt_IZR; rewrite plus_IZR; lra). assert (k < np_ceil r + 1)%Z by (apply lt_IZR; rewrite plus_IZR; lra). lia. Qed.

(** ** Regridding *)
Lemma regrid_ratio c a b l w ratio : spectral_axis c = a :: b :: l -> a <> b -> 0 < axis_unit c -> (forall v s, w = WSpec v s -> 0 < s) ->
  ratio_is c (b - a) w ratio ->
  exists target, Rabs (target / (b - a)) = ratio /\ Rabs target = ratio * Rabs (b - a) /\ regrid c w =
    if Reqb ratio 1 then Ok SameCube else if Rltb ratio 1 then Err ValueError
    else Ok (Regridded (sqrt (target ^ 2 - (b - a) ^ 2) / Rabs (b - a) / sqrt (8 * ln 2))
              (let x := linspace (rmin_list (spectral_axis c)) (rmax_list (spectral_axis c)) (Z.to_nat (Int_part (INR (List.length (spectral_axis c)) / ratio))) in
               if Rltb (b - a) 0 then rev x else x)).
Proof.
  intros E D U W RR. assert (N : b - a <> 0) by lra. assert (P : 0 < Rabs (b - a)) by (apply Rabs_pos_lt; assumption).
  assert (G : exists target, Rabs (target / (b - a)) = ratio /\ regrid c w = (let diff_factor := Rabs (target / (b - a)) in
      if Reqb diff_factor 1 then Ok SameCube
      else if Rltb diff_factor 1 then Err ValueError
      else
        let gaussian_width := sqrt (target ^ 2 - (b - a) ^ 2) / Rabs (b - a) / sqrt (8 * ln 2) in
        let num_chan := Z.to_nat (Int_part (INR (List.length (spectral_axis c)) / diff_factor)) in
        let new_axis := linspace (rmin_list (spectral_axis c)) (rmax_list (spectral_axis c)) num_chan in
        Ok (Regridded gaussian_width (if Rltb (b - a) 0 then rev new_axis else new_axis)))).
  { unfold regrid, channel_step. destruct w as [n|v|v s|v|]; cbn [ratio_is] in RR; try contradiction; rewrite E; cbn [bind].
    - exists (v * (b - a)). split; [|reflexivity]. rewrite RR. f_equal. field. assumption.
    - exists (v * (s / axis_unit c)). split; [|reflexivity]. rewrite RR. unfold Rdiv. rewrite !Rabs_mult, !Rabs_inv, (Rabs_pos_eq s), (Rabs_pos_eq (axis_unit c)) by (specialize (W v s eq_refl); lra).
      field. split; lra. }
  destruct G as [t [G1 G2]]. exists t. split; [assumption|]. split.
  - rewrite <- G1. unfold Rdiv. rewrite Rabs_mult, Rabs_inv. field. lra.
  - rewrite G2. cbv zeta. rewrite G1. reflexivity.
Qed.

Theorem regrid_rule c a b l w ratio : spectral_axis c = a :: b :: l -> a <> b -> 0 < axis_unit c -> (forall v s, w = WSpec v s -> 0 < s) ->
  ratio_is c (b - a) w ratio ->
  (ratio < 1 -> regrid c w = Err ValueError) /\ (ratio = 1 -> regrid c w = Ok SameCube) /\
  (1 < ratio -> exists g x, regrid c w = Ok (Regridded g x) /\ rounded_down (INR (List.length (spectral_axis c)) / ratio) (Z.of_nat (List.length x)) /\
    fwhm (g * Rabs (b - a)) ^ 2 + (b - a) ^ 2 = (ratio * (b - a)) ^ 2).
Proof.
  intros E D U W RR. destruct (regrid_ratio c a b l w ratio E D U W RR) as (t&T1&T2&->). assert (P : 0 < Rabs (b - a)) by (apply Rabs_pos_lt; lra).
  unfold Reqb, Rltb. split; [|split]; intros H.
  - destruct (Req_EM_T ratio 1); [lra|]. destruct (Rlt_dec ratio 1); [reflexivity|lra].
  - destruct (Req_EM_T ratio 1); [reflexivity|lra].
  - destruct (Req_EM_T ratio 1); [lra|]. destruct (Rlt_dec ratio 1); [lra|]. eexists. eexists. split; [reflexivity|]. split.
    + cbv zeta. assert (L : forall x : list R, List.length (if if Rlt_dec (b - a) 0 then true else false then rev x else x) = List.length x).
      { intros x. destruct (Rlt_dec (b - a) 0); [apply rev_length|reflexivity]. }
      rewrite L, linspace_length. set (q := INR (List.length (spectral_axis c)) / ratio).
      assert (Q : 0 <= q) by (apply Rmult_le_pos; [apply pos_INR|left; apply Rinv_0_lt_compat; lra]).
      pose proof (base_Int_part q) as [I1 I2]. assert (0 <= Int_part q)%Z by (assert (-1 < Int_part q)%Z; [apply lt_IZR; lra|lia]).
      rewrite Z2Nat.id by assumption. unfold rounded_down. lra.
    + assert (F : 0 < sqrt (8 * ln 2)) by (apply sqrt_lt_R0; pose proof ln2_lower; lra).
      replace (fwhm (sqrt (t ^ 2 - (b - a) ^ 2) / Rabs (b - a) / sqrt (8 * ln 2) * Rabs (b - a))) with (sqrt (t ^ 2 - (b - a) ^ 2)) by (unfold fwhm; field; lra).
      assert (T3 : t ^ 2 = ratio ^ 2 * (b - a) ^ 2). { rewrite <- (pow2_abs t), T2, Rpow_mult_distr, pow2_abs. reflexivity. }
      rewrite pow2_sqrt; [rewrite T3; ring|]. rewrite T3. replace (ratio ^ 2 * (b - a) ^ 2 - (b - a) ^ 2) with ((ratio ^ 2 - 1) * (b - a) ^ 2) by ring. apply Rmult_le_pos; [nra|apply pow2_ge_0].
Qed.

Theorem bad_calls c w f h m : m <> "regrid"%string -> m <> "downsample"%string ->
  spectral_regrid_cube (Some c) w m f h = (Some c, Err ValueError) /\ spectral_regrid_cube None w m f h = (None, Err TypeError).
Proof.
  intros A B. split; [|reflexivity]. cbn [spectral_regrid_cube]. destruct (String.eqb_spec m "regrid"); [contradiction|]. destruct (String.eqb_spec m "downsample"); [contradiction|]. reflexivity.
Qed.
Lemma call_downsample c w f h : snd (spectral_regrid_cube (Some c) w "downsample" f h) = downsample (mk_cube (spectral_axis c) (axis_unit c) h) w f.
Proof. reflexivity. Qed.
Lemma call_regrid c w f h : snd (spectral_regrid_cube (Some c) w "regrid" f h) = regrid (mk_cube (spectral_axis c) (axis_unit c) h) w.
Proof. reflexivity. Qed.

(** ** Downsampling *)
Theorem downsample_rule c a b l f : spectral_axis c = a :: b :: l -> a <> b ->
  (forall n, downsample c (WInt n) f = Ok (Downsampled n NanMean)) /\
  (forall v k, rounded_up v k -> downsample c (WPix v) f = Ok (Downsampled k NanMean)) /\
  (forall v k, rounded_up (v / Rabs (b - a)) k -> downsample c (WSpec v (axis_unit c)) f = Ok (Downsampled k NanMean)).
Proof.
  intros E D. unfold downsample, channel_step. rewrite E. repeat split; intros v k H; cbn [bind]; rewrite (rounded_up_unique _ _ H); reflexivity.
Qed.
Lemma nanmean_one v : blankable v -> nanmean [v] = v.
Proof.
  destruct v; intros B; try contradiction; cbn.
  - unfold nanmean, nansum, nancount. cbn. unfold Reqb. destruct (Req_EM_T _ 0) as [Q|Q]; [exfalso; lra|]. f_equal. field.
  - unfold nanmean, nansum, nancount. cbn. unfold Reqb. destruct (Req_EM_T 0 0) as [Q|Q]; [|congruence]. unfold sinf, Rltb. destruct (Rlt_dec 0 0); [lra|reflexivity].
Qed.
Lemma blocks_one fuel l : (List.length l <= fuel)%nat -> blocks fuel 1 l = map (fun v => [v]) l.
Proof.
  revert l. induction fuel as [|fuel IH]; intros [|v l] H; cbn in H; try lia; try reflexivity.
  cbn [blocks firstn skipn map]. f_equal. apply IH. lia.
Qed.
Theorem downsample_same l : (forall v, In v l -> blankable v) -> downsample_axis 1 NanMean l = l.
Proof.
  intros H. unfold downsample_axis. rewrite blocks_one by lia. rewrite map_map. rewrite <- (map_id l) at 2. apply map_ext_in. intros v V. apply nanmean_one. auto.
Qed.

Lemma fold_min_in x l : fold_right Rmin x l = x \/ In (fold_right Rmin x l) l.
Proof.
  induction l as [|a l IH]; [left; reflexivity|]. cbn [fold_right]. destruct (Rle_dec a (fold_right Rmin x l)).
  - rewrite Rmin_left by assumption. right. left. reflexivity.
  - rewrite Rmin_right by lra. destruct IH as [IH|IH]; [left; assumption|right; right; assumption].
Qed.
Lemma fold_max_in x l : fold_right Rmax x l = x \/ In (fold_right Rmax x l) l.
Proof.
  induction l as [|a l IH]; [left; reflexivity|]. cbn [fold_right]. destruct (Rle_dec a (fold_right Rmax x l)).
  - rewrite Rmax_right by assumption. destruct IH as [IH|IH]; [left; assumption|right; right; assumption].
  - rewrite Rmax_left by lra. right. left. reflexivity.
Qed.
Lemma rmin_is l m : In m l -> (forall y, In y l -> m <= y) -> rmin_list l = m.
Proof.
  intros I H. destruct l as [|x l]; [destruct I|]. apply Rle_antisym; [apply min_list_le; assumption|]. apply H. cbn [rmin_list].
  destruct (fold_min_in x l) as [->|K]; [left; reflexivity|right; assumption].
Qed.
Lemma rmax_is l m : In m l -> (forall y, In y l -> y <= m) -> rmax_list l = m.
Proof.
  intros I H. destruct l as [|x l]; [destruct I|]. apply Rle_antisym; [|apply max_list_ge; assumption]. apply H. cbn [rmax_list].
  destruct (fold_max_in x l) as [->|K]; [left; reflexivity|right; assumption].
Qed.
Lemma in_channels first step n y : In y (channels first step n) <-> exists i, (i < n)%nat /\ y = first + INR i * step.
Proof.
  unfold channels. rewrite in_map_iff. split; intros [i [A B]]; exists i.
  - apply in_seq in B. split; [lia|auto].
  - split; [auto|apply in_seq; lia].
Qed.
Lemma channels_range first step n : (1 <= n)%nat ->
  (0 <= step -> rmin_list (channels first step n) = first /\ rmax_list (channels first step n) = first + INR (n - 1) * step) /\
  (step <= 0 -> rmax_list (channels first step n) = first /\ rmin_list (channels first step n) = first + INR (n - 1) * step).
Proof.
  intros N. assert (I0 : In first (channels first step n)) by (apply in_channels; exists 0%nat; split; [lia|cbn; ring]).
  assert (I1 : In (first + INR (n - 1) * step) (channels first step n)) by (apply in_channels; exists (n - 1)%nat; split; [lia|reflexivity]).
  assert (B : forall i, (i < n)%nat -> 0 <= INR i <= INR (n - 1)) by (intros i I; split; [apply pos_INR|apply le_INR; lia]).
  split; intros S; split; (apply rmin_is || apply rmax_is); try assumption; intros y Y; apply in_channels in Y; destruct Y as [i [I ->]]; specialize (B i I); nra.
Qed.
Lemma linspace_channels a b k : (2 <= k)%nat -> linspace a b k = channels a ((b - a) / INR (k - 1)) k.
Proof.
  intros K. destruct k as [|[|k]]; try lia. unfold linspace, channels, tab1. apply map_ext. intros i. replace (S (S k) - 1)%nat with (S k) by lia. reflexivity.
Qed.
Lemma channels_length a s n : List.length (channels a s n) = n.
Proof. unfold channels. rewrite map_length, seq_length. reflexivity. Qed.
Lemma channels_nth a s n i : (i < n)%nat -> nth i (channels a s n) 0 = a + INR i * s.
Proof.
  intros I. unfold channels. rewrite (nth_indep _ 0 ((fun i => a + INR i * s) 0%nat)) by (rewrite map_length, seq_length; assumption).
  rewrite (map_nth (fun i => a + INR i * s)), seq_nth by assumption. reflexivity.
Qed.
Lemma channels_rev a s n : (1 <= n)%nat -> rev (channels a s n) = channels (a + INR (n - 1) * s) (- s) n.
Proof.
  intros N. apply (nth_ext _ _ 0 0); rewrite rev_length, !channels_length; [reflexivity|]. intros i I.
  rewrite rev_nth, channels_length, !channels_nth by (rewrite ?channels_length; lia). rewrite (minus_INR n (S i)), minus_INR, S_INR by lia. cbn [INR]. ring.
Qed.

Lemma channels_two first step n : (2 <= n)%nat -> exists l, channels first step n = first :: (first + step) :: l.
Proof.
  intros N. destruct n as [|[|n]]; try lia. eexists. unfold channels. cbn [seq map INR]. apply f_equal2; [ring|]. apply f_equal2; [ring|reflexivity].
Qed.
Lemma regrid_axis first step n unit_ h w ratio : (2 <= n)%nat -> step <> 0 -> 0 < unit_ -> (forall v s, w = WSpec v s -> 0 < s) ->
  let c := mk_cube (channels first step n) unit_ h in
  ratio_is c step w ratio -> 1 < ratio ->
  exists g, regrid c w = Ok (Regridded g (let x := linspace (if Rltb step 0 then first + INR (n - 1) * step else first) (if Rltb step 0 then first else first + INR (n - 1) * step) (Z.to_nat (Int_part (INR n / ratio))) in
     if Rltb step 0 then rev x else x)).
Proof.
  intros N S U W c RR H. destruct (channels_two first step n N) as [l L].
  destruct (regrid_ratio c first (first + step) l w ratio) as (t&T1&T2&E); try assumption; [lra|replace (first + step - first) with step by ring; assumption|].
  rewrite E. unfold Reqb. destruct (Req_EM_T ratio 1); [lra|]. unfold Rltb at 1. destruct (Rlt_dec ratio 1); [lra|]. eexists. apply (f_equal Ok), (f_equal (Regridded _)).
  cbv zeta. unfold c. cbn [spectral_axis]. rewrite channels_length. replace (first + step - first) with step by ring. unfold Rltb. destruct (Rlt_dec step 0) as [Q|Q].
  - destruct (channels_range first step n) as [_ G]; [lia|]. destruct G as [-> ->]; [lra|]. reflexivity.
  - destruct (channels_range first step n) as [G _]; [lia|]. destruct G as [-> ->]; [lra|]. reflexivity.
Qed.
Lemma floor_is r k : rounded_down r (Z.of_nat k) -> Z.to_nat (Int_part r) = k.
Proof. intros H. rewrite (int_part_bounds r (Z.of_nat k)) by exact H. apply Nat2Z.id. Qed.

Theorem new_axis first step n unit_ h w ratio k : (2 <= n)%nat -> step <> 0 -> 0 < unit_ -> (forall v s, w = WSpec v s -> 0 < s) ->
  let c := mk_cube (channels first step n) unit_ h in
  ratio_is c step w ratio -> 1 < ratio -> (2 <= k)%nat -> rounded_down (INR n / ratio) (Z.of_nat k) ->
  exists g step', regrid c w = Ok (Regridded g (channels first step' k)) /\ first + INR (k - 1) * step' = first + INR (n - 1) * step /\
    0 < step' * step /\ ratio * Rabs step < Rabs step'.
Proof.
  intros N S U W c RR H K F. destruct (regrid_axis first step n unit_ h w ratio N S U W RR H) as [g E]. fold c in E. rewrite (floor_is _ _ F) in E. cbv zeta in E.
  exists g, (INR (n - 1) * step / INR (k - 1)).
  assert (PK : 1 <= INR (k - 1)) by (change 1 with (INR 1); apply le_INR; lia). assert (PN : 1 <= INR (n - 1)) by (change 1 with (INR 1); apply le_INR; lia).
  assert (EK : INR k = INR (k - 1) + 1) by (rewrite minus_INR by lia; cbn; ring). assert (EN : INR n = INR (n - 1) + 1) by (rewrite minus_INR by lia; cbn; ring).
  split; [|split; [|split]].
  - rewrite E. apply (f_equal Ok), (f_equal (Regridded g)). rewrite linspace_channels by assumption. unfold Rltb. destruct (Rlt_dec step 0).
    + rewrite channels_rev by lia. f_equal; field; lra.
    + f_equal. field. lra.
  - field. lra.
  - replace (INR (n - 1) * step / INR (k - 1) * step) with (INR (n - 1) / INR (k - 1) * (step * step)) by (field; lra).
    apply Rmult_lt_0_compat; [apply Rdiv_lt_0_compat; lra|]. nra.
  - unfold Rdiv. rewrite !Rabs_mult, Rabs_inv, (Rabs_pos_eq (INR (n - 1))), (Rabs_pos_eq (INR (k - 1))) by lra.
    assert (P : 0 < Rabs step) by (apply Rabs_pos_lt; assumption). replace (INR (n - 1) * Rabs step * / INR (k - 1)) with (INR (n - 1) / INR (k - 1) * Rabs step) by (unfold Rdiv; ring).
    apply Rmult_lt_compat_r; [assumption|]. apply Rmult_lt_reg_r with (INR (k - 1)); [lra|]. unfold Rdiv. rewrite Rmult_assoc, Rinv_l by lra. rewrite Rmult_1_r.
    destruct F as [F _]. rewrite <- INR_IZR_INZ in F. apply Rmult_le_compat_r with (r := ratio) in F; [|lra]. unfold Rdiv in F. rewrite Rmult_assoc, Rinv_l in F by lra. nra.
Qed.
Theorem few_channels first step n unit_ h w ratio : (2 <= n)%nat -> step <> 0 -> 0 < unit_ -> (forall v s, w = WSpec v s -> 0 < s) ->
  let c := mk_cube (channels first step n) unit_ h in
  ratio_is c step w ratio -> 1 < ratio ->
  (INR n / 2 < ratio <= INR n -> exists g, regrid c w = Ok (Regridded g [Rmin first (first + INR (n - 1) * step)])) /\
  (INR n < ratio -> exists g, regrid c w = Ok (Regridded g [])).
Proof.
  intros N S U W c RR H. destruct (regrid_axis first step n unit_ h w ratio N S U W RR H) as [g E]. fold c in E. cbv zeta in E.
  assert (PN : 1 <= INR (n - 1)) by (change 1 with (INR 1); apply le_INR; lia). assert (P2 : 2 <= INR n) by (change 2 with (INR 2); apply le_INR; lia).
  assert (Q : forall y, 0 < y -> INR n / ratio < y <-> INR n < y * ratio).
  { intros y Y. split; intros G.
    - apply Rmult_lt_compat_r with (r := ratio) in G; [|lra]. unfold Rdiv in G. rewrite Rmult_assoc, Rinv_l in G by lra. lra.
    - apply Rmult_lt_reg_r with ratio; [lra|]. unfold Rdiv. rewrite Rmult_assoc, Rinv_l by lra. lra. }
  split; intros G; exists g; rewrite E.
  - rewrite (floor_is _ 1%nat).
    + cbn [linspace]. unfold Rltb. destruct (Rlt_dec step 0); cbn [rev app].
      * rewrite Rmin_right by nra. reflexivity.
      * rewrite Rmin_left by nra. reflexivity.
    + unfold rounded_down. cbn [Z.of_nat Pos.of_succ_nat]. split.
      * apply Rmult_le_reg_r with ratio; [lra|]. unfold Rdiv. rewrite Rmult_assoc, Rinv_l by lra. lra.
      * apply Q; lra.
  - rewrite (floor_is _ 0%nat).
    + cbn [linspace]. unfold Rltb. destruct (Rlt_dec step 0); reflexivity.
    + unfold rounded_down. cbn [Z.of_nat]. split.
      * apply Rmult_le_pos; [lra|]. left. apply Rinv_0_lt_compat. lra.
      * apply Q; lra.
Qed.

(** ** Units and function of the downsampling *)
Theorem regrid_units c v s v' s' : v * s = v' * s' -> regrid c (WSpec v s) = regrid c (WSpec v' s').
Proof.
  intros H. unfold regrid. destruct (channel_step c) as [x|e]; [|reflexivity]. cbn [bind].
  replace (v * (s / axis_unit c)) with (v' * (s' / axis_unit c)); [reflexivity|]. unfold Rdiv. rewrite <- !Rmult_assoc, H. reflexivity.
Qed.
Theorem downsample_units f : let c := mk_cube (channels 0 100 5) 1 false in
  300 * 1 = 3 / 10 * 1000 /\ downsample c (WSpec 300 1) f = Ok (Downsampled 3 NanMean) /\ downsample c (WSpec (3 / 10) 1000) f = Ok (Downsampled 1 NanMean).
Proof.
  cbv zeta. split; [lra|]. destruct (channels_two 0 100 5) as [l L]; [lia|]. unfold downsample, channel_step. cbn [spectral_axis]. rewrite L. cbn [bind].
  replace (0 + 100 - 0) with 100 by ring. rewrite Rabs_pos_eq by lra.
  rewrite (rounded_up_unique (300 / 100) 3) by (unfold rounded_up; lra). rewrite (rounded_up_unique (3 / 10 / 100) 1) by (unfold rounded_up; lra). split; reflexivity.
Qed.
Theorem small_width c a b l f v : spectral_axis c = a :: b :: l -> 0 < v < Rabs (b - a) ->
  downsample c (WSpec v (axis_unit c)) f = Ok (Downsampled 1 NanMean) /\ (forall r, 0 < r < 1 -> downsample c (WPix r) f = Ok (Downsampled 1 NanMean)).
Proof.
  intros E V. unfold downsample, channel_step. rewrite E. cbn [bind]. split.
  - rewrite (rounded_up_unique _ 1); [reflexivity|]. unfold rounded_up. split.
    + assert (0 < v / Rabs (b - a)) by (apply Rdiv_lt_0_compat; lra). lra.
    + apply Rmult_le_reg_r with (Rabs (b - a)); [lra|]. unfold Rdiv. rewrite Rmult_assoc, Rinv_l by lra. lra.
  - intros r R1. rewrite (rounded_up_unique _ 1); [reflexivity|]. unfold rounded_up. lra.
Qed.
Theorem function_ignored c w f g h : snd (spectral_regrid_cube (Some c) w "downsample" f h) = snd (spectral_regrid_cube (Some c) w "downsample" g h).
Proof. reflexivity. Qed.

(** ** The downsampled spectrum *)
Lemma nanmean_Fin l : l <> [] -> nanmean (map Fin l) = Fin (rmean l).
Proof.
  intros N. assert (L : 0 < INR (List.length l)) by (apply length_pos; assumption).
  assert (NN : nonnan (map Fin l) = map Fin l). { clear. induction l as [|a l IH]; [reflexivity|]. cbn. f_equal. exact IH. }
  assert (F : forall l, fsum (map Fin l) = Fin (lsum l)). { clear. induction l as [|a l IH]; [reflexivity|]. change (map Fin (a :: l)) with (Fin a :: map Fin l). unfold fsum in *. cbn [fold_right]. rewrite IH. reflexivity. }
  unfold nanmean, nansum, nancount. rewrite NN, F, map_length. unfold fdiv, Reqb. destruct (Req_EM_T (INR (List.length l)) 0); [lra|reflexivity].
Qed.
Lemma lsum_firstn_skipn k l : lsum l = lsum (firstn k l) + lsum (skipn k l).
Proof. rewrite <- (firstn_skipn k l) at 1. apply lsum_app. Qed.
Lemma skip_skip {A} a b (l : list A) : skipn a (skipn b l) = skipn (b + a) l.
Proof. revert l. induction b as [|b IH]; intros l; [reflexivity|]. destruct l; [rewrite !skipn_nil; reflexivity|]. cbn [skipn plus]. apply IH. Qed.
Theorem downsample_flux factor m : (1 <= factor)%nat -> forall l : list R, List.length l = (m * factor)%nat ->
  exists l', downsample_axis factor NanMean (map Fin l) = map Fin l' /\ List.length l' = m /\ INR factor * lsum l' = lsum l /\
  forall k, (k < m)%nat -> nth k l' 0 = rmean (firstn factor (skipn (k * factor) l)).
Proof.
  intros F. unfold downsample_axis. rename m into M.
  assert (G : forall m fuel l, List.length l = (m * factor)%nat -> (m <= fuel)%nat ->
    exists l', map nanmean (blocks fuel factor (map Fin l)) = map Fin l' /\ List.length l' = m /\ INR factor * lsum l' = lsum l /\
    forall k, (k < m)%nat -> nth k l' 0 = rmean (firstn factor (skipn (k * factor) l))).
  { induction m as [|m IH]; intros fuel l L Q.
    - destruct l; [|discriminate]. exists []. split; [destruct fuel; reflexivity|]. split; [reflexivity|]. split; [cbn; ring|lia].
    - destruct fuel as [|fuel]; [lia|]. destruct (IH fuel (skipn factor l)) as (l'&E1&E2&E3&E4); [rewrite skipn_length; lia|lia|].
      assert (C : List.length (firstn factor l) = factor) by (rewrite firstn_length; lia).
      assert (NZ : firstn factor l <> []) by (intros Z; rewrite Z in C; cbn in C; lia).
      exists (rmean (firstn factor l) :: l'). split; [|split; [|split]].
      + destruct l as [|x l]; [cbn in L; lia|]. set (xl := x :: l) in *.
        assert (B : blocks (S fuel) factor (map Fin xl) = firstn factor (map Fin xl) :: blocks fuel factor (skipn factor (map Fin xl))) by reflexivity.
        rewrite B. cbn [map]. rewrite firstn_map, nanmean_Fin, skipn_map, E1 by assumption. reflexivity.
      + cbn [List.length]. rewrite E2. reflexivity.
      + rewrite lsum_cons, Rmult_plus_distr_l, E3, (lsum_firstn_skipn factor l). f_equal. unfold rmean. rewrite C. field. apply not_0_INR. lia.
      + intros [|k] K; [reflexivity|]. cbn [nth]. rewrite E4 by lia. rewrite skip_skip. f_equal. }
  intros l L. apply G; [assumption|]. rewrite map_length, L. nia.
Qed.
Theorem partial_block : downsample_axis 2 NanMean (map Fin [1; 1; 1]) = map Fin [1; 1] /\ INR 2 * lsum [1; 1] <> lsum [1; 1; 1].
Proof.
  split; [|cbn; lra]. unfold downsample_axis. cbn [map List.length blocks firstn skipn].
  change [Fin 1; Fin 1] with (map Fin [1; 1]). change [Fin 1] with (map Fin [1]) at 1. rewrite !nanmean_Fin by discriminate. cbn [map]. apply f_equal2; [|apply f_equal2; [|reflexivity]]; f_equal; unfold rmean; cbn; field.
Qed.

Theorem thick_slice nz ny nx (cube : nat -> nat -> nat -> R) i j : (1 <= nz)%nat -> (i < ny)%nat -> (j < nx)%nat ->
  let image y x := rsum nz (fun z => cube z y x) / INR nz in
  (forall y x, downsample_axis nz NanMean (map (fun z => Fin (cube z y x)) (seq 0 nz)) = [Fin (image y x)]) /\
  at2 0 (vca_ps2D 1 ny nx (fun _ => image)) i j = at2 0 (power_ps2D ny nx image) i j.
Proof.
  intros N I J image. split.
  - intros y x. rewrite <- (map_map (fun z => cube z y x) Fin). destruct (downsample_flux nz 1 N (map (fun z => cube z y x) (seq 0 nz))) as (l'&E1&E2&E3&_).
    { rewrite map_length, seq_length. lia. }
    rewrite E1. destruct l' as [|v [|]]; try discriminate. cbn [map]. do 2 f_equal. unfold image. rewrite rsum_lsum, <- E3. rewrite lsum_cons. cbn [lsum fold_right]. field. apply not_0_INR. lia.
  - rewrite vca_sum_of_channels by lia. cbn [rsum INR]. ring.
Qed.

Theorem flag_after c w m f h : m = "regrid"%string \/ m = "downsample"%string ->
  fst (spectral_regrid_cube (Some c) w m f h) = Some (mk_cube (spectral_axis c) (axis_unit c) h).
Proof. intros [->| ->]; reflexivity. Qed.
