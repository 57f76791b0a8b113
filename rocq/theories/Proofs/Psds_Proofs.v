(** Proofs about Model/Psds.v: radial binning (C12). *)
From Coq Require Import Reals List ZArith Lia Lra Arith Bool Permutation.
From Coquelicot Require Import Complex.
From Verif Require Import Lib.PyBase Lib.PySlice Lib.Arr Lib.DFT Lib.Fl Lib.RSum Lib.Bins Lib.Trig2
  Spec.Blank Spec.Bins Spec.Freq
  Model.RfftToFft Model.StatsUtils Model.Psds
  Proofs.Fl_Proofs Proofs.StatsUtils_Proofs Proofs.StatsUtils2_Proofs Proofs.RfftToFft_Proofs.
Import ListNotations.
Local Open Scope R_scope.

(** ** Shifts and flips *)

Lemma slice_idx_rev n : slice_idx None None (-1) n = tab1 n (fun j => (n - 1 - j)%nat).
Proof.
  unfold slice_idx, slice_bounds, slice_count. change (-1 <? 0)%Z with true. cbv beta iota zeta.
  destruct (Z.ltb_spec (-1) (Z.of_nat n - 1)).
  - replace (Z.to_nat ((Z.of_nat n - 1 - -1 - 1) / - -1 + 1)) with n.
    + apply map_ext_in. intros j Hj. apply in_seq in Hj. lia.
    + change (- -1)%Z with 1%Z. rewrite Z.div_1_r. lia.
  - replace n with 0%nat by lia. reflexivity.
Qed.

Lemma flip_tab {A} n (f : nat -> A) : slice None None (-1) (tab1 n f) = tab1 n (fun i => f (n - 1 - i)%nat).
Proof.
  rewrite slice_tab1 by lia. rewrite slice_idx_rev. unfold tab1. now rewrite map_map.
Qed.

Definition unshift (n i : nat) : nat := ((i + (n - n / 2)) mod n)%nat.

Lemma fftshift_tab {A} n (f : nat -> A) : fftshift (tab1 n f) = tab1 n (fun i => f (unshift n i)).
Proof.
  destruct n as [|n']; [reflexivity|]. set (n := S n').
  unfold fftshift. apply nth_ext with (d := f 0%nat) (d' := f 0%nat).
  - now rewrite roll_length, !tab1_length.
  - intros i Hi. rewrite roll_length, tab1_length in Hi.
    rewrite roll_nth by now rewrite tab1_length. rewrite !tab1_length.
    assert (E : Z.to_nat ((Z.of_nat i - Z.of_nat (n / 2)) mod Z.of_nat n) = unshift n i).
    { unfold unshift. assert (Hd : (n / 2 <= n)%nat) by (apply Nat.div_le_upper_bound; lia).
      replace (Z.of_nat i - Z.of_nat (n / 2))%Z with (Z.of_nat (i + (n - n / 2)) + (-1) * Z.of_nat n)%Z by lia.
      rewrite Z_mod_plus_full. rewrite <- Nat2Z.inj_mod. now rewrite Nat2Z.id. }
    rewrite E. rewrite !tab1_nth; auto. unfold unshift. apply Nat.mod_upper_bound. unfold n; lia.
Qed.

Lemma unshift_lt n i : (i < n)%nat -> (unshift n i < n)%nat.
Proof. intros. unfold unshift. apply Nat.mod_upper_bound. lia. Qed.

Lemma fftshift_map {A B} (g : A -> B) l : fftshift (map g l) = map g (fftshift l).
Proof.
  unfold fftshift, roll. rewrite map_length, map_app, <- skipn_map, <- firstn_map. reflexivity.
Qed.

Lemma fftshift2_tab {A} ny nx (f : nat -> nat -> A) :
  fftshift2 (tab2 ny nx f) = tab2 ny nx (fun i j => f (unshift ny i) (unshift nx j)).
Proof.
  unfold fftshift2, tab2. fold (tab1 ny (fun i => map (f i) (seq 0 nx))).
  rewrite fftshift_tab, tab1_map. apply tab1_ext. intros i _. apply fftshift_tab.
Qed.

Lemma fftshift3_tab {A} nz ny nx (f : nat -> nat -> nat -> A) :
  fftshift3 (tab3 nz ny nx f) = tab3 nz ny nx (fun k i j => f (unshift nz k) (unshift ny i) (unshift nx j)).
Proof.
  unfold fftshift3, tab3. fold (tab1 nz (fun k => tab2 ny nx (f k))).
  rewrite fftshift_tab, tab1_map. apply tab1_ext. intros i _. apply fftshift2_tab.
Qed.

Lemma flip2_tab {A} ny nx (f : nat -> nat -> A) :
  slice None None (-1) (tab2 ny nx f) = tab2 ny nx (fun i j => f (ny - 1 - i)%nat j).
Proof. unfold tab2. apply (flip_tab ny (fun i => tab1 nx (f i))). Qed.

Lemma at2_tab {A} (d : A) ny nx f i j : (i < ny)%nat -> (j < nx)%nat -> at2 d (tab2 ny nx f) i j = f i j.
Proof.
  intros Hi Hj. unfold at2, tab2. fold (tab1 ny (fun i => tab1 nx (f i))).
  rewrite tab1_nth by auto. now rewrite tab1_nth.
Qed.

Lemma at3_tab {A} (d : A) nz ny nx f k i j : (k < nz)%nat -> (i < ny)%nat -> (j < nx)%nat ->
  at3 d (tab3 nz ny nx f) k i j = f k i j.
Proof.
  intros Hk Hi Hj. unfold at3, tab3. fold (tab1 nz (fun k => tab2 ny nx (f k))).
  rewrite tab1_nth by auto. unfold tab2. fold (tab1 ny (fun i => tab1 nx (f k i))).
  rewrite tab1_nth by auto. now rewrite tab1_nth.
Qed.

(** ** Frequencies *)

Lemma fftfreq_is_freq n k : (k < n)%nat -> is_freq n k (fftfreq n k).
Proof.
  intros Hk. unfold is_freq, fftfreq.
  assert (Hn : 0 < INR n) by (apply lt_0_INR; lia).
  assert (Hkn : INR k < INR n) by (apply lt_INR; lia).
  assert (H0 := pos_INR k).
  destruct (Nat.ltb_spec k ((n - 1) / 2 + 1)) as [L|L].
  - assert (2 * k < n)%nat.
    { pose proof (Nat.div_mod (n - 1) 2). pose proof (Nat.mod_upper_bound (n - 1) 2). lia. }
    assert (2 * INR k < INR n).
    { replace 2 with (INR 2) by (cbn; ring). rewrite <- mult_INR. apply lt_INR. lia. }
    split.
    + split.
      * apply Rle_trans with 0; [lra|]. unfold Rdiv. apply Rmult_le_pos; [lra|]. left. now apply Rinv_0_lt_compat.
      * apply Rmult_lt_reg_r with (INR n); auto. unfold Rdiv at 1. rewrite Rmult_assoc, Rinv_l by lra. lra.
    + exists 0%Z. cbn. lra.
  - assert (n <= 2 * k)%nat.
    { pose proof (Nat.div_mod (n - 1) 2). pose proof (Nat.mod_upper_bound (n - 1) 2). lia. }
    assert (INR n <= 2 * INR k).
    { replace 2 with (INR 2) by (cbn; ring). rewrite <- mult_INR. apply le_INR. lia. }
    split.
    + split.
      * apply Rmult_le_reg_r with (INR n); auto. unfold Rdiv at 2. rewrite Rmult_assoc, Rinv_l by lra. lra.
      * apply Rmult_lt_reg_r with (INR n); auto. unfold Rdiv at 1. rewrite Rmult_assoc, Rinv_l by lra. lra.
    + exists (-1)%Z. cbn [IZR IPR]. field. lra.
Qed.

Lemma yy_freq_at ny nx i j : (i < ny)%nat -> (j < nx)%nat ->
  at2 0 (yy_freq ny nx) i j = fftfreq ny (unshift ny (ny - 1 - i)).
Proof.
  intros Hi Hj. unfold yy_freq. rewrite flip2_tab, at2_tab by auto.
  rewrite fftshift_tab, tab1_nth by lia. reflexivity.
Qed.

Lemma xx_freq_at ny nx i j : (i < ny)%nat -> (j < nx)%nat ->
  at2 0 (xx_freq ny nx) i j = fftfreq nx (unshift nx j).
Proof.
  intros Hi Hj. unfold xx_freq. rewrite flip2_tab, at2_tab by auto.
  rewrite fftshift_tab, tab1_nth by lia. reflexivity.
Qed.

Lemma power_ps2D_at ny nx a i j : (i < ny)%nat -> (j < nx)%nat ->
  at2 0 (power_ps2D ny nx a) i j =
  Cnorm2 (dft2 ny nx (fun y x => RtoC (a y x)) (unshift ny (ny - 1 - i)) (unshift nx j)).
Proof.
  intros Hi Hj. unfold power_ps2D. rewrite rfft_2d by lia. rewrite fftshift2_tab.
  assert (E : forall g : nat -> nat -> R, map (map (fun v => v * v)) (tab2 ny nx g) = tab2 ny nx (fun i j => g i j * g i j)).
  { intros g. unfold tab2, tab1. rewrite map_map. apply map_ext. intros. rewrite map_map. reflexivity. }
  rewrite E, flip2_tab, at2_tab by auto. apply Cmod_sqr.
Qed.

Lemma unshift_inj n i j : (i < n)%nat -> (j < n)%nat -> unshift n i = unshift n j -> i = j.
Proof.
  intros Hi Hj. unfold unshift. assert (Hd : (n / 2 <= n)%nat) by (apply Nat.div_le_upper_bound; lia).
  intros E. set (c := (n - n / 2)%nat) in *.
  assert (c <= n)%nat by (unfold c; lia).
  assert (forall i, (i < n)%nat -> ((i + c) mod n = if Nat.ltb (i + c) n then i + c else i + c - n)%nat) as M.
  { intros k Hk. destruct (Nat.ltb_spec (k + c) n).
    - now apply Nat.mod_small.
    - replace (k + c)%nat with ((k + c - n) + 1 * n)%nat at 1 by lia.
      rewrite Nat.mod_add by lia. apply Nat.mod_small. lia. }
  rewrite !M in E by auto.
  destruct (Nat.ltb_spec (i + c) n), (Nat.ltb_spec (j + c) n); lia.
Qed.

Lemma unshift_surj n k : (k < n)%nat -> exists i, (i < n)%nat /\ unshift n i = k.
Proof.
  intros Hk. exists ((k + n / 2) mod n)%nat. split; [apply Nat.mod_upper_bound; lia|].
  unfold unshift. rewrite Nat.add_mod_idemp_l by lia.
  assert (Hd : (n / 2 <= n)%nat) by (apply Nat.div_le_upper_bound; lia).
  replace (k + n / 2 + (n - n / 2))%nat with (k + 1 * n)%nat by lia.
  rewrite Nat.mod_add by lia. now apply Nat.mod_small.
Qed.

(** Pixel (i, j) of the published power spectrum, its Fourier index and its
    frequency. *)
Lemma ps2D_frequency ny nx (a : nat -> nat -> R) i j : (i < ny)%nat -> (j < nx)%nat ->
  exists ky kx, (ky < ny)%nat /\ (kx < nx)%nat /\
    at2 0 (power_ps2D ny nx a) i j = Cnorm2 (dft2 ny nx (fun y x => RtoC (a y x)) ky kx) /\
    is_freq ny ky (at2 0 (yy_freq ny nx) i j) /\ is_freq nx kx (at2 0 (xx_freq ny nx) i j).
Proof.
  intros Hi Hj. exists (unshift ny (ny - 1 - i)), (unshift nx j).
  assert (unshift ny (ny - 1 - i) < ny)%nat by (apply unshift_lt; lia).
  assert (unshift nx j < nx)%nat by now apply unshift_lt.
  split; [auto|]. split; [auto|]. split; [now apply power_ps2D_at|].
  rewrite yy_freq_at, xx_freq_at by auto. split; now apply fftfreq_is_freq.
Qed.

Lemma is_freq_inj n k f g : (0 < n)%nat -> is_freq n k f -> is_freq n k g -> f = g.
Proof.
  intros Hn [Hf [z Hz]] [Hg [w Hw]].
  assert (E : f - g = IZR (z - w)) by (rewrite minus_IZR; lra).
  assert (-1 < IZR (z - w) < 1) as [B1 B2] by lra.
  assert (Hzw : (z - w)%Z = 0%Z) by (apply lt_IZR in B1, B2; lia). rewrite Hzw in E. lra.
Qed.

Lemma is_freq_index n k l f : (k < n)%nat -> (l < n)%nat -> is_freq n k f -> is_freq n l f -> k = l.
Proof.
  intros Hk Hl [Hf [z Hz]] [_ [w Hw]].
  assert (Hn : 0 < INR n) by (apply lt_0_INR; lia).
  assert (E : INR k + IZR z * INR n = INR l + IZR w * INR n).
  { rewrite Hz in Hw. apply Rmult_eq_compat_r with (r := INR n) in Hw.
    unfold Rdiv in Hw. rewrite !Rmult_plus_distr_r, !Rmult_assoc, Rinv_l in Hw by lra. lra. }
  rewrite !INR_IZR_INZ, <- !mult_IZR, <- !plus_IZR in E. apply eq_IZR in E.
  assert (Z.of_nat k = Z.of_nat l); [|lia].
  rewrite <- (Z.mod_small (Z.of_nat k) (Z.of_nat n)), <- (Z.mod_small (Z.of_nat l) (Z.of_nat n)) by lia.
  rewrite <- (Z_mod_plus_full (Z.of_nat k) z), <- (Z_mod_plus_full (Z.of_nat l) w). now rewrite E.
Qed.

(** Every Fourier index appears at exactly one pixel. *)
Lemma ps2D_complete ny nx ky kx : (ky < ny)%nat -> (kx < nx)%nat ->
  exists i j, (i < ny)%nat /\ (j < nx)%nat /\
    is_freq ny ky (at2 0 (yy_freq ny nx) i j) /\ is_freq nx kx (at2 0 (xx_freq ny nx) i j) /\
    forall i' j', (i' < ny)%nat -> (j' < nx)%nat ->
      is_freq ny ky (at2 0 (yy_freq ny nx) i' j') -> is_freq nx kx (at2 0 (xx_freq ny nx) i' j') ->
      i' = i /\ j' = j.
Proof.
  intros Hy Hx. destruct (unshift_surj ny ky Hy) as [i0 [Hi0 Ei]]. destruct (unshift_surj nx kx Hx) as [j [Hj Ej]].
  exists (ny - 1 - i0)%nat, j. split; [lia|]. split; [auto|].
  rewrite yy_freq_at, xx_freq_at by lia. replace (ny - 1 - (ny - 1 - i0))%nat with i0 by lia.
  rewrite Ei, Ej. split; [now apply fftfreq_is_freq|]. split; [now apply fftfreq_is_freq|].
  intros i' j' Hi' Hj' F1 F2. rewrite yy_freq_at in F1 by auto. rewrite xx_freq_at in F2 by auto.
  apply (is_freq_index ny ky (unshift ny (ny - 1 - i'))) in F1; [|auto|apply unshift_lt; lia|apply fftfreq_is_freq, unshift_lt; lia].
  apply (is_freq_index nx kx (unshift nx j')) in F2; [|auto|apply unshift_lt; lia|apply fftfreq_is_freq, unshift_lt; lia].
  split.
  - rewrite <- Ei in F1. apply unshift_inj in F1; lia.
  - rewrite <- Ej in F2. apply unshift_inj in F2; lia.
Qed.

(** ** Lists of pixels *)

Lemma in_pixels ny nx i j : In (i, j) (pixels ny nx) <-> (i < ny)%nat /\ (j < nx)%nat.
Proof. unfold pixels. rewrite in_prod_iff, !in_seq. lia. Qed.

Lemma NoDup_app_intro {A} (l m : list A) : NoDup l -> NoDup m -> (forall p, In p l -> ~ In p m) -> NoDup (l ++ m).
Proof.
  intros Hl Hm D. induction Hl as [|a l Ha Hl IH]; cbn; auto. constructor.
  - rewrite in_app_iff. intros [H|H]; [auto|]. apply (D a); [now left|auto].
  - apply IH. intros p Hp. apply D. now right.
Qed.

Lemma NoDup_list_prod {A B} (l : list A) (m : list B) : NoDup l -> NoDup m -> NoDup (list_prod l m).
Proof.
  intros Hl Hm. induction Hl as [|a l Ha Hl IH]; cbn; [constructor|].
  apply NoDup_app_intro; auto.
  - apply FinFun.Injective_map_NoDup; auto. intros x y E. now injection E.
  - intros p Hp Hq. apply in_map_iff in Hp. destruct Hp as [y [<- _]]. apply in_prod_iff in Hq. tauto.
Qed.

Lemma NoDup_pixels ny nx : NoDup (pixels ny nx).
Proof. apply NoDup_list_prod; apply seq_NoDup. Qed.

Lemma in_bin_values_map {P V} edges (f : P -> R) (g : P -> V) sel b :
  in_bin_values edges (map f sel) (map g sel) b =
  map g (filter (fun p => opt_eqb (bin_number edges (f p)) b) sel).
Proof.
  unfold in_bin_values. induction sel as [|p sel IH]; [reflexivity|].
  cbn [map combine filter fst]. destruct (opt_eqb (bin_number edges (f p)) b); cbn [map snd]; now rewrite IH.
Qed.

(** ** Standard deviations *)

Lemma nanstd1_Fin l : (2 <= length l)%nat -> nanstd1 (map Fin l) = Fin (sample_std l).
Proof.
  intros H. unfold nanstd1, sample_std.
  assert (E : nonnan (map Fin l) = map Fin l).
  { clear. unfold nonnan. induction l; cbn; [auto|]. now f_equal. }
  rewrite E, map_length. destruct (Nat.leb_spec (length l) 1); [lia|].
  rewrite nanmean_rmean; [|apply blankable_map_Fin|rewrite fins_map_Fin; destruct l; cbn in *; [lia|discriminate]].
  rewrite fins_map_Fin, map_map.
  assert (E2 : map (fun x => fsqr (fsub (Fin x) (Fin (rmean l)))) l =
               map Fin (map (fun v => (v - rmean l) * (v - rmean l)) l)).
  { rewrite map_map. apply map_ext. intros. reflexivity. }
  rewrite E2.
  assert (E3 : nansum (map Fin (map (fun v => (v - rmean l) * (v - rmean l)) l)) =
               Fin (lsum (map (fun v => (v - rmean l) * (v - rmean l)) l))).
  { rewrite nansum_fins by apply blankable_map_Fin. now rewrite fins_map_Fin. }
  rewrite E3.
  assert (0 < INR (length l - 1)) by (apply lt_0_INR; lia).
  rewrite fdiv_fin by lra. rewrite fsqrt_fin; [reflexivity|].
  unfold Rdiv. apply Rmult_le_pos; [|left; now apply Rinv_0_lt_compat].
  apply lsum_nonneg. intros x Hx. apply in_map_iff in Hx. destruct Hx as [v [<- _]]. apply Rle_0_sqr.
Qed.

Lemma sample_std_nonneg l : 0 <= sample_std l.
Proof. apply sqrt_pos. Qed.
