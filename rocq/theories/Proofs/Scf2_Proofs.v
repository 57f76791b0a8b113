(** Proofs about Model/Scf.v: surface, calibration, cut boundary, distance. *)
From Coq Require Import String Reals List ZArith Lia Lra Arith Bool Permutation.
From Coquelicot Require Import Complex.
From Verif Require Import Lib.PyBase Lib.PySlice Lib.Arr Lib.DFT Lib.Fl Lib.RSum
  Spec.Blank Spec.Bins Spec.Correlation
  Model.StatsUtils Model.Psds Model.Scf
  Proofs.Fl_Proofs Proofs.StatsUtils_Proofs Proofs.Psds_Proofs Proofs.Scf_Proofs.
Import ListNotations.
Local Open Scope R_scope.

(** ** The surface *)

Lemma sequence_ok {A} (l : list A) : sequence (map Ok l) = Ok l.
Proof. induction l as [|a l IH]; [reflexivity|]. cbn. now rewrite IH. Qed.

Lemma sequence_map_ok {A B} (f : A -> result B) (g : A -> B) l : (forall a, In a l -> f a = Ok (g a)) ->
  sequence (map f l) = Ok (map g l).
Proof. intros H. rewrite (map_ext_in f (fun a => Ok (g a))) by auto. now rewrite <- sequence_ok, map_map. Qed.

Lemma Ok_inj {A} (a b : A) : Ok a = Ok b -> a = b.
Proof. congruence. Qed.

Definition scf_at (nz ny nx : nat) cube (sx sy : R) : fl := scf_of_values (cont_values nz ny nx cube sx sy).

Lemma surface_cont nz ny nx cube lags : cube_ok nz ny nx cube ->
  compute_surface nz ny nx cube lags "continuous" =
  Ok (map (fun sy => map (fun sx => scf_at nz ny nx cube sx sy) lags) lags).
Proof.
  intros H. unfold compute_surface. cbn [String.eqb Ascii.eqb Bool.eqb orb negb].
  apply sequence_map_ok. intros sy _. apply sequence_map_ok. intros sx _. now apply scf_value_cont.
Qed.

Lemma nth2_map {A B} (f : A -> A -> B) (l : list A) (d : B) (a0 : A) i j :
  (i < length l)%nat -> (j < length l)%nat ->
  nth i (nth j (map (fun y => map (fun x => f x y) l) l) []) d = f (nth i l a0) (nth j l a0).
Proof.
  intros Hi Hj. rewrite (nth_indep _ [] (map (fun x => f x a0) l)) by now rewrite map_length.
  rewrite (map_nth (fun y => map (fun x => f x y) l)). rewrite (nth_indep _ d (f a0 (nth j l a0))) by now rewrite map_length.
  now rewrite (map_nth (fun x => f x (nth j l a0))).
Qed.

Lemma surface_bounded nz ny nx cube lags : cube_ok nz ny nx cube ->
  exists s, compute_surface nz ny nx cube lags "continuous" = Ok s /\
    length s = length lags /\
    forall j i, (j < length lags)%nat -> (i < length lags)%nat ->
      length (nth j s []) = length lags /\
      (at2 NaN s j i = NaN \/ exists v, at2 NaN s j i = Fin v /\ 1 - sqrt 2 <= v <= 1).
Proof.
  intros H. eexists. split; [now apply surface_cont|]. split; [now rewrite map_length|]. intros j i Hj Hi. split.
  - rewrite (nth_indep _ [] (map (fun sx => scf_at nz ny nx cube sx 0) lags)) by now rewrite map_length.
    rewrite (map_nth (fun sy => map (fun sx => scf_at nz ny nx cube sx sy) lags)). now rewrite map_length.
  - unfold at2. rewrite (nth2_map (fun sx sy => scf_at nz ny nx cube sx sy) lags NaN 0) by auto.
    destruct (scf_bounded nz ny nx cube (nth i lags 0) (nth j lags 0) H) as [v [Ev Hv]].
    rewrite scf_value_cont in Ev by auto. apply Ok_inj in Ev. unfold scf_at. rewrite Ev. exact Hv.
Qed.

(** ** The formula *)

Lemma num_spec nz d t : (forall z, (z < nz)%nat -> blankable (d z)) -> (forall z, (z < nz)%nat -> blankable (t z)) ->
  num nz d t = rsum nz (fun z => sqdiff_or_0 (d z) (t z)).
Proof.
  intros Hd Ht. apply rsum_ext. intros z Hz.
  destruct (blankable_cases _ (Hd z Hz)) as [->|[r ->]]; destruct (blankable_cases _ (Ht z Hz)) as [->|[s ->]]; cbn; try reflexivity. ring.
Qed.

Lemma den_spec nz d t : (forall z, (z < nz)%nat -> blankable (d z)) -> (forall z, (z < nz)%nat -> blankable (t z)) ->
  den nz d t = rsum nz (fun z => sq_or_0 (d z)) + rsum nz (fun z => sq_or_0 (t z)).
Proof.
  intros Hd Ht. unfold den. f_equal; apply rsum_ext; intros z Hz.
  - destruct (blankable_cases _ (Hd z Hz)) as [->|[r ->]]; cbn; try reflexivity. ring.
  - destruct (blankable_cases _ (Ht z Hz)) as [->|[s ->]]; cbn; try reflexivity. ring.
Qed.

Definition pair_ok (nz : nat) (dt : spectrum * spectrum) : Prop :=
  (forall z, (z < nz)%nat -> blankable (fst dt z)) /\ (forall z, (z < nz)%nat -> blankable (snd dt z)).

Lemma fins_pair_values nz pairs : Forall (pair_ok nz) pairs ->
  fins (map (fun dt => pair_value nz (fst dt) (snd dt)) pairs) = flat_map (fun dt => spec_ratio nz (fst dt) (snd dt)) pairs.
Proof.
  induction 1 as [|dt l [Hd Ht] Hl IH]; [reflexivity|].
  change (map (fun dt => pair_value nz (fst dt) (snd dt)) (dt :: l)) with
    (pair_value nz (fst dt) (snd dt) :: map (fun dt => pair_value nz (fst dt) (snd dt)) l).
  change (flat_map (fun dt => spec_ratio nz (fst dt) (snd dt)) (dt :: l)) with
    (spec_ratio nz (fst dt) (snd dt) ++ flat_map (fun dt => spec_ratio nz (fst dt) (snd dt)) l).
  rewrite <- IH. rewrite pair_value_eq by auto. unfold spec_ratio. rewrite <- den_spec, <- num_spec by auto.
  destruct (Reqb (den nz (fst dt) (snd dt)) 0).
  - now rewrite fins_cons_NaN.
  - now rewrite fins_cons_Fin.
Qed.

Lemma scf_of_pairs nz pairs : Forall (pair_ok nz) pairs ->
  scf_of_values (map (fun dt => pair_value nz (fst dt) (snd dt)) pairs) = scf_spec nz pairs.
Proof.
  intros H. assert (V : Forall value_ok (map (fun dt => pair_value nz (fst dt) (snd dt)) pairs)).
  { apply Forall_forall. intros v Hv. apply in_map_iff in Hv. destruct Hv as [dt [<- Hdt]].
    rewrite Forall_forall in H. destruct (H dt Hdt). now apply pair_value_ok. }
  rewrite scf_of_values_eq.
  - rewrite fins_pair_values by auto. unfold scf_spec. now destruct (flat_map _ pairs).
  - eapply Forall_impl; [|exact V]. apply value_ok_blankable.
  - intros r Hr. apply in_fins in Hr. rewrite Forall_forall in V. destruct (V _ Hr) as [E|[s [E B]]]; [discriminate|].
    injection E as ->. lra.
Qed.

Lemma pairs_ok nz ny nx cube sy sx ys xs : cube_ok nz ny nx cube ->
  (forall y, In y ys -> (y < ny)%nat) -> (forall x, In x xs -> (x < nx)%nat) ->
  Forall (pair_ok nz) (pairs_at ny nx cube sy sx ys xs).
Proof.
  intros H Hy Hx. apply Forall_forall. intros dt Hdt. unfold pairs_at in Hdt. apply in_map_iff in Hdt.
  destruct Hdt as [[y x] [<- Hp]]. apply in_prod_iff in Hp. destruct Hp as [Py Px]. split; cbn [fst snd]; intros z Hz; apply H; auto.
  - apply (from_lt ny sy y). auto.
  - apply (from_lt nx sx x). auto.
Qed.

(** Whole-pixel lags, continuous boundary: every pixel with its periodic partner. *)
Lemma scf_formula nz ny nx cube (sx sy : Z) : cube_ok nz ny nx cube ->
  scf_value nz ny nx cube "continuous" (IZR sx) (IZR sy) =
  Ok (scf_spec nz (pairs_at ny nx cube sx sy (seq 0 ny) (seq 0 nx))).
Proof.
  intros H. rewrite scf_value_cont by auto. apply (f_equal Ok).
  rewrite <- scf_of_pairs by (apply pairs_ok; auto; intros k Hk; apply in_seq in Hk; lia).
  apply (f_equal scf_of_values). unfold cont_values, pairs_at. rewrite map_map. apply map_ext_in.
  intros [y x] Hp. apply in_pixels in Hp. cbn [fst snd]. apply pair_value_ext; auto.
  intros z Hz. now rewrite shifted_int.
Qed.

Lemma surface_formula nz ny nx cube lags i j (sx sy : Z) : cube_ok nz ny nx cube ->
  (i < length lags)%nat -> (j < length lags)%nat -> nth i lags 0 = IZR sx -> nth j lags 0 = IZR sy ->
  exists s, compute_surface nz ny nx cube lags "continuous" = Ok s /\
    at2 NaN s j i = scf_spec nz (pairs_at ny nx cube sx sy (seq 0 ny) (seq 0 nx)).
Proof.
  intros H Hi Hj Ei Ej. eexists. split; [now apply surface_cont|].
  unfold at2. rewrite (nth2_map (fun sx sy => scf_at nz ny nx cube sx sy) lags NaN 0) by auto. rewrite Ei, Ej.
  assert (E := scf_formula nz ny nx cube sx sy H). rewrite scf_value_cont in E by auto. apply Ok_inj in E. exact E.
Qed.

Lemma surface_boundary nz ny nx cube lags b : b <> "continuous"%string -> b <> "cut"%string ->
  compute_surface nz ny nx cube lags b = Err ValueError.
Proof.
  intros H1 H2. unfold compute_surface. apply String.eqb_neq in H1, H2. now rewrite H1, H2.
Qed.

(** ** Calibration *)

Lemma scaled_ok nz ny nx c cube : cube_ok nz ny nx cube -> cube_ok nz ny nx (recalibrated c cube).
Proof.
  intros H z y x Hz Hy Hx. unfold recalibrated. destruct (blankable_cases _ (H z y x Hz Hy Hx)) as [->|[r ->]]; exact I.
Qed.

Lemma shifter_scal n x c s j : shifter n (fun k => c * x k) s j = c * shifter n x s j.
Proof.
  unfold shifter, idft1, dft1. cbv zeta.
  rewrite (csum_ext n _ (fun k => Cmult (RtoC c) (Cmult (Cmult (csum n (fun j0 => Cmult (RtoC (x j0)) (tw n j0 k)))
     (cis (- (2 * PI * fftfreq n k * s)))) (Cconj (tw n j k))))).
  - rewrite csum_scal. set (T := csum n _). destruct T as [a b]. cbn. ring.
  - intros k Hk. rewrite (csum_ext n _ (fun j0 => Cmult (RtoC c) (Cmult (RtoC (x j0)) (tw n j0 k)))).
    + rewrite csum_scal. ring.
    + intros. rewrite RtoC_mult. ring.
Qed.

Lemma shifter_ext n x y s j : (forall k, (k < n)%nat -> x k = y k) -> shifter n x s j = shifter n y s j.
Proof.
  intros H. unfold shifter, idft1, dft1. cbv zeta. f_equal. f_equal. apply csum_ext. intros k Hk. f_equal. f_equal.
  apply csum_ext. intros m Hm. now rewrite H.
Qed.

Lemma shift_axis_ext n f g lag i : (i < n)%nat -> (forall k, (k < n)%nat -> f k = g k) ->
  shift_axis n f lag i = shift_axis n g lag i.
Proof. intros Hi H. unfold shift_axis. rewrite (tab1_ext n f g) by auto. now rewrite H. Qed.

Lemma shift_axis_scal n f lag c i : (i < n)%nat -> (forall k, (k < n)%nat -> blankable (f k)) ->
  shift_axis n (fun k => fmul (Fin c) (f k)) lag i = fmul (Fin c) (shift_axis n f lag i).
Proof.
  intros Hi H. unfold shift_axis. destruct (Reqb lag 0); [reflexivity|]. destruct (is_integer lag).
  - cbn [pixel_shift]. rewrite !roll_nth by now rewrite tab1_length. rewrite !tab1_length.
    fold (from n (Rtrunc lag) i). rewrite !tab1_nth by now apply from_lt. reflexivity.
  - unfold fourier_shift. cbv zeta. rewrite !tab1_length, !tab1_nth by auto.
    assert (M : forall g, shifter n (fun j => if is_fin (nth j (tab1 n g) NaN) then 0 else 1) lag i =
                shifter n (fun j => if is_fin (g j) then 0 else 1) lag i).
    { intros g. apply shifter_ext. intros k Hk. now rewrite tab1_nth. }
    rewrite !M.
    rewrite (shifter_ext n (fun j => if is_fin (fmul (Fin c) (f j)) then 0 else 1) (fun j => if is_fin (f j) then 0 else 1)).
    2: { intros k Hk. destruct (blankable_cases _ (H k Hk)) as [->|[r ->]]; reflexivity. }
    destruct (Rltb _ _); [reflexivity|]. cbn [fmul]. f_equal. rewrite <- shifter_scal. apply shifter_ext.
    intros k Hk. rewrite !tab1_nth by auto. destruct (blankable_cases _ (H k Hk)) as [->|[r ->]]; cbn; ring.
Qed.

Lemma shifted_scal ny nx cube sx sy c z y x :
  (forall y x, (y < ny)%nat -> (x < nx)%nat -> blankable (cube z y x)) -> (y < ny)%nat -> (x < nx)%nat ->
  shifted ny nx (recalibrated c cube) sx sy z y x = fmul (Fin c) (shifted ny nx cube sx sy z y x).
Proof.
  intros H Hy Hx. unfold shifted, recalibrated. rewrite <- shift_axis_scal; auto.
  - apply shift_axis_ext; auto. intros k Hk. apply shift_axis_scal; auto.
  - intros k Hk. apply shift_axis_blankable; auto.
Qed.

Lemma pair_value_scal nz c d t : c <> 0 -> (forall z, (z < nz)%nat -> blankable (d z)) -> (forall z, (z < nz)%nat -> blankable (t z)) ->
  pair_value nz (fun z => fmul (Fin c) (d z)) (fun z => fmul (Fin c) (t z)) = pair_value nz d t.
Proof.
  intros Hc Hd Ht.
  assert (B : forall f, (forall z, (z < nz)%nat -> blankable (f z)) -> forall z, (z < nz)%nat -> blankable (fmul (Fin c) (f z))).
  { intros f Hf z Hz. destruct (blankable_cases _ (Hf z Hz)) as [->|[r ->]]; exact I. }
  rewrite !pair_value_eq by auto.
  assert (En : num nz (fun z => fmul (Fin c) (d z)) (fun z => fmul (Fin c) (t z)) = c * c * num nz d t).
  { unfold num. rewrite <- rsum_scal. apply rsum_ext. intros z Hz.
    destruct (blankable_cases _ (Hd z Hz)) as [->|[r ->]]; destruct (blankable_cases _ (Ht z Hz)) as [->|[s ->]]; cbn; ring. }
  assert (Ed : den nz (fun z => fmul (Fin c) (d z)) (fun z => fmul (Fin c) (t z)) = c * c * den nz d t).
  { unfold den. rewrite <- !rsum_plus, <- rsum_scal. apply rsum_ext. intros z Hz.
    destruct (blankable_cases _ (Hd z Hz)) as [->|[r ->]]; destruct (blankable_cases _ (Ht z Hz)) as [->|[s ->]]; cbn; ring. }
  rewrite En, Ed. assert (c * c <> 0) by nra.
  destruct (Reqb_spec (c * c * den nz d t) 0) as [E|E]; destruct (Reqb_spec (den nz d t) 0) as [E'|E'].
  - reflexivity.
  - apply Rmult_integral in E. tauto.
  - rewrite E' in E. exfalso. apply E. ring.
  - f_equal. field. auto.
Qed.

Lemma ranges_lt boundary n lag (rs : list nat * list nat) :
  rs = (if String.eqb boundary "cut" then (cut_data n lag, cut_tmp n lag) else (seq 0 n, seq 0 n)) ->
  (forall i, In i (fst rs) -> (i < n)%nat) /\ (forall i, In i (snd rs) -> (i < n)%nat).
Proof.
  intros ->. destruct (String.eqb boundary "cut"); cbn [fst snd].
  - split; intros i Hi; [unfold cut_data in Hi|unfold cut_tmp in Hi]; destruct (np_ceil lag <? 0)%Z;
      eapply slice_idx_in; try exact Hi; discriminate.
  - split; intros i Hi; apply in_seq in Hi; lia.
Qed.

Lemma scf_value_scal nz ny nx cube boundary c sx sy : cube_ok nz ny nx cube -> c <> 0 ->
  scf_value nz ny nx (recalibrated c cube) boundary sx sy = scf_value nz ny nx cube boundary sx sy.
Proof.
  intros H Hc. unfold scf_value. cbv zeta.
  destruct (if String.eqb boundary "cut" then (cut_data ny sx, cut_tmp ny sx) else (seq 0 ny, seq 0 ny)) as [dy ty] eqn:Ey.
  destruct (if String.eqb boundary "cut" then (cut_data nx sy, cut_tmp nx sy) else (seq 0 nx, seq 0 nx)) as [dx tx] eqn:Ex.
  symmetry in Ey, Ex. apply ranges_lt in Ey. apply ranges_lt in Ex. cbn [fst snd] in *.
  destruct (negb _); [reflexivity|].
  match goal with |- (if fltb _ (scf_of_values ?a) then _ else _) = (if fltb _ (scf_of_values ?b) then _ else _) =>
    assert (E : a = b); [|rewrite E; reflexivity] end.
  apply map_ext_in. intros [[yd xd] [yt xt]] Hp.
  assert (P1 := in_combine_l _ _ _ _ Hp). assert (P2 := in_combine_r _ _ _ _ Hp).
  apply in_prod_iff in P1. apply in_prod_iff in P2.
  destruct Ey as [Ey1 Ey2], Ex as [Ex1 Ex2], P1 as [P1y P1x], P2 as [P2y P2x].
  assert (yd < ny /\ xd < nx)%nat by auto.
  assert (yt < ny /\ xt < nx)%nat by auto.
  rewrite (pair_value_ext nz _ _ (fun z => fmul (Fin c) (cube z yd xd)) (fun z => fmul (Fin c) (shifted ny nx cube sx sy z yt xt))).
  - apply pair_value_scal; [exact Hc| |].
    + intros; apply H; tauto.
    + intros z Hz. apply shifted_blankable; try tauto. intros; apply H; auto.
  - reflexivity.
  - intros z Hz. apply shifted_scal; try tauto. intros; apply H; auto.
Qed.

Lemma surface_scal nz ny nx cube lags boundary c : cube_ok nz ny nx cube -> c <> 0 ->
  compute_surface nz ny nx (recalibrated c cube) lags boundary = compute_surface nz ny nx cube lags boundary.
Proof.
  intros H Hc. unfold compute_surface. destruct (negb _); [reflexivity|].
  apply (f_equal sequence), map_ext. intros sy. apply (f_equal sequence), map_ext. intros sx. now apply scf_value_scal.
Qed.

(** ** Symmetry and centre of the surface *)

Lemma surface_symmetric nz ny nx cube lags (iz : nat -> Z) : cube_ok nz ny nx cube ->
  forall i j i' j', (i < length lags)%nat -> (j < length lags)%nat -> (i' < length lags)%nat -> (j' < length lags)%nat ->
  (forall k, In k [i; j; i'; j'] -> nth k lags 0 = IZR (iz k)) ->
  nth i' lags 0 = - nth i lags 0 -> nth j' lags 0 = - nth j lags 0 ->
  exists s, compute_surface nz ny nx cube lags "continuous" = Ok s /\ at2 NaN s j' i' = at2 NaN s j i.
Proof.
  intros H i j i' j' Hi Hj Hi' Hj' Hk Ei Ej. eexists. split; [now apply surface_cont|].
  unfold at2. rewrite !(nth2_map (fun sx sy => scf_at nz ny nx cube sx sy) lags NaN 0) by auto.
  rewrite Ei, Ej. rewrite (Hk i), (Hk j) by (cbn; tauto).
  assert (E := scf_point_symmetric nz ny nx cube (iz i) (iz j) H). rewrite !scf_value_cont in E by auto.
  apply Ok_inj in E. unfold scf_at. now rewrite <- !opp_IZR.
Qed.

Lemma surface_centre nz ny nx cube lags : cube_ok nz ny nx cube ->
  (exists z y x r, (z < nz)%nat /\ (y < ny)%nat /\ (x < nx)%nat /\ cube z y x = Fin r /\ r <> 0) ->
  exists s, compute_surface nz ny nx cube lags "continuous" = Ok s /\
  forall i j, (i < length lags)%nat -> (j < length lags)%nat -> nth i lags 0 = 0 -> nth j lags 0 = 0 -> at2 NaN s j i = Fin 1.
Proof.
  intros H Hne. eexists. split; [now apply surface_cont|]. intros i j Hi Hj Ei Ej.
  unfold at2. rewrite !(nth2_map (fun sx sy => scf_at nz ny nx cube sx sy) lags NaN 0) by auto. rewrite Ei, Ej.
  assert (E := scf_zero_lag nz ny nx cube H Hne). rewrite !scf_value_cont in E by auto. apply Ok_inj in E. exact E.
Qed.

(** ** Cut boundary *)

Lemma np_ceil_IZR s : np_ceil (IZR s) = s.
Proof. unfold np_ceil. rewrite <- opp_IZR, Int_part_IZR. lia. Qed.

Lemma filter_false {A} (f : A -> bool) l : (forall a, In a l -> f a = false) -> filter f l = [].
Proof. induction l as [|a l IH]; intros H; [reflexivity|]. cbn. rewrite H by now left. apply IH. intros; apply H; now right. Qed.
Lemma filter_true {A} (f : A -> bool) l : (forall a, In a l -> f a = true) -> filter f l = l.
Proof. induction l as [|a l IH]; intros H; [reflexivity|]. cbn. rewrite H by now left. f_equal. apply IH. intros; apply H; now right. Qed.

Lemma partner_inside_pos n k : partner_inside n (Z.of_nat k) = seq k (n - k).
Proof.
  unfold partner_inside. destruct (Nat.le_gt_cases k n) as [L|L].
  - replace (seq 0 n) with (seq 0 (k + (n - k))) by (f_equal; lia). rewrite seq_app, filter_app.
    rewrite filter_false, filter_true; [reflexivity| |].
    + intros p Hp. apply in_seq in Hp. apply andb_true_intro. split; [apply Z.leb_le|apply Z.ltb_lt]; lia.
    + intros p Hp. apply in_seq in Hp. apply andb_false_intro1. apply Z.leb_gt. lia.
  - replace (n - k)%nat with 0%nat by lia. apply filter_false. intros p Hp. apply in_seq in Hp.
    apply andb_false_intro1. apply Z.leb_gt. lia.
Qed.

Lemma partner_inside_neg n k : partner_inside n (- Z.of_nat k) = seq 0 (n - k).
Proof.
  unfold partner_inside. destruct (Nat.le_gt_cases k n) as [L|L].
  - replace (seq 0 n) with (seq 0 ((n - k) + k)) by (f_equal; lia). rewrite seq_app, filter_app.
    rewrite filter_true, filter_false; [apply app_nil_r| |].
    + intros p Hp. apply in_seq in Hp. apply andb_false_intro2. apply Z.ltb_ge. lia.
    + intros p Hp. apply in_seq in Hp. apply andb_true_intro. split; [apply Z.leb_le|apply Z.ltb_lt]; lia.
  - replace (n - k)%nat with 0%nat by lia. apply filter_false. intros p Hp. apply in_seq in Hp.
    apply andb_false_intro2. apply Z.ltb_ge. lia.
Qed.

(** The pixels compared along one axis with the cut boundary. *)
Lemma cut_axis n s : (Z.abs s <= Z.of_nat n)%Z ->
  cut_data n (IZR s) = partner_inside n s /\
  cut_tmp n (IZR s) = map (fun p => Z.to_nat (Z.of_nat p - s)) (partner_inside n s).
Proof.
  intros Hs. unfold cut_data, cut_tmp. rewrite np_ceil_IZR. cbv zeta. destruct (Z.ltb_spec s 0) as [L|L].
  - destruct (Z_of_nat_complete (- s)) as [k Hk]; [lia|]. replace s with (- Z.of_nat k)%Z in * by lia.
    rewrite partner_inside_neg. replace (Z.of_nat n + - Z.of_nat k)%Z with (Z.of_nat (n - k)) by lia.
    rewrite slice_idx_to, Nat.min_l by lia. split; [reflexivity|].
    rewrite Z.opp_involutive. rewrite slice_idx_from. apply nth_ext with (d := 0%nat) (d' := Z.to_nat (Z.of_nat 0 - - Z.of_nat k)).
    + now rewrite map_length, !seq_length.
    + rewrite seq_length. intros i Hi. rewrite seq_nth by auto.
      rewrite (map_nth (fun p => Z.to_nat (Z.of_nat p - - Z.of_nat k))), seq_nth by auto. lia.
  - destruct (Z_of_nat_complete s) as [k Hk]; [lia|]. subst s.
    rewrite partner_inside_pos. replace (Z.of_nat n - Z.of_nat k)%Z with (Z.of_nat (n - k)) by lia.
    rewrite slice_idx_from, slice_idx_to, Nat.min_l by lia. split; [reflexivity|].
    apply nth_ext with (d := 0%nat) (d' := Z.to_nat (Z.of_nat 0 - Z.of_nat k)).
    + now rewrite map_length, !seq_length.
    + rewrite seq_length. intros i Hi. rewrite seq_nth by auto.
      rewrite (map_nth (fun p => Z.to_nat (Z.of_nat p - Z.of_nat k))), seq_nth by auto. lia.
Qed.

Lemma list_prod_map {A B} (f : A -> A) (g : B -> B) l m :
  list_prod (map f l) (map g m) = map (fun p => (f (fst p), g (snd p))) (list_prod l m).
Proof.
  induction l as [|a l IH]; [reflexivity|]. cbn. rewrite IH, map_app, !map_map. reflexivity.
Qed.

Lemma combine_map_r {A B} (f : A -> B) l : combine l (map f l) = map (fun a => (a, f a)) l.
Proof. induction l; cbn; congruence. Qed.

Lemma in_partner_inside n s p : In p (partner_inside n s) -> (p < n)%nat /\ (0 <= Z.of_nat p - s < Z.of_nat n)%Z.
Proof.
  unfold partner_inside. intros H. apply filter_In in H. destruct H as [H1 H2]. apply in_seq in H1.
  apply andb_prop in H2. destruct H2 as [A B]. apply Z.leb_le in A. apply Z.ltb_lt in B. lia.
Qed.

Lemma from_partner n s p : In p (partner_inside n s) ->
  from n s (Z.to_nat (Z.of_nat p - s)) = partner n (2 * s) p.
Proof.
  intros H. apply in_partner_inside in H. unfold from, partner. rewrite Z2Nat.id by lia. do 2 f_equal. lia.
Qed.

Lemma scf_cut_law nz ny nx cube (sx sy : Z) : cube_ok nz ny nx cube ->
  (Z.abs sx <= Z.of_nat ny)%Z -> (Z.abs sy <= Z.of_nat nx)%Z ->
  scf_value nz ny nx cube "cut" (IZR sx) (IZR sy) =
  Ok (scf_spec nz (pairs_at ny nx cube (2 * sx) (2 * sy) (partner_inside ny sx) (partner_inside nx sy))).
Proof.
  intros H Hx Hy. unfold scf_value. cbv zeta. cbn [String.eqb Ascii.eqb Bool.eqb].
  destruct (cut_axis ny sx Hx) as [-> ->]. destruct (cut_axis nx sy Hy) as [-> ->].
  rewrite !map_length, !Nat.eqb_refl. cbn [andb negb].
  rewrite list_prod_map, combine_map_r, map_map.
  set (W := list_prod (partner_inside ny sx) (partner_inside nx sy)).
  assert (OK : Forall (pair_ok nz) (pairs_at ny nx cube (2 * sx) (2 * sy) (partner_inside ny sx) (partner_inside nx sy))).
  { apply pairs_ok; auto; intros k Hk; apply in_partner_inside in Hk; tauto. }
  match goal with |- context [scf_of_values ?v] => set (vals := v) end.
  assert (E : vals = map (fun dt => pair_value nz (fst dt) (snd dt))
                 (pairs_at ny nx cube (2 * sx) (2 * sy) (partner_inside ny sx) (partner_inside nx sy))).
  { unfold pairs_at. rewrite map_map. apply map_ext_in. intros [y x] Hp. apply in_prod_iff in Hp. destruct Hp as [Py Px].
    cbn [fst snd]. apply pair_value_ext; [reflexivity|]. intros z Hz.
    assert (Qy := in_partner_inside _ _ _ Py). assert (Qx := in_partner_inside _ _ _ Px).
    rewrite shifted_int by lia. now rewrite !from_partner. }
  assert (V : Forall value_ok vals).
  { rewrite E. apply Forall_forall. intros v Hv. apply in_map_iff in Hv. destruct Hv as [dt [<- Hdt]].
    rewrite Forall_forall in OK. destruct (OK dt Hdt). now apply pair_value_ok. }
  rewrite fltb_1_false.
  - rewrite E. now rewrite scf_of_pairs.
  - destruct (scf_of_values_bounds _ V) as [[_ ->]|[r [-> B]]]; [now right|left]. exists r. split; [auto|lra].
Qed.

(** A 1 x 3 x 1 cube on which the wrapped partners change the answer. *)
Definition cut_cube (z y x : nat) : fl := nth y [Fin 1; Fin 1; Fin 5] NaN.

Lemma cut_cube_ok : cube_ok 1 3 1 cut_cube.
Proof.
  intros z y x Hz Hy Hx. unfold cut_cube. do 3 (destruct y as [|y]; [exact I|]). lia.
Qed.

Lemma scf_cut_refuted : exists nz ny nx cube (sx sy : Z),
  cube_ok nz ny nx cube /\ (Z.abs sx <= Z.of_nat ny)%Z /\ (Z.abs sy <= Z.of_nat nx)%Z /\
  scf_value nz ny nx cube "cut" (IZR sx) (IZR sy) <>
  Ok (scf_spec nz (pairs_at ny nx cube sx sy (partner_inside ny sx) (partner_inside nx sy))).
Proof.
  exists 1%nat, 3%nat, 1%nat, cut_cube, 1%Z, 0%Z. split; [exact cut_cube_ok|]. split; [cbn; lia|]. split; [cbn; lia|].
  rewrite scf_cut_law by (try exact cut_cube_ok; cbn; lia). intros E. apply Ok_inj in E. revert E.
  cbv -[Reqb rmean sqrt Rplus Rmult Rdiv Rminus Ropp IZR not].
  repeat match goal with |- context [Reqb ?a 0] =>
    destruct (Reqb_spec a 0) as [K|K]; [exfalso; revert K; lra|clear K] end.
  intros E. injection E as E.
  match type of E with ?a - sqrt ?x = _ - sqrt ?y => assert (F : sqrt x = sqrt y) by lra end. unfold rmean in F.
  apply sqrt_inj in F; cbn in *; lra.
Qed.

Lemma scf_cut_zero nz ny nx cube : cube_ok nz ny nx cube ->
  scf_value nz ny nx cube "cut" 0 0 = scf_value nz ny nx cube "continuous" 0 0.
Proof.
  intros H. rewrite (scf_cut_law nz ny nx cube 0 0), (scf_formula nz ny nx cube 0 0) by (auto; cbn; lia).
  assert (P : forall n, partner_inside n 0 = seq 0 n) by (intros n; rewrite <- (Nat.sub_0_r n) at 2; exact (partner_inside_pos n 0)).
  now rewrite !P.
Qed.

(** ** Distance *)

Lemma scf_weight_pos size w i j : 0 < scf_weight size w i j.
Proof.
  unfold scf_weight. destruct w; [|lra]. cbv zeta.
  set (a := INR j - _). set (b := INR i - _).
  destruct (Reqb_spec a 0) as [Ea|Ea]; destruct (Reqb_spec b 0) as [Eb|Eb]; cbn [andb]; try lra;
    (apply Rdiv_lt_0_compat; [lra|apply sqrt_lt_R0]); try nra;
    assert (0 < a * a \/ 0 < b * b) by (first [left; nra | right; nra]); nra.
Qed.

Lemma rsum2_nonneg_eq0 n m (f : nat -> nat -> R) : (forall i j, (i < n)%nat -> (j < m)%nat -> 0 <= f i j) ->
  rsum n (fun i => rsum m (f i)) = 0 -> forall i j, (i < n)%nat -> (j < m)%nat -> f i j = 0.
Proof.
  intros H E i j Hi Hj.
  assert (E1 := rsum_nonneg_eq0 n (fun i => rsum m (f i)) (fun i Hi => rsum_nonneg m (f i) (fun j Hj => H i j Hi Hj)) E i Hi).
  cbv beta in E1. exact (rsum_nonneg_eq0 m (f i) (fun j Hj => H i j Hi Hj) E1 j Hj).
Qed.

Lemma scf_total_pos size w : (1 <= size)%nat -> 0 < rsum size (fun i => rsum size (fun j => scf_weight size w i j)).
Proof.
  intros H. apply rsum_pos; [auto|]. intros i Hi. apply rsum_pos; [auto|]. intros j Hj. apply scf_weight_pos.
Qed.

Lemma scf_distance_sym size w s t : scf_distance size w s t = scf_distance size w t s.
Proof.
  unfold scf_distance. cbv zeta. do 2 f_equal. apply rsum_ext. intros i Hi. apply rsum_ext. intros j Hj. ring.
Qed.

Lemma scf_distance_zero size w s t : (1 <= size)%nat ->
  (scf_distance size w s t = 0 <-> forall i j, (i < size)%nat -> (j < size)%nat -> s i j = t i j).
Proof.
  intros H. assert (T := scf_total_pos size w H). unfold scf_distance. cbv zeta. split.
  - intros E. apply sqrt_eq_0 in E.
    + assert (E' : rsum size (fun i => rsum size (fun j => (s i j - t i j) ^ 2 * scf_weight size w i j)) = 0).
      { unfold Rdiv in E. apply Rmult_integral in E. destruct E as [E|E]; auto.
        exfalso. apply (Rinv_neq_0_compat _ (Rgt_not_eq _ _ T)). exact E. }
      intros i j Hi Hj.
      assert (G := rsum2_nonneg_eq0 _ _ (fun i j => (s i j - t i j) ^ 2 * scf_weight size w i j)
         (fun i j _ _ => Rmult_le_pos _ _ (pow2_ge_0 _) (Rlt_le _ _ (scf_weight_pos size w i j))) E' i j Hi Hj).
      cbv beta in G. apply Rmult_integral in G. destruct G as [G|G].
      * assert (s i j - t i j = 0) by nra. lra.
      * pose proof (scf_weight_pos size w i j). lra.
    + unfold Rdiv. apply Rmult_le_pos; [|left; now apply Rinv_0_lt_compat].
      apply rsum_nonneg. intros i Hi. apply rsum_nonneg. intros j Hj.
      apply Rmult_le_pos; [apply pow2_ge_0|left; apply scf_weight_pos].
  - intros E. rewrite (rsum_zero size).
    + unfold Rdiv. rewrite Rmult_0_l. apply sqrt_0.
    + intros i Hi. apply rsum_zero. intros j Hj. rewrite E by auto. ring.
Qed.

(** A double sum as one sum. *)
Lemma rsum_flatten n m (f : nat -> nat -> R) :
  rsum n (fun i => rsum m (f i)) = rsum (n * m) (fun k => f (k / m)%nat (k mod m)%nat).
Proof.
  induction n as [|n IH]; [reflexivity|].
  cbn [rsum]. rewrite IH. replace (S n * m)%nat with (n * m + m)%nat by lia. rewrite rsum_split. f_equal.
  apply rsum_ext. intros j Hj. f_equal.
  - rewrite Nat.add_comm, Nat.div_add by lia. now rewrite Nat.div_small.
  - rewrite Nat.add_comm, Nat.mod_add by lia. now rewrite Nat.mod_small.
Qed.

Lemma scf_distance_triangle size w s t u :
  scf_distance size w s u <= scf_distance size w s t + scf_distance size w t u.
Proof.
  unfold scf_distance. cbv zeta. destruct size as [|n]; [cbn; unfold Rdiv; rewrite Rmult_0_l, sqrt_0; lra|].
  set (N := S n) in *. assert (T := scf_total_pos N w ltac:(lia)). set (tot := rsum N _) in *.
  assert (Q : forall f g : nat -> nat -> R,
    sqrt (rsum N (fun i => rsum N (fun j => (f i j - g i j) ^ 2 * scf_weight N w i j)) / tot) =
    sqrt (rsum (N * N) (fun k => (sqrt (scf_weight N w (k / N) (k mod N)) * f (k / N)%nat (k mod N)%nat
                                  - sqrt (scf_weight N w (k / N) (k mod N)) * g (k / N)%nat (k mod N)%nat)²)) / sqrt tot).
  { intros f g. rewrite sqrt_div_alt by auto. do 2 f_equal.
    rewrite (rsum_flatten N N (fun i j => (f i j - g i j) ^ 2 * scf_weight N w i j)). apply rsum_ext. intros k Hk.
    set (a := f _ _). set (b := g _ _). set (ww := scf_weight _ _ _ _).
    assert (S : sqrt ww * sqrt ww = ww) by (apply sqrt_sqrt; left; apply scf_weight_pos).
    replace ((sqrt ww * a - sqrt ww * b)²) with ((a - b) ^ 2 * (sqrt ww * sqrt ww)) by (unfold Rsqr; ring). now rewrite S. }
  rewrite !Q. rewrite <- Rdiv_plus_distr. apply Rmult_le_compat_r; [left; apply Rinv_0_lt_compat, sqrt_lt_R0; auto|].
  set (F := fun h : nat -> nat -> R => fun k => sqrt (scf_weight N w (k / N) (k mod N)) * h (k / N)%nat (k mod N)%nat).
  pose proof (rsum_minkowski (N * N) (fun k => F s k - F t k) (fun k => F t k - F u k)) as M.
  eapply Rle_trans; [|exact M]. right. f_equal. apply rsum_ext. intros k Hk. f_equal. unfold F. ring.
Qed.

Lemma scf_weight_spec size i j : scf_weight size true i j = lag_weight size i j.
Proof.
  unfold scf_weight, lag_weight. cbv zeta.
  assert (Q : forall k, Reqb (INR k - INR (size / 2)) 0 = (k =? size / 2)%nat).
  { intros k. destruct (Reqb_spec (INR k - INR (size / 2)) 0) as [E|E]; symmetry.
    - apply Nat.eqb_eq, INR_eq. lra.
    - apply Nat.eqb_neq. intros ->. apply E. ring. }
  rewrite !Q, andb_comm. destruct (_ && _); [reflexivity|]. f_equal. f_equal. ring.
Qed.

Lemma scf_distance_formula size w s t :
  scf_distance size w s t = weighted_rms size (if w then lag_weight size else fun _ _ => 1) s t.
Proof.
  assert (W : forall i j, scf_weight size w i j = (if w then lag_weight size else fun _ _ => 1) i j).
  { intros i j. destruct w; [apply scf_weight_spec|reflexivity]. }
  unfold scf_distance, weighted_rms. cbv zeta. f_equal. unfold Rdiv. f_equal.
  - apply rsum_ext; intros i Hi; apply rsum_ext; intros j Hj. rewrite W. ring.
  - f_equal. apply rsum_ext; intros i Hi; apply rsum_ext; intros j Hj. apply W.
Qed.

(** Non-vacuity witnesses. *)
Lemma ex_surface : exists s, compute_surface 1 3 1 cut_cube [IZR (-1); 0; 1] "continuous" = Ok s /\
  at2 NaN s 1 1 = Fin 1 /\ at2 NaN s 1 0 = at2 NaN s 1 2.
Proof.
  destruct (surface_centre 1 3 1 cut_cube [IZR (-1); 0; 1] cut_cube_ok) as [s [E Hs]].
  { exists 0%nat, 0%nat, 0%nat, 1. repeat split; try lia. lra. }
  exists s. split; [exact E|]. split; [apply Hs; cbn; auto|].
  destruct (surface_symmetric 1 3 1 cut_cube [IZR (-1); 0; 1] (fun k => Z.of_nat k - 1)%Z cut_cube_ok 2 1 0 1) as [s' [E' H']];
    try (cbn; lia).
  - intros k Hk. cbn in Hk. destruct Hk as [<-|[<-|[<-|[<-|[]]]]]; cbn; reflexivity.
  - cbn. lra.
  - cbn. lra.
  - rewrite E in E'. apply Ok_inj in E'. subst s'. exact H'.
Qed.
