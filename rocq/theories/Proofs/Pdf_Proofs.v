(** Proofs about Model/Pdf.v. *)
From Coq Require Import String Reals List Bool ZArith Arith Lra Lia Permutation Sorted.
From Verif Require Import Lib.PyBase Lib.RSum Lib.Fl Lib.Arr Lib.Hist Spec.Bins Spec.Blank Spec.Distrib Model.StatsUtils Model.EllipPlaw Model.Pdf Proofs.Fl_Proofs Proofs.Hist_Proofs Proofs.StatsUtils_Proofs Proofs.StatsUtils2_Proofs Proofs.EllipFit_Proofs Proofs.Scf_Proofs.
Import ListNotations.
Local Open Scope R_scope.

(** ** Accepted data *)
Lemma init_plain img m : init_data img (Fin m) None None = Ok (map Fin (filter (fun x => Rltb m x) (fins img))).
Proof.
  unfold init_data. apply (f_equal Ok). unfold fins. induction img as [|[x| | |] l IH]; cbn [filter flat_map app is_fin andb]; [reflexivity| |exact IH|exact IH|exact IH].
  change (fltb (Fin m) (Fin x)) with (Rltb m x). destruct (Rltb m x); cbn [map]; [now rewrite IH|exact IH].
Qed.
Lemma init_default img : init_data img NInf None None = Ok (map Fin (fins img)).
Proof.
  unfold init_data. apply (f_equal Ok). unfold fins. induction img as [|[x| | |] l IH]; cbn [filter flat_map app is_fin andb]; [reflexivity| |exact IH|exact IH|exact IH]. change (fltb NInf (Fin x)) with true. cbn [map]. now rewrite IH.
Qed.
Lemma init_weighted img w m : init_data img (Fin m) (Some w) None = Ok (map Fin (accepted m (combine img w))).
Proof.
  unfold init_data. apply (f_equal Ok). unfold accepted. induction (combine img w) as [|[x v] l IH]; [reflexivity|].
  cbn [filter fst]. destruct x as [x| | |]; cbn [is_fin andb]; [|exact IH..]. change (fltb (Fin m) (Fin x)) with (Rltb m x).
  cbn [flat_map]. destruct (Rltb_spec m x) as [L|L].
  - cbn [filter fst snd]. destruct v as [v| | |]; cbn [is_fin]; try exact IH. destruct (Rlt_dec m x); [|contradiction].
    cbn [map app fst snd fmul]. now rewrite IH.
  - destruct v as [v| | |]; cbn [app]; try exact IH. destruct (Rlt_dec m x); [contradiction|exact IH].
Qed.

(** ** The PDF *)
Lemma fins_Fin l : fins (map Fin l) = l. Proof. unfold fins. induction l as [|x l IH]; cbn; [reflexivity|]. now rewrite IH. Qed.
Lemma fin_Fin l : forallb is_fin (map Fin l) = true. Proof. induction l; auto. Qed.
Lemma np_round_pos x : 1 <= x -> (1 <= np_round x)%Z.
Proof.
  intros H. unfold np_round. cbv zeta. destruct (base_Int_part x) as [A B]. assert (0 < Int_part x)%Z by (apply lt_IZR; lra).
  destruct (Rltb _ _); [lia|]. destruct (Rltb _ _); [lia|]. destruct (Z.even _); lia.
Qed.
Lemma pdf_auto data st : data <> [] -> p_data st = map Fin data -> p_bins st = None -> exists st' edges,
  make_pdf st None = Ok st' /\ is_pdf edges (pdf_values st') /\ pdf_bins st' = mid edges /\ increasing edges /\
  length (pdf_bins st') = Z.to_nat (np_round (sqrt (INR (length data)))) /\ (forall x, In x data -> in_range edges x).
Proof.
  intros Hd Hp Hb. unfold make_pdf. rewrite Hb, Hp, map_length. set (n := Z.to_nat (np_round (sqrt (INR (length data))))).
  assert (N : (1 <= n)%nat). { unfold n. assert (1 <= np_round (sqrt (INR (length data))))%Z; [|lia]. apply np_round_pos. rewrite <- sqrt_1. apply sqrt_le_1_alt.
    destruct data; [contradiction|]. cbn [length]. rewrite S_INR. pose proof (pos_INR (length data)). lra. }
  unfold histogram_fl. rewrite fin_Fin, fins_Fin. unfold histogram. destruct (bin_edges data (NumBins n)) as [edges|] eqn:B.
  2:{ destruct n; [lia|]. cbn in B. destruct (outer_edges data). discriminate. }
  cbn [bind fst snd]. destruct (auto_edges _ _ _ B) as [_ [L [I C]]]. eexists. exists edges. split; [reflexivity|]. cbn [pdf_values pdf_bins p_pdf p_bins].
  split; [|split; [reflexivity|split; [exact I|split; [unfold mid; rewrite tab1_length; lia|exact C]]]].
  destruct data as [|x data]; [contradiction|]. apply (density_pdf (x :: data) edges x); auto; [lia|now left|apply C; now left].
Qed.
Lemma pdf_edges data st edges x : p_data st = map Fin data -> increasing edges -> (2 <= length edges)%nat -> In x data -> in_range edges x -> exists st',
  make_pdf st (Some (Edges edges)) = Ok st' /\ is_pdf edges (pdf_values st') /\ pdf_bins st' = mid edges /\
  forall i, (S i < length edges)%nat -> exists c, 0 < c /\
    nth i (pdf_values st') NaN = Fin (INR (length (filter (in_binb edges i) data)) / (nth (S i) edges 0 - nth i edges 0) / c).
Proof.
  intros Hp I L Hx R. unfold make_pdf, histogram_fl. rewrite Hp, fins_Fin. destruct (histogram_edges data edges x I L Hx R) as [E P]. rewrite E. cbn [bind fst snd].
  eexists. split; [reflexivity|]. cbn [pdf_values pdf_bins p_pdf p_bins]. split; [exact P|]. split; [reflexivity|].
  intros i Hi. exists (lsum (counts data edges)). split; [now apply (total_pos data edges x)|]. now apply (proj2 (density_pdf data edges x I L Hx R)).
Qed.
(** Values out of the bins do not count. *)
Lemma pdf_history st1 st2 b : p_data st1 = p_data st2 -> make_pdf st1 (Some b) = make_pdf st2 (Some b).
Proof. intros H. unfold make_pdf. now rewrite H. Qed.
Lemma mid_incr c : increasing c -> increasing (mid c).
Proof.
  intros I i j H. unfold mid in *. rewrite tab1_length in H. rewrite !tab1_nth by lia.
  assert (nth i c 0 < nth j c 0) by (apply I; lia). assert (nth (S i) c 0 < nth (S j) c 0) by (apply I; lia). lra.
Qed.
(** Each call without arguments loses a bin. *)
Lemma pdf_again st c : p_bins st = Some (Edges c) -> increasing c -> exists st',
  make_pdf st None = Ok st' /\ pdf_bins st' = mid c /\ length (pdf_bins st') = (length c - 1)%nat.
Proof.
  intros Hb I. unfold make_pdf. rewrite Hb. unfold histogram_fl, histogram. cbn [bin_edges]. rewrite incr_nondec by exact I. cbn [bind fst snd].
  eexists. split; [reflexivity|]. cbn [pdf_bins p_bins]. split; [reflexivity|]. unfold mid. now rewrite tab1_length.
Qed.
Lemma mid_decr c : length (mid c) = (length c - 1)%nat. Proof. unfold mid. now rewrite tab1_length. Qed.
Lemma again_refuted : ~ (forall data st1 st2, data <> [] -> make_pdf (mk_pdf (map Fin data) None None) None = Ok st1 -> make_pdf st1 None = Ok st2 ->
  pdf_bins st2 = pdf_bins st1 /\ pdf_values st2 = pdf_values st1).
Proof.
  intros H. set (d := [0; 1; 2; 3]). destruct (pdf_auto d (mk_pdf (map Fin d) None None)) as [st1 [edges [E1 [_ [B1 [I [L1 _]]]]]]]; [discriminate|reflexivity|reflexivity|].
  assert (P : p_bins st1 = Some (Edges (pdf_bins st1))). { unfold make_pdf in E1. destruct (histogram_fl _ _) in E1; [|discriminate]. cbn [bind] in E1. inversion E1. reflexivity. }
  assert (I1 : increasing (pdf_bins st1)) by (rewrite B1; now apply mid_incr).
  destruct (pdf_again st1 _ P I1) as [st2 [E2 [B2 L2]]].
  destruct (H d st1 st2 ltac:(discriminate) E1 E2) as [C _]. rewrite C in L2. rewrite L1 in L2.
  assert (1 <= np_round (sqrt (INR (length d))))%Z; [|lia]. apply np_round_pos. rewrite <- sqrt_1. apply sqrt_le_1_alt. cbn. lra.
Qed.

(** ** The ECDF *)
Lemma ecdf_laws data st st' e : data <> [] -> p_data st = map Fin data -> make_ecdf st = Ok (st', e) -> exists v,
  e = map Fin v /\ length v = length (pdf_bins st') /\ (forall y, In y v -> 0 <= y <= 1) /\
  (forall i, (i < length v)%nat -> nth i v 0 = share_le data (nth i (pdf_bins st') 0)) /\
  (increasing (pdf_bins st') -> forall i j, (i <= j < length v)%nat -> nth i v 0 <= nth j v 0).
Proof.
  intros Hd Hp E. unfold make_ecdf in E. destruct (match p_pdf st with None => make_pdf st None | Some _ => Ok st end) as [s|] eqn:M; [|discriminate].
  cbn [bind] in E. assert (Es : p_data s = p_data st).
  { destruct (p_pdf st); [now inversion M|]. unfold make_pdf in M. destruct (histogram_fl _ _) in M; [|discriminate]. cbn [bind] in M. now inversion M. }
  apply (f_equal (fun r => match r with Ok x => x | Err _ => (st', []) end)) in E. inversion E; subst. clear E. rewrite Es, Hp, fins_Fin.
  exists (map (share_le data) (pdf_bins st')).
  assert (Ev : forall x, ecdf data x = Fin (share_le data x)) by (intros; now apply ecdf_val).
  split; [rewrite map_map; apply map_ext; exact Ev|]. rewrite map_length. split; [reflexivity|].
  assert (N : forall i, (i < length (pdf_bins st'))%nat -> nth i (map (share_le data) (pdf_bins st')) 0 = share_le data (nth i (pdf_bins st') 0)).
  { intros i Hi. rewrite (nth_indep _ 0 (share_le data 0)) by now rewrite map_length. apply map_nth. }
  split; [intros y Hy; apply in_map_iff in Hy; destruct Hy as [x [<- _]]; now apply (ecdf_bounds data x)|].
  split; [exact N|]. intros I i j Hij. rewrite !N by lia. apply (ecdf_mono data (nth i (pdf_bins st') 0) (nth j (pdf_bins st') 0)); auto.
  destruct (Nat.eq_dec i j) as [->|]; [lra|]. left. apply I. lia.
Qed.
Lemma ecdf_end_refuted : ~ (forall data st' e, data <> [] -> make_ecdf (mk_pdf (map Fin data) None None) = Ok (st', e) -> last e NaN = Fin 1).
Proof.
  intros H. set (d := [0; 1; 2; 3]).
  assert (R2 : np_round (sqrt (INR (length d))) = 2%Z).
  { cbn [d length]. replace (INR 4) with (2 * 2) by (cbn; ring). rewrite sqrt_square by lra. unfold np_round.
    assert (I : Int_part 2 = 2%Z) by apply (Int_part_IZR 2).
    rewrite I. cbv zeta. destruct (Rltb_spec (2 - 2) (1 / 2)); [reflexivity|lra]. }
  destruct (pdf_auto d (mk_pdf (map Fin d) None None)) as [st1 [edges [M _]]]; [discriminate|reflexivity|reflexivity|].
  assert (B : pdf_bins st1 = [3 / 4; 9 / 4]).
  { unfold make_pdf in M. cbn [p_bins p_data] in M. rewrite map_length, R2 in M. unfold histogram_fl in M. rewrite fin_Fin, fins_Fin in M. unfold histogram in M. cbn [Z.to_nat Pos.to_nat Pos.iter_op Nat.add bin_edges] in M.
    assert (O : outer_edges d = (0, 3)).
    { unfold d. cbn [outer_edges lmin lmax]. rewrite (Rmin_left 0 1), (Rmin_left 0 2), (Rmin_left 0 3), (Rmax_right 0 1), (Rmax_right 1 2), (Rmax_right 2 3) by lra. destruct (Reqb_spec 0 3); [lra|reflexivity]. }
    rewrite O in M. cbn [bind fst snd] in M. inversion M. cbn [pdf_bins p_bins]. unfold mid. rewrite tab1_length. cbn. apply (f_equal2 cons); [lra|]. apply (f_equal2 cons); [lra|reflexivity]. }
  assert (E : make_ecdf (mk_pdf (map Fin d) None None) = Ok (st1, map (ecdf d) [3 / 4; 9 / 4])).
  { unfold make_ecdf. cbn [p_pdf]. rewrite M. cbn [bind]. rewrite B. assert (Es : p_data st1 = map Fin d). { unfold make_pdf in M. destruct (histogram_fl _ _) in M; [|discriminate]. cbn [bind] in M. now inversion M. } now rewrite Es, fins_Fin. }
  specialize (H d st1 _ ltac:(discriminate) E). cbn [map last] in H. rewrite ecdf_val in H by discriminate. inversion H as [K]. revert K.
  unfold count_le, d. cbn [filter]. destruct (Rleb_spec 0 (9 / 4)); [|lra]. destruct (Rleb_spec 1 (9 / 4)); [|lra]. destruct (Rleb_spec 2 (9 / 4)); [|lra]. destruct (Rleb_spec 3 (9 / 4)); [lra|]. cbn. lra.
Qed.
Lemma ecdf_end_partial data x : data <> [] -> (forall y, In y data -> y <= x) -> ecdf data x = Fin 1 /\ find_percentile data x = Fin 100.
Proof. intros H T. unfold find_percentile. rewrite ecdf_top by assumption. split; [reflexivity|]. cbn. f_equal. ring. Qed.

(** ** Percentiles *)
Lemma percentile_0 l : l <> [] -> percentile l 0 = nth 0 l 0.
Proof.
  intros H. unfold percentile. cbv zeta. replace (0 / 100 * (INR (length l) - 1)) with 0 by lra.
  assert (I : Int_part 0 = 0%Z) by apply (Int_part_IZR 0). rewrite I. cbn. ring.
Qed.

Lemma percentile_100 l : l <> [] -> percentile l 100 = nth (length l - 1) l 0.
Proof.
  intros H. unfold percentile. cbv zeta. assert (N : (0 < length l)%nat) by (destruct l; [contradiction|cbn; lia]).
  replace (100 / 100 * (INR (length l) - 1)) with (INR (length l - 1)) by (rewrite minus_INR by lia; cbn [INR]; field).
  assert (I : Int_part (INR (length l - 1)) = Z.of_nat (length l - 1)) by (rewrite INR_IZR_INZ; apply Int_part_IZR).
  rewrite I, Nat2Z.id. ring.
Qed.
Lemma sort_ne l : l <> [] -> sort_r l <> [].
Proof. intros H E. pose proof (Permutation_length (sort_perm l)) as L. rewrite E in L. destruct l; [contradiction|discriminate]. Qed.
Lemma sort_min l : l <> [] -> is_min (nth 0 (sort_r l) 0) l.
Proof.
  intros H. pose proof (sort_ne l H) as N. assert (L : (0 < length (sort_r l))%nat) by (destruct (sort_r l); [contradiction|cbn; lia]). split.
  - apply (Permutation_in _ (sort_perm l)). apply nth_In. exact L.
  - intros y Hy. apply (Permutation_in _ (Permutation_sym (sort_perm l))) in Hy. apply (In_nth _ _ 0) in Hy. destruct Hy as [i [Hi <-]]. apply sorted_nth; [apply sort_sorted|lia|exact Hi].
Qed.
Lemma sort_max l : l <> [] -> is_max (nth (length (sort_r l) - 1) (sort_r l) 0) l.
Proof.
  intros H. pose proof (sort_ne l H) as N. assert (L : (0 < length (sort_r l))%nat) by (destruct (sort_r l); [contradiction|cbn; lia]). split.
  - apply (Permutation_in _ (sort_perm l)). apply nth_In. lia.
  - intros y Hy. apply (Permutation_in _ (Permutation_sym (sort_perm l))) in Hy. apply (In_nth _ _ 0) in Hy. destruct Hy as [i [Hi <-]]. apply sorted_nth; [apply sort_sorted|lia|lia].
Qed.
Lemma percentiles_ok data ps : data <> [] -> (forall p, In p ps -> 0 <= p <= 100) -> exists vs, find_at_percentile data ps = Ok vs /\ length vs = length ps /\
  (forall i j, (i < length ps)%nat -> (j < length ps)%nat -> nth i ps 0 <= nth j ps 0 -> nth i vs 0 <= nth j vs 0) /\
  (forall i, (i < length ps)%nat -> nth i ps 0 = 0 -> is_min (nth i vs 0) data) /\
  (forall i, (i < length ps)%nat -> nth i ps 0 = 100 -> is_max (nth i vs 0) data) /\
  (forall i lo hi, (i < length ps)%nat -> is_min lo data -> is_max hi data -> lo <= nth i vs 0 <= hi).
Proof.
  intros Hd Hp. unfold find_at_percentile. assert (E : existsb (fun p => Rltb 100 p || Rltb p 0) ps = false).
  { apply not_true_is_false. intros K. apply existsb_exists in K. destruct K as [p [I K]]. specialize (Hp p I). destruct (Rltb_spec 100 p), (Rltb_spec p 0); try lra; discriminate. }
  rewrite E. eexists. split; [reflexivity|]. rewrite map_length. split; [reflexivity|].
  assert (N : forall i, (i < length ps)%nat -> nth i (map (percentile (sort_r data)) ps) 0 = percentile (sort_r data) (nth i ps 0)).
  { intros i Hi. rewrite (nth_indep _ 0 (percentile (sort_r data) 0)) by now rewrite map_length. apply map_nth. }
  assert (R : forall i, (i < length ps)%nat -> 0 <= nth i ps 0 <= 100) by (intros i Hi; apply Hp, nth_In, Hi).
  pose proof (sort_ne data Hd) as Sn.
  split; [intros i j Hi Hj L; rewrite !N by assumption; pose proof (R i Hi); pose proof (R j Hj); apply percentile_mono; try lra; [apply sort_sorted|exact Sn]|].
  split; [intros i Hi Z; rewrite N, Z, percentile_0 by assumption; now apply sort_min|].
  split; [intros i Hi Z; rewrite N, Z, percentile_100 by assumption; now apply sort_max|].
  intros i lo hi Hi Lo Hi'. rewrite N by exact Hi. pose proof (R i Hi) as Ri.
  assert (A : percentile (sort_r data) 0 <= percentile (sort_r data) (nth i ps 0)) by (apply percentile_mono; try lra; [apply sort_sorted|exact Sn]).
  assert (B : percentile (sort_r data) (nth i ps 0) <= percentile (sort_r data) 100) by (apply percentile_mono; try lra; [apply sort_sorted|exact Sn]).
  rewrite percentile_0 in A by exact Sn. rewrite percentile_100 in B by exact Sn.
  pose proof (proj2 Lo _ (proj1 (sort_min data Hd))). pose proof (proj2 Hi' _ (proj1 (sort_max data Hd))). lra.
Qed.
Lemma percentiles_err data ps : (exists p, In p ps /\ (p < 0 \/ 100 < p)) -> find_at_percentile data ps = Err ValueError.
Proof.
  intros [p [I H]]. unfold find_at_percentile. assert (E : existsb (fun p => Rltb 100 p || Rltb p 0) ps = true).
  { apply existsb_exists. exists p. split; [exact I|]. destruct (Rltb_spec 100 p), (Rltb_spec p 0); try reflexivity. lra. }
  now rewrite E.
Qed.

(** ** KS *)
Definition ks_at (d1 d2 : list R) (x : R) : R := Rabs (share_le d1 x - share_le d2 x).
Lemma ks_eq d1 d2 : d1 <> [] -> d2 <> [] -> ks_distance d1 d2 = Ok (lmax 0 (map (ks_at d1 d2) (d1 ++ d2))).
Proof. intros H1 H2. destruct d1; [contradiction|]. destruct d2; [contradiction|]. reflexivity. Qed.
Lemma ks_le d1 d2 x : In x (d1 ++ d2) -> ks_at d1 d2 x <= lmax 0 (map (ks_at d1 d2) (d1 ++ d2)).
Proof. intros H. apply lmax_ge. now apply in_map. Qed.
Lemma ks_attained d1 d2 : d1 <> [] -> exists x, In x (d1 ++ d2) /\ lmax 0 (map (ks_at d1 d2) (d1 ++ d2)) = ks_at d1 d2 x.
Proof.
  intros H. destruct (lmax_in 0 (map (ks_at d1 d2) (d1 ++ d2))) as [E|I].
  - destruct d1 as [|a d1]; [contradiction|]. exists a. split; [now left|]. pose proof (ks_le (a :: d1) d2 a ltac:(now left)) as L. rewrite <- E in *.
    pose proof (Rabs_pos (share_le (a :: d1) a - share_le d2 a)). unfold ks_at in *. lra.
  - apply in_map_iff in I. destruct I as [x [E I]]. exists x. now split.
Qed.
(** Between data points nothing changes. *)
Lemma lmax_least z l b : z <= b -> (forall y, In y l -> y <= b) -> lmax z l <= b.
Proof. intros Hz Hl. destruct (lmax_in z l) as [<-|I]; auto. Qed.
Lemma share_none d x : (forall y, In y d -> x < y) -> share_le d x = 0.
Proof.
  intros H. unfold share_le. assert (E : filter (fun y => Rleb y x) d = []).
  { induction d as [|a d IH]; [reflexivity|]. cbn [filter]. destruct (Rleb_spec a x) as [L|L]; [specialize (H a (or_introl eq_refl)); lra|]. apply IH. intros; apply H; now right. }
  rewrite E. cbn. lra.
Qed.
Lemma share_step d x z : z <= x -> (forall y, In y d -> y <= x -> y <= z) -> share_le d x = share_le d z.
Proof.
  intros L H. unfold share_le. do 3 f_equal. apply filter_ext_in. intros y Hy. destruct (Rleb_spec y x), (Rleb_spec y z); try reflexivity; try lra. specialize (H y Hy). lra.
Qed.
Lemma ks_sup d1 d2 : d1 <> [] -> d2 <> [] -> exists D, ks_distance d1 d2 = Ok D /\
  (forall x, Rabs (share_le d1 x - share_le d2 x) <= D) /\ (exists x, D = Rabs (share_le d1 x - share_le d2 x)).
Proof.
  intros H1 H2. rewrite ks_eq by assumption. eexists. split; [reflexivity|]. split.
  - intros x. destruct (filter (fun y => Rleb y x) (d1 ++ d2)) as [|z0 l0] eqn:E.
    + assert (N : forall y, In y (d1 ++ d2) -> x < y).
      { intros y Hy. destruct (Rleb_spec y x) as [L|L]; [|lra]. exfalso. assert (I : In y (filter (fun y => Rleb y x) (d1 ++ d2))).
        { apply filter_In. split; [exact Hy|]. destruct (Rleb_spec y x); [reflexivity|contradiction]. } rewrite E in I. destruct I. }
      rewrite !share_none by (intros y Hy; apply N, in_or_app; auto). rewrite Rminus_eq_0, Rabs_R0. apply (proj1 (lmax_ge _ _)).
    + set (z := lmax z0 l0). assert (Iz : In z (filter (fun y => Rleb y x) (d1 ++ d2))) by (rewrite E; apply lmax_in).
      apply filter_In in Iz. destruct Iz as [Iz Lz]. assert (Lz' : z <= x) by (destruct (Rleb_spec z x); [assumption|discriminate]).
      assert (M : forall y, In y (d1 ++ d2) -> y <= x -> y <= z).
      { intros y Hy L. assert (I : In y (z0 :: l0)). { rewrite <- E. apply filter_In. split; [exact Hy|]. destruct (Rleb_spec y x); [reflexivity|contradiction]. }
        destruct I as [<-|I]; unfold z; [apply (proj1 (lmax_ge _ _))|now apply lmax_ge]. }
      rewrite (share_step d1 x z), (share_step d2 x z); [apply (ks_le d1 d2 z Iz)|exact Lz'|intros y Hy; apply M, in_or_app; auto|exact Lz'|intros y Hy; apply M, in_or_app; auto].
  - destruct (ks_attained d1 d2 H1) as [x [_ E]]. exists x. exact E.
Qed.
Lemma ks_unique d1 d2 D D' : d1 <> [] -> d2 <> [] -> ks_distance d1 d2 = Ok D -> (forall x, Rabs (share_le d1 x - share_le d2 x) <= D') -> (exists x, D' = Rabs (share_le d1 x - share_le d2 x)) -> D = D'.
Proof.
  intros H1 H2 E B [x A]. destruct (ks_sup d1 d2 H1 H2) as [D0 [E0 [B0 [x0 A0]]]]. rewrite E in E0. inversion E0; subst D0.
  specialize (B x0). specialize (B0 x). lra.
Qed.
Lemma share_bounds d x : 0 <= share_le d x <= 1.
Proof.
  unfold share_le. destruct d as [|a d]; [cbn; lra|]. change (length (filter (fun y => Rleb y x) (a :: d))) with (count_le (a :: d) x).
  assert (P : 0 < INR (length (a :: d))) by (apply lt_0_INR; cbn; lia). pose proof (pos_INR (count_le (a :: d) x)). pose proof (le_INR _ _ (count_le_length (a :: d) x)). split.
  - apply Rmult_le_pos; [lra|]. left. now apply Rinv_0_lt_compat.
  - apply (Rmult_le_reg_r (INR (length (a :: d)))); [lra|]. unfold Rdiv. rewrite Rmult_assoc, Rinv_l; lra.
Qed.
Lemma ks_range d1 d2 : d1 <> [] -> d2 <> [] -> exists D, ks_distance d1 d2 = Ok D /\ 0 <= D <= 1.
Proof.
  intros H1 H2. destruct (ks_sup d1 d2 H1 H2) as [D [E [_ [x A]]]]. exists D. split; [exact E|]. rewrite A. split; [apply Rabs_pos|].
  pose proof (share_bounds d1 x). pose proof (share_bounds d2 x). unfold Rabs. destruct (Rcase_abs _); lra.
Qed.
Lemma ks_sym d1 d2 : d1 <> [] -> d2 <> [] -> ks_distance d1 d2 = ks_distance d2 d1.
Proof.
  intros H1 H2. destruct (ks_sup d1 d2 H1 H2) as [D [E [B [x A]]]]. destruct (ks_sup d2 d1 H2 H1) as [D' [E' _]]. rewrite E, E'. apply (f_equal Ok). symmetry.
  apply (ks_unique d2 d1 D' D H2 H1 E'); [intros y; rewrite Rabs_minus_sym; apply B|]. exists x. now rewrite Rabs_minus_sym.
Qed.
Lemma share_perm d d' x : Permutation d d' -> share_le d x = share_le d' x.
Proof.
  intros H. unfold share_le. rewrite (Permutation_length H). do 2 f_equal.
  induction H; cbn [filter]; try destruct (Rleb x0 x); cbn [length]; try congruence.
  destruct (Rleb y x); cbn [length]; try reflexivity.
Qed.
Lemma ks_zero d1 d2 : d1 <> [] -> d2 <> [] -> Permutation d1 d2 -> ks_distance d1 d2 = Ok 0.
Proof.
  intros H1 H2 P. destruct (ks_sup d1 d2 H1 H2) as [D [E [_ [x A]]]]. rewrite E. apply (f_equal Ok). rewrite A, (share_perm _ _ _ P), Rminus_eq_0. apply Rabs_R0.
Qed.
Lemma share_map g d x : (forall a b, a < b -> g a < g b) -> share_le (map g d) (g x) = share_le d x.
Proof.
  intros H. unfold share_le. rewrite map_length. do 2 f_equal. induction d as [|a d IH]; [reflexivity|]. cbn [map filter].
  assert (E : Rleb (g a) (g x) = Rleb a x).
  { destruct (Rleb_spec (g a) (g x)) as [L|L], (Rleb_spec a x) as [K|K]; try reflexivity; exfalso.
    - apply Rnot_le_lt, H in K. lra.
    - destruct K as [K| ->]; [apply H in K; lra|lra]. }
  rewrite E. destruct (Rleb a x); cbn [length]; now rewrite IH.
Qed.
Lemma map_nonempty {A B} (f : A -> B) l : l <> [] -> map f l <> []. Proof. destruct l; [contradiction|discriminate]. Qed.
Lemma lmax_ext z l l' : l = l' -> lmax z l = lmax z l'. Proof. now intros ->. Qed.
Lemma ks_monotone g d1 d2 : d1 <> [] -> d2 <> [] -> (forall a b, a < b -> g a < g b) -> ks_distance (map g d1) (map g d2) = ks_distance d1 d2.
Proof.
  intros H1 H2 Hg. rewrite !ks_eq by (try apply map_nonempty; assumption). apply (f_equal Ok). apply lmax_ext. rewrite <- map_app, map_map. apply map_ext.
  intros x. unfold ks_at. now rewrite !share_map.
Qed.
Lemma share_all_le d x : d <> [] -> (forall y, In y d -> y <= x) -> share_le d x = 1.
Proof. intros H T. pose proof (ecdf_top d x H T) as E. rewrite ecdf_val in E by exact H. now inversion E. Qed.
Lemma ks_separated d1 d2 : d1 <> [] -> d2 <> [] -> (forall a b, In a d1 -> In b d2 -> a < b) -> ks_distance d1 d2 = Ok 1.
Proof.
  intros H1 H2 S. destruct (ks_sup d1 d2 H1 H2) as [D [E [B [x A]]]]. destruct (ks_range d1 d2 H1 H2) as [D' [E' R]]. rewrite E in E'. inversion E'; subst D'. rewrite E. apply (f_equal Ok).
  destruct d1 as [|a d1]; [contradiction|]. set (m := lmax a d1). assert (Im : In m (a :: d1)) by apply lmax_in.
  specialize (B m). rewrite share_all_le, share_none in B.
  - rewrite Rminus_0_r, Rabs_R1 in B. lra.
  - intros y Hy. now apply S.
  - discriminate.
  - intros y [<-|Hy]; [apply (proj1 (lmax_ge _ _))|now apply lmax_ge].
Qed.
Lemma ks_triangle d1 d2 d3 : d1 <> [] -> d2 <> [] -> d3 <> [] -> exists D12 D23 D13,
  ks_distance d1 d2 = Ok D12 /\ ks_distance d2 d3 = Ok D23 /\ ks_distance d1 d3 = Ok D13 /\ D13 <= D12 + D23.
Proof.
  intros H1 H2 H3. destruct (ks_sup d1 d2 H1 H2) as [A [EA [BA _]]]. destruct (ks_sup d2 d3 H2 H3) as [B [EB [BB _]]]. destruct (ks_sup d1 d3 H1 H3) as [C [EC [_ [x XC]]]].
  exists A, B, C. repeat (split; [assumption|]). specialize (BA x). specialize (BB x). rewrite XC.
  replace (share_le d1 x - share_le d3 x) with ((share_le d1 x - share_le d2 x) + (share_le d2 x - share_le d3 x)) by ring.
  pose proof (Rabs_triang (share_le d1 x - share_le d2 x) (share_le d2 x - share_le d3 x)). lra.
Qed.

(** ** Hellinger *)
Lemma fsum_Fin l : fsum (map Fin l) = Fin (lsum l).
Proof. induction l as [|x l IH]; [reflexivity|]. cbn [map]. unfold fsum in *. cbn [fold_right]. rewrite IH. rewrite lsum_cons. reflexivity. Qed.
Lemma norm_eq p : 0 < lsum p -> map (fun v => fdiv v (fsum (map Fin p))) (map Fin p) = map Fin (unit_sum p).
Proof. intros H. unfold unit_sum. rewrite !map_map, fsum_Fin. apply map_ext. intros v. now rewrite fdiv_fin by lra. Qed.
Lemma unit_sum_1 p : 0 < lsum p -> lsum (unit_sum p) = 1.
Proof. intros H. unfold unit_sum, Rdiv. rewrite (lsum_map_scal_r (/ lsum p) (fun v => v)), map_id. apply Rinv_r. lra. Qed.
Lemma unit_hist p : 0 < lsum p -> (forall v, In v p -> 0 <= v) -> Forall hist_value (map Fin (unit_sum p)).
Proof.
  intros H N. rewrite Forall_forall. intros v Hv. apply in_map_iff in Hv. destruct Hv as [u [<- Hu]]. unfold unit_sum in Hu. apply in_map_iff in Hu. destruct Hu as [w [<- Hw]].
  cbn. apply Rmult_le_pos; [now apply N|]. left. now apply Rinv_0_lt_compat.
Qed.
Lemma pairs_Fin p q : valid_pairs (map Fin p) (map Fin q) = combine p q.
Proof. unfold valid_pairs. revert q. induction p as [|a p IH]; intros [|b q]; cbn; try reflexivity. now rewrite <- IH. Qed.
Lemma combine_eq (p q : list R) : length p = length q -> (forall a b, In (a, b) (combine p q) -> a = b) -> p = q.
Proof.
  revert q. induction p as [|a p IH]; intros [|b q] L H; try discriminate; [reflexivity|]. f_equal; [apply H; now left|]. apply IH; [now inversion L|]. intros; apply H; now right.
Qed.
Lemma hell_laws p q : length p = length q -> 0 < lsum p -> 0 < lsum q -> (forall v, In v p -> 0 <= v) -> (forall v, In v q -> 0 <= v) ->
  hellinger_distance (map Fin p) (map Fin q) = hellinger_distance (map Fin q) (map Fin p) /\
  exists d, hellinger_distance (map Fin p) (map Fin q) = Fin d /\ 0 <= d <= 1 /\ (d = 0 <-> unit_sum p = unit_sum q).
Proof.
  intros L Sp Sq Np Nq. unfold hellinger_distance. rewrite !norm_eq by assumption.
  pose proof (unit_hist p Sp Np) as Hp. pose proof (unit_hist q Sq Nq) as Hq.
  assert (LL : length (map Fin (unit_sum p)) = length (map Fin (unit_sum q))) by (unfold unit_sum; now rewrite !map_length).
  split; [now apply hellinger_sym|]. destruct (hellinger_zero (map Fin (unit_sum p)) (map Fin (unit_sum q)) 1 ltac:(lra) Hp Hq LL) as [d [E [P Z]]].
  destruct (hellinger_le_1 (map Fin (unit_sum p)) (map Fin (unit_sum q)) Hp Hq LL) as [d' [E' U]]; [rewrite fins_Fin, unit_sum_1; lra|rewrite fins_Fin, unit_sum_1; lra|].
  rewrite E in E'. inversion E'; subst d'. exists d. split; [exact E|]. split; [lra|]. rewrite Z, pairs_Fin. split.
  - intros K. apply combine_eq; [unfold unit_sum; now rewrite !map_length|exact K].
  - intros ->. intros a b I. clear - I. revert I. generalize (unit_sum q). intros l. induction l as [|x l IH]; intros []; [congruence|auto].
Qed.
Lemma hell_scale p q c : 0 < c -> 0 < lsum p -> hellinger_distance (map Fin (map (fun v => c * v) p)) q = hellinger_distance (map Fin p) q.
Proof.
  intros Hc Hp. unfold hellinger_distance. f_equal.
  assert (L : lsum (map (fun v => c * v) p) = c * lsum p) by (rewrite (lsum_map_scal c (fun v => v)), map_id; reflexivity).
  rewrite !norm_eq by (try rewrite L; try apply Rmult_lt_0_compat; assumption). f_equal. unfold unit_sum. rewrite L, map_map. apply map_ext. intros v. field. lra.
Qed.

(** ** Fits *)
Lemma fit_refuted : ~ (forall logpdf floc loc fscale scale params, is_ok (loglike logpdf floc loc fscale scale params) = true).
Proof. intros H. specialize (H (fun _ _ _ => []) true 0 true 1 [1]). discriminate. Qed.
Lemma fit_partial logpdf floc loc0 fscale scale0 shapes loc scale lg : floc && fscale = false -> 
  (floc = true -> loc = loc0) -> (fscale = true -> scale = scale0) -> logpdf shapes loc scale = map Fin lg ->
  loglike logpdf floc loc0 fscale scale0 (init_params (shapes ++ [loc; scale]) floc fscale) = Ok (Fin (lsum lg)).
Proof.
  intros H Hl Hs E. unfold init_params. rewrite app_length. cbn [length]. set (n := length shapes).
  assert (F2 : firstn (n + 2 - 2) (shapes ++ [loc; scale]) = shapes).
  { replace (n + 2 - 2)%nat with (length shapes + 0)%nat by (unfold n; lia). rewrite firstn_app_2. cbn. apply app_nil_r. }
  assert (N1 : nth (n + 2 - 1) (shapes ++ [loc; scale]) 0 = scale). { rewrite app_nth2 by (unfold n; lia). replace (n + 2 - 1 - length shapes)%nat with 1%nat by (unfold n; lia). reflexivity. }
  assert (N2 : nth (n + 2 - 2) (shapes ++ [loc; scale]) 0 = loc). { rewrite app_nth2 by (unfold n; lia). replace (n + 2 - 2 - length shapes)%nat with 0%nat by (unfold n; lia). reflexivity. }
  assert (T : forall v, nth (n + 1 - 1) (shapes ++ [v]) 0 = v). { intros v. rewrite app_nth2 by (unfold n; lia). replace (n + 1 - 1 - length shapes)%nat with 0%nat by (unfold n; lia). reflexivity. }
  assert (T1 : forall v : R, firstn (n + 1 - 1) (shapes ++ [v]) = shapes). { intros v. replace (n + 1 - 1)%nat with (length shapes + 0)%nat by (unfold n; lia). rewrite firstn_app_2. cbn. apply app_nil_r. }
  destruct floc, fscale; try discriminate; cbn [andb]; unfold loglike; cbv zeta; cbn [negb andb].
  - rewrite F2, N1, app_length. cbn [length]. fold n. cbn [bind]. rewrite T, T1, <- Hl, E, fin_Fin, fsum_Fin by reflexivity. reflexivity.
  - rewrite F2, N2, app_length. cbn [length]. fold n. cbn [bind]. rewrite T, T1, <- Hs, E, fin_Fin, fsum_Fin by reflexivity. reflexivity.
  - rewrite app_length. cbn [length]. fold n. cbn [bind]. rewrite N1, N2, F2, E, fin_Fin, fsum_Fin. reflexivity.
Qed.
Lemma fit_infinite logpdf floc loc0 fscale scale0 shapes loc scale : floc && fscale = false ->
  (floc = true -> loc = loc0) -> (fscale = true -> scale = scale0) -> forallb is_fin (logpdf shapes loc scale) = false ->
  loglike logpdf floc loc0 fscale scale0 (init_params (shapes ++ [loc; scale]) floc fscale) = Ok NInf.
Proof.
  intros H Hl Hs E. unfold init_params. rewrite app_length. cbn [length]. set (n := length shapes).
  assert (F2 : firstn (n + 2 - 2) (shapes ++ [loc; scale]) = shapes).
  { replace (n + 2 - 2)%nat with (length shapes + 0)%nat by (unfold n; lia). rewrite firstn_app_2. cbn. apply app_nil_r. }
  assert (N1 : nth (n + 2 - 1) (shapes ++ [loc; scale]) 0 = scale). { rewrite app_nth2 by (unfold n; lia). replace (n + 2 - 1 - length shapes)%nat with 1%nat by (unfold n; lia). reflexivity. }
  assert (N2 : nth (n + 2 - 2) (shapes ++ [loc; scale]) 0 = loc). { rewrite app_nth2 by (unfold n; lia). replace (n + 2 - 2 - length shapes)%nat with 0%nat by (unfold n; lia). reflexivity. }
  assert (T : forall v, nth (n + 1 - 1) (shapes ++ [v]) 0 = v). { intros v. rewrite app_nth2 by (unfold n; lia). replace (n + 1 - 1 - length shapes)%nat with 0%nat by (unfold n; lia). reflexivity. }
  assert (T1 : forall v : R, firstn (n + 1 - 1) (shapes ++ [v]) = shapes). { intros v. replace (n + 1 - 1)%nat with (length shapes + 0)%nat by (unfold n; lia). rewrite firstn_app_2. cbn. apply app_nil_r. }
  destruct floc, fscale; try discriminate; cbn [andb]; unfold loglike; cbv zeta; cbn [negb andb].
  - rewrite F2, N1, app_length. cbn [length]. fold n. cbn [bind]. rewrite T, T1, <- Hl, E by reflexivity. reflexivity.
  - rewrite F2, N2, app_length. cbn [length]. fold n. cbn [bind]. rewrite T, T1, <- Hs, E by reflexivity. reflexivity.
  - rewrite app_length. cbn [length]. fold n. cbn [bind]. rewrite N1, N2, F2, E. reflexivity.
Qed.

(** ** Examples *)
Lemma auto_example : exists st, make_pdf (mk_pdf (map Fin [0; 1; 2; 3]) None None) None = Ok st.
Proof. destruct (pdf_auto [0; 1; 2; 3] (mk_pdf (map Fin [0; 1; 2; 3]) None None)) as [st [e [M _]]]; [discriminate|reflexivity|reflexivity|]. now exists st. Qed.
Lemma edges_example : increasing [0; 1; 3] /\ in_range [0; 1; 3] 2 /\ accepted 0 [(Fin 2, Fin 3); (Fin (-1), Fin 1); (NaN, Fin 1); (Fin 5, NaN)] = [2 * 3].
Proof.
  split; [|split].
  - intros i j H. cbn in H. destruct i as [|[|[|i]]], j as [|[|[|j]]]; cbn; try lra; lia.
  - unfold in_range. cbn. lra.
  - cbn. destruct (Rlt_dec 0 2); [|lra]. destruct (Rlt_dec 0 (-1)); [lra|]. reflexivity.
Qed.
Lemma ks_example : ks_distance [0; 1] [2; 3] = Ok 1 /\ ks_distance [0; 1] [1; 0] = Ok 0.
Proof.
  split.
  - apply ks_separated; [discriminate|discriminate|]. intros a b [<-|[<-|[]]] [<-|[<-|[]]]; lra.
  - apply ks_zero; [discriminate|discriminate|]. apply perm_swap.
Qed.
Lemma percentile_example : exists vs, find_at_percentile [3; 1; 2] [0; 100] = Ok vs /\ nth 0 vs 0 <= nth 1 vs 0.
Proof.
  destruct (percentiles_ok [3; 1; 2] [0; 100]) as [vs [E [_ [M _]]]]; [discriminate|intros p [<-|[<-|[]]]; lra|]. exists vs. split; [exact E|]. apply M; cbn; try lia; lra.
Qed.
