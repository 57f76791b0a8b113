(** More about Model/CramerDistance.v: the order of the channels of cubes with different
    numbers of pixels *)
From Coq Require Import Reals List Arith Bool ZArith Lia Lra Permutation.
From Verif Require Import Lib.PyBase Lib.Fl Lib.RSum Spec.Blank Spec.CramerCubes Model.Psds Model.Formats Model.Cramer Model.CramerDistance
  Proofs.Fl_Proofs Proofs.Cramer_Proofs Proofs.CramerDistance_Proofs.
Import ListNotations.
Local Open Scope R_scope.

Lemma round_near x : x - 1 / 2 <= IZR (np_round x) <= x + 1 / 2.
Proof.
  unfold np_round. cbv zeta. destruct (base_Int_part x) as [A B].
  destruct (Rltb_spec (x - IZR (Int_part x)) (1 / 2)) as [F|F]; [lra|].
  destruct (Rltb_spec (1 / 2) (x - IZR (Int_part x))) as [G|G]; [rewrite plus_IZR; lra|].
  destruct (Z.even (Int_part x)); [|rewrite plus_IZR]; lra.
Qed.
Lemma round_mono x y : x <= y -> (np_round x <= np_round y)%Z.
Proof.
  intro L. destruct (round_near x) as [A1 A2], (round_near y) as [B1 B2]. destruct (Z_le_gt_dec (np_round x) (np_round y)) as [H|H]; [exact H|exfalso].
  assert (G : (np_round y + 1 <= np_round x)%Z) by lia. apply IZR_le in G. rewrite plus_IZR in G. assert (x = y) as -> by lra. lia.
Qed.

Section Distance.
Variable norm2 : list (list fl) -> result fl.
Variable random : Type.
Variable seeded : Z -> random.
Variable choice : random -> list fl -> nat -> list fl * random.
(** The channels of the cube with fewer pixels are never drawn from *)
Lemma dist_reordered_smaller c1 c1' c2 nm st r : (forall M M', Permutation M M' -> norm2 M' = norm2 M) ->
  proper_cube c1 -> reordered c1 c1' -> (ci_npix c1 <= ci_npix c2)%nat ->
  distance_metric norm2 random seeded choice c1 c2 nm st = Ok r -> distance_metric norm2 random seeded choice c1' c2 nm st = Ok r.
Proof.
  intros Inv B1 R1 N H. unfold distance_metric in *. apply bind_ok' in H as [mm [F H]]. unfold format_data in *.
  apply bind_ok' in F as [m1 [E1 F]]. apply bind_ok' in F as [m2 [E2 F]].
  destruct (fmt_reordered norm2 _ _ _ _ _ Inv B1 R1 E1) as [m1' [E1' [P1 Q1]]]. rewrite E1', E2. cbn [bind]. rewrite Q1.
  assert (C : (dm_cols m1 <= dm_cols m2)%nat).
  { rewrite (fmt_cols norm2 _ _ _ _ _ _ E1), (fmt_cols norm2 _ _ _ _ _ _ E2). assert (G := round_mono (2 / 10 * INR (ci_npix c1)) (2 / 10 * INR (ci_npix c2)) ltac:(apply le_INR in N; lra)). lia. }
  destruct (Nat.eqb_spec (dm_cols m1) (dm_cols m2)) as [Q|Q].
  - assert (mm = (m1, m2, st)) as -> by congruence. cbn [bind fst snd] in *. rewrite (statistic_rows _ _ _ _ P1 (Permutation_refl _) Q1 eq_refl). exact H.
  - destruct (Nat.ltb_spec (dm_cols m1) (dm_cols m2)) as [L|L]; [|lia].
    destruct (sample_rows random choice (seeded 13024%Z) (dm_rows m2) (dm_cols m1)) as [rows st'].
    assert (mm = (m1, mk_dm rows (dm_cols m1), st')) as -> by congruence. cbn [bind fst snd] in *. rewrite (statistic_rows _ _ _ _ P1 (Permutation_refl _) Q1 eq_refl). exact H.
Qed.
End Distance.

(** ** Draws that alternate between the first and the last entries of a row *)
Definition alt_choice (s : nat) (row : list fl) (n : nat) : list fl * nat := (if Nat.even s then firstn n row else skipn (length row - n) row, S s).
Lemma alt_draws : forall s row n, (n <= length row)%nat -> drawn row n (fst (alt_choice s row n)).
Proof.
  intros s row n H. unfold alt_choice. cbn [fst]. destruct (Nat.even s).
  - split; [rewrite firstn_length; lia|]. exists (skipn n row). now rewrite firstn_skipn.
  - split; [rewrite skipn_length; lia|]. exists (firstn (length row - n) row). rewrite Permutation_app_comm. now rewrite firstn_skipn.
Qed.
Definition chan (x : R) : list fl := [Fin 4; Fin x; Fin 0; Fin 0; Fin 0; Fin 0; Fin 0; Fin 0; Fin 0; Fin 0].
Definition five : cube_in := mk_cube 5 [[Fin 4; Fin 4; Fin 4; Fin 4; Fin 4]] None.
Definition ten : cube_in := mk_cube 10 [chan 2; chan 1] None.
Definition ten' : cube_in := mk_cube 10 [chan 1; chan 2] None.
Lemma round5 : Z.to_nat (np_round (2 / 10 * INR 5)) = 1%nat.
Proof. replace (2 / 10 * INR 5) with (IZR 1) by (cbn; lra). now rewrite round_int. Qed.
Lemma max_ten x y : 0 <= x <= 4 -> 0 <= y <= 4 -> nanmax (concat [chan x; chan y]) = Fin 4.
Proof.
  intros X Y. destruct (nanmax_spec (concat [chan x; chan y])) as [m [-> [I M]]].
  - cbn. repeat constructor.
  - discriminate.
  - f_equal. apply Rle_antisym; [|apply M; left; reflexivity]. cbn in I. repeat (destruct I as [<-|I]; [lra|]). destruct I.
Qed.
Lemma row_ten x : 0 < x <= 4 -> intensity_row 2 None (Fin 4) (chan x) = [Fin 1; Fin (x / 4)].
Proof.
  intro X. unfold intensity_row. cbn [chan fins flat_map app sort_desc fold_right insert_desc]. cbv zeta.
  assert (Z : Rleb 0 0 = true) by (destruct (Rleb_spec 0 0); [reflexivity|lra]). assert (A : Rleb 0 x = true) by (destruct (Rleb_spec 0 x); [reflexivity|lra]). assert (B : Rleb x 4 = true) by (destruct (Rleb_spec x 4); [reflexivity|lra]).
  repeat (rewrite Z; cbn [insert_desc]). rewrite A. cbn [insert_desc]. rewrite B. cbn [length Nat.ltb Nat.leb firstn map]. unfold fdiv. destruct (Reqb_spec 4 0); [lra|]. repeat f_equal; lra.
Qed.
Lemma fmt_ten norm2 x y : 0 < x <= 4 -> 0 < y <= 4 -> format_one norm2 10 [chan x; chan y] None (2 / 10) false = Ok (mk_dm [[Fin 1; Fin (x / 4)]; [Fin 1; Fin (y / 4)]] 2).
Proof.
  intros X Y. unfold format_one. rewrite ex_round10. unfold intensity_data. rewrite max_ten by lra. cbv zeta. cbn [feqb]. destruct (Reqb_spec 4 0); [lra|].
  cbn [map]. now rewrite !row_ten by assumption.
Qed.
Lemma fmt_five norm2 : format_one norm2 5 (ci_chans five) None (2 / 10) false = Ok (mk_dm [[Fin 1]] 1).
Proof.
  unfold format_one. rewrite round5. unfold intensity_data, five. cbn [ci_chans]. assert (nanmax (concat [[Fin 4; Fin 4; Fin 4; Fin 4; Fin 4]]) = Fin 4) as ->.
  { destruct (nanmax_spec (concat [[Fin 4; Fin 4; Fin 4; Fin 4; Fin 4]])) as [m [-> [I M]]].
    - cbn. repeat constructor.
    - discriminate.
    - f_equal. cbn in I. repeat (destruct I as [<-|I]; [lra|]). destruct I. }
  cbv zeta. cbn [feqb]. destruct (Reqb_spec 4 0); [lra|]. cbn [map]. unfold intensity_row. cbn [fins flat_map app sort_desc fold_right insert_desc]. cbv zeta.
  assert (Z : Rleb 4 4 = true) by (destruct (Rleb_spec 4 4); [reflexivity|lra]). repeat (rewrite Z; cbn [insert_desc]). cbn [length Nat.ltb Nat.leb firstn map]. unfold fdiv. destruct (Reqb_spec 4 0); [lra|]. repeat f_equal; lra.
Qed.
Lemma dist_ten norm2 x y : 0 < x <= 4 -> 0 < y <= 4 ->
  distance_metric norm2 nat (fun _ => 0%nat) alt_choice five (mk_cube 10 [chan x; chan y] None) false 0%nat = Ok (1 / 6 * sqrt (sqrt ((1 - y / 4) * (1 - y / 4))), 2%nat).
Proof.
  intros X Y. unfold distance_metric, format_data. change (ci_npix five) with 5%nat. change (ci_noise five) with (@None R). rewrite fmt_five. cbn [ci_npix ci_chans ci_noise bind]. rewrite fmt_ten by assumption. cbn [bind dm_cols dm_rows].
  cbn [Nat.eqb Nat.ltb Nat.leb sample_rows alt_choice Nat.even firstn length Nat.sub skipn]. cbn [bind fst snd]. unfold statistic, all_finite. cbn [dm_rows dm_cols forallb is_fin andb length].
  unfold cramer_statistic. cbn [Nat.eqb orb negb Nat.leb]. cbn [bind]. do 2 f_equal. unfold cramer_loops. cbv zeta. unfold rsum, root_dist. cbn [Nat.ltb Nat.leb]. unfold entry. cbn [dm_rows nth rsum INR].
  assert (Z : forall a, sqrt (sqrt (0 + (a - a) * (a - a))) = 0) by (intro a; replace (0 + (a - a) * (a - a)) with 0 by ring; now rewrite !sqrt_0).
  assert (W : forall a b, sqrt (sqrt (0 + (a - b) * (a - b))) = sqrt (sqrt ((b - a) * (b - a)))) by (intros a b; do 2 f_equal; ring).
  rewrite !Z, !W. replace ((y / 4 - 1) * (y / 4 - 1)) with ((1 - y / 4) * (1 - y / 4)) by ring. field.
Qed.
Lemma channel_order_matters norm2 : proper_cube five /\ proper_cube ten /\ reordered ten ten' /\ bright_cube five 4 /\ bright_cube ten 4 /\ exists d d' st st',
  distance_metric norm2 nat (fun _ => 0%nat) alt_choice five ten false 0%nat = Ok (d, st) /\
  distance_metric norm2 nat (fun _ => 0%nat) alt_choice five ten' false 0%nat = Ok (d', st') /\ d' < d.
Proof.
  split; [cbn; repeat constructor|]. split; [cbn; repeat constructor|]. split; [split; [reflexivity|split; [apply perm_swap|reflexivity]]|].
  split; [|split].
  - split; [cbn; lia|]. split; [cbn; repeat constructor|]. split; [|split; [lra|exact I]]. split; [left; reflexivity|]. cbn. intros y H. repeat (destruct H as [<-|H]; [lra|]); destruct H.
  - split; [cbn; lia|]. split; [cbn; repeat constructor|]. split; [|split; [lra|exact I]]. split; [left; reflexivity|]. cbn. intros y H. repeat (destruct H as [<-|H]; [lra|]); destruct H.
  - unfold ten, ten'. do 4 eexists. split; [apply dist_ten; lra|]. split; [apply dist_ten; lra|]. apply Rmult_lt_compat_l; [lra|]. apply sqrt_lt_1_alt. split; [apply sqrt_pos|]. apply sqrt_lt_1_alt. lra.
Qed.
