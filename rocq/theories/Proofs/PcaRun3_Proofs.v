(** Two cubes of three channels for the theorems about Model/PcaRun.v. *)
From Coq Require Import String Reals List ZArith Arith Bool Lia Lra.
From Verif Require Import Lib.PyBase Lib.Fl Lib.RSum Lib.Arr Lib.PySlice Spec.Blank Spec.Covariance Spec.EigenImage Spec.Components Spec.PcaRun
  Model.Psds Model.Units Model.BaseStat Model.Pca Model.PcaFit Model.PcaRun Proofs.Pca_Proofs Proofs.Pca2_Proofs Proofs.Cov_Proofs Proofs.PcaRun_Proofs Proofs.PcaRun2_Proofs.
Import ListNotations.
Local Open Scope R_scope.

Definition toy_a : list (list R) := [[1; 1; 1; 1]; [1; 1; -1; -1]; [0; 0; 0; 0]].
Definition toy_b : list (list R) := [[1; 1; -1; -1]; [1; -1; 1; -1]; [0; 0; 0; 0]].
Definition ident (j k : nat) : R := if Nat.eqb j k then 1 else 0.
Definition swapped (j k : nat) : R := ident j (match k with 0 => 1 | 1 => 0 | _ => k end)%nat.
Definition toy_eigh (M : list (list R)) : list R * (nat -> nat -> R) :=
  if Reqb (at2 0 M 0 0) 0 then ([at2 0 M 1 1; 0; 0], swapped) else ([at2 0 M 0 0; at2 0 M 1 1; 0], ident).
Definition toy_stat : stat := mk_stat (Some 1) None.
Definition toy (cube : list (list R)) : pca_env :=
  mk_env 3 1 4 (fun z _ x => Fin (nth x (nth z cube []) 0)) (1 / 4) 1 toy_eigh (Err OtherError)
    (fun _ _ _ a _ => Ok (map (fun _ => (Fin 1, Fin 1)) a)) (fun _ a => Ok (map (fun _ => (Fin 1, Fin 1)) a))
    toy_stat (fun _ => mk_fitted 1 (0, 2) 1 (0, 2)) (fun _ => (mk_fitted 1 (0, 2) 1 (0, 2), [])).

Lemma toy_channels cube : length cube = 3%nat -> channels_of 4 cube -> e_channels (toy cube) = map (map Fin) cube.
Proof.
  intros L C. destruct cube as [|c0 [|c1 [|c2 [|]]]]; try discriminate.
  assert (E : forall c, length c = 4%nat -> c = [nth 0 c 0; nth 1 c 0; nth 2 c 0; nth 3 c 0]).
  { intros c. destruct c as [|? [|? [|? [|? [|]]]]]; try discriminate. reflexivity. }
  pose proof (E c0 (C c0 ltac:(cbn; auto))) as E0. pose proof (E c1 (C c1 ltac:(cbn; auto))) as E1. pose proof (E c2 (C c2 ltac:(cbn; auto))) as E2.
  rewrite E0, E1, E2. reflexivity.
Qed.
Lemma toy_entry cube ms i j : length cube = 3%nat -> channels_of 4 cube -> (i < 3)%nat -> (j < 3)%nat ->
  at2 0 (e_cov (toy cube) ms) i j = covariance ms (nth i cube []) (nth j cube []).
Proof.
  intros L C I J. unfold e_cov. rewrite toy_channels by assumption. change (e_eps (toy cube)) with (1 / 4). change (e_big (toy cube)) with 1.
  apply (cov_value _ _ _ _ 4); rewrite ?L; try assumption. destruct ms; cbn; lia.
Qed.
Lemma a_ok : length toy_a = 3%nat /\ channels_of 4 toy_a.
Proof. split; [reflexivity|]. intros c H. cbn in H. repeat (destruct H as [<-|H]; [reflexivity|]). destruct H. Qed.
Lemma b_ok : length toy_b = 3%nat /\ channels_of 4 toy_b.
Proof. split; [reflexivity|]. intros c H. cbn in H. repeat (destruct H as [<-|H]; [reflexivity|]). destruct H. Qed.
Definition diag_of (f : nat -> R) (i j : nat) : R := if Nat.eqb i j then f i else 0.
Definition f3 (a b c : R) (i : nat) : R := match i with 0 => a | 1 => b | _ => c end%nat.
Ltac three i := destruct i as [|[|[|i]]]; try lia.
Lemma a_cov ms i j : (i < 3)%nat -> (j < 3)%nat -> at2 0 (e_cov (toy toy_a) ms) i j = diag_of (if ms then f3 0 (4 / 3) 0 else f3 1 1 0) i j.
Proof.
  intros I J. destruct a_ok as [A B]. rewrite toy_entry by assumption. destruct ms; three i; three j; unfold covariance, centred, rmean, lsum, toy_a, diag_of, f3; cbn; lra.
Qed.
Lemma b_cov ms i j : (i < 3)%nat -> (j < 3)%nat -> at2 0 (e_cov (toy toy_b) ms) i j = diag_of (if ms then f3 (4 / 3) (4 / 3) 0 else f3 1 1 0) i j.
Proof.
  intros I J. destruct b_ok as [A B]. rewrite toy_entry by assumption. destruct ms; three i; three j; unfold covariance, centred, rmean, lsum, toy_b, diag_of, f3; cbn; lra.
Qed.
Lemma a_eigh ms : e_eigh (toy toy_a) (e_cov (toy toy_a) ms) = if ms then ([4 / 3; 0; 0], swapped) else ([1; 1; 0], ident).
Proof.
  change (e_eigh (toy toy_a)) with toy_eigh. unfold toy_eigh. rewrite !a_cov by lia. destruct ms; unfold diag_of, f3; cbn [Nat.eqb].
  - destruct (Reqb_spec 0 0); [reflexivity|lra].
  - destruct (Reqb_spec 1 0); [lra|reflexivity].
Qed.
Lemma b_eigh ms : e_eigh (toy toy_b) (e_cov (toy toy_b) ms) = if ms then ([4 / 3; 4 / 3; 0], ident) else ([1; 1; 0], ident).
Proof.
  change (e_eigh (toy toy_b)) with toy_eigh. unfold toy_eigh. rewrite !b_cov by lia. destruct ms; unfold diag_of, f3; cbn [Nat.eqb].
  - destruct (Reqb_spec (4 / 3) 0); [lra|reflexivity].
  - destruct (Reqb_spec 1 0); [lra|reflexivity].
Qed.
Lemma ident_on : orthonormal 3 ident.
Proof. intros i j I J. three i; three j; unfold ident, rsum; cbn; lra. Qed.
Lemma swapped_on : orthonormal 3 swapped.
Proof. intros i j I J. three i; three j; unfold swapped, ident, rsum; cbn; lra. Qed.
Lemma three_desc a b c : b <= a -> c <= b -> descending [a; b; c].
Proof. intros A B i j [I J]. cbn in J. three j; three i; cbn; lra. Qed.
Lemma toy_a_ok : eigh_ok (toy toy_a).
Proof.
  split; [cbn; lia|]. intros ms. unfold eigvals_of, eigvecs_of. rewrite a_eigh. destruct ms; cbn [fst snd]; change (e_nz (toy toy_a)) with 3%nat.
  - split; [reflexivity|]. split; [apply three_desc; lra|]. split; [apply swapped_on|]. intros k K i I. unfold rsum. cbn [seq map fold_right]. rewrite !a_cov by lia.
    three k; three i; unfold diag_of, f3, swapped, ident; cbn; lra.
  - split; [reflexivity|]. split; [apply three_desc; lra|]. split; [apply ident_on|]. intros k K i I. unfold rsum. cbn [seq map fold_right]. rewrite !a_cov by lia.
    three k; three i; unfold diag_of, f3, ident; cbn; lra.
Qed.
Lemma toy_b_ok : eigh_ok (toy toy_b).
Proof.
  split; [cbn; lia|]. intros ms. unfold eigvals_of, eigvecs_of. rewrite b_eigh. destruct ms; cbn [fst snd]; change (e_nz (toy toy_b)) with 3%nat.
  - split; [reflexivity|]. split; [apply three_desc; lra|]. split; [apply ident_on|]. intros k K i I. unfold rsum. cbn [seq map fold_right]. rewrite !b_cov by lia.
    three k; three i; unfold diag_of, f3, ident; cbn; lra.
  - split; [reflexivity|]. split; [apply three_desc; lra|]. split; [apply ident_on|]. intros k K i I. unfold rsum. cbn [seq map fold_right]. rewrite !b_cov by lia.
    three k; three i; unfold diag_of, f3, ident; cbn; lra.
Qed.
Lemma toy_each cube : one_each (toy cube).
Proof.
  split.
  - intros m b f a n w H. cbn in H. injection H as <-. apply map_length.
  - intros m a w H. cbn in H. injection H as <-. apply map_length.
Qed.

(** ** The proportion of variance after n_eigs is set *)
Definition decompose (ms : bool) (n : Z) : call := CCompute ms (Count n) None "value".
Lemma decompose_ok e o ms n : eigh_ok e -> (1 <= n <= e_nz e)%nat ->
  exists o', do_call e o (decompose ms (Z.of_nat n)) = (o', None) /\ decomposition e o' ms /\ o_cov o' = Some (e_cov e ms) /\ o_n_eigs o' = Some (Z.of_nat n) /\ o_prop o' = Some (proportion_of e ms n) /\
    same_widths o o' /\ o_fit o' = o_fit o.
Proof.
  intros OK N. cbn [do_call decompose]. destruct (compute_pca e o ms (Count (Z.of_nat n)) None "value") as [p x] eqn:EC. pose proof EC as EC'. apply compute_inv in EC; [|assumption]. destruct EC as (W & F & EC).
  assert (CH : choose_n_eigs (e_nz e) (Count (Z.of_nat n)) None "value" (eigvals_of e ms) = Ok (Z.of_nat n)).
  { rewrite choose_count by apply OK. destruct (Z.eqb_spec (Z.of_nat n) (-1)); [lia|]. destruct (Z.leb_spec 1 (Z.of_nat n)); [|lia]. destruct (Z.leb_spec (Z.of_nat n) (Z.of_nat (e_nz e))); [|lia]. reflexivity. }
  destruct EC as [[C _]|(-> & DE & CO & m & M & NE & P & CM)].
  - exfalso. apply C. unfold compute_pca in EC'. fold (eigvals_of e ms) in *. destruct (e_eigh e (e_cov e ms)) as [l V] eqn:EE. unfold eigvals_of in CH. rewrite EE in CH. cbn [fst] in CH. rewrite CH in EC'.
    destruct (variance_summary _ _ _). now injection EC' as _ <-.
  - assert (m = n) as -> by (rewrite CH in CM; injection CM as CM; lia). exists p. auto 10.
Qed.
Lemma b_prop : proportion_of (toy toy_b) true 1 = Fin (1 / 2) /\ proportion_of (toy toy_b) true 2 = Fin 1.
Proof.
  unfold proportion_of, eigvals_of. rewrite b_eigh. change (e_nz (toy toy_b)) with 3%nat. cbn [compared fst firstn].
  unfold lsum. cbn [fold_right]. unfold fdiv. destruct (Reqb_spec (4 / 3 + (4 / 3 + (0 + 0))) 0); [lra|]. split; f_equal; field.
Qed.
Lemma prop_stale : exists e o, eigh_ok e /\ o = history e new_pca [decompose true 1; CSetN 2] /\ decomposition e o true /\
  o_n_eigs o = Some 2%Z /\ o_prop o = Some (Fin (1 / 2)) /\ proportion_of e true 2 = Fin 1.
Proof.
  exists (toy toy_b). eexists. split; [apply toy_b_ok|]. split; [reflexivity|]. cbn [history]. destruct (decompose_ok (toy toy_b) new_pca true 1 toy_b_ok ltac:(cbn; lia)) as (o & E & D & _ & N & P & _).
  change (Z.of_nat 1) with 1%Z in E. rewrite E. cbn [fst do_call]. unfold set_n, n_eigs_setter. change (2 <=? 0)%Z with false. cbn [fst o_n_eigs o_prop].
  split; [exact D|]. split; [reflexivity|]. rewrite P. destruct b_prop as [-> ->]. auto.
Qed.

(** ** A full run *)
Definition run_toy : run_args := mk_args true false (Count 2) None "value" "contour" "walk-down" (mk_call "odr" None None) (Some 1) true.
Lemma significant_b : significant (1 / 4) [4 / 3; 4 / 3; 0] = [0; 1]%nat.
Proof. unfold significant. cbn [length seq filter nth]. destruct (Rleb_spec (1 / 4) (4 / 3)); [|lra]. destruct (Rleb_spec (1 / 4) 0); [lra|reflexivity]. Qed.
Lemma toy_run : exists o', run (toy toy_b) new_pca run_toy = (o', None).
Proof.
  unfold run. cbn [run_toy a_beam a_mean_sub a_n_eigs a_min_eigval a_cut a_decomp_only a_spatial a_spectral a_brunt a_fit].
  destruct (decompose_ok (toy toy_b) new_pca true 2 toy_b_ok ltac:(cbn; lia)) as (o & E & (D1 & D2 & D3 & _) & _ & N & _). cbn [do_call decompose] in E. change (Z.of_nat 2) with 2%Z in *. rewrite E. cbn [also].
  unfold find_spatial, spatial_of, decomposed. cbn [set_decomp_only o_n_eigs o_eigvals o_eigvecs o_mean_sub bind]. rewrite N, D1, D2, D3.
  cbn [bind]. unfold noise_ACF. unfold eigvals_of, eigvecs_of. rewrite b_eigh. cbn [fst snd]. change (e_nz (toy toy_b)) with 3%nat. change (e_eps (toy toy_b)) with (1 / 4).
  assert (A : exists l, autocorr_images 3 (e_ny (toy toy_b)) (e_nx (toy toy_b)) (e_data (toy toy_b)) true (1 / 4) [4 / 3; 4 / 3; 0] ident 2 = Ok l /\ length l = 2%nat).
  { unfold autocorr_images, eigimages. change (0 <? 2)%Z with true. cbn [bind]. change (Z.to_nat 2) with 2%nat. cbn [seq existsb Nat.leb orb bind]. eexists. split; [reflexivity|reflexivity]. }
  destruct A as (l & -> & L). cbn [bind].
  assert (A : exists l2, autocorr_images 3 (e_ny (toy toy_b)) (e_nx (toy toy_b)) (e_data (toy toy_b)) true (1 / 4) [4 / 3; 4 / 3; 0] ident (-10) = Ok l2).
  { unfold autocorr_images, eigimages. change (0 <? -10)%Z with false. change (-10 <? 0)%Z with true. cbv iota.
    assert (V : valid_eigenvectors (1 / 4) [4 / 3; 4 / 3; 0] = [0; 1]%nat) by apply significant_b. rewrite V. change (slice (Some (-10)%Z) None 1 [0%nat; 1%nat]) with [0; 1]%nat. cbn [bind existsb Nat.leb orb]. eexists. reflexivity. }
  destruct A as (l2 & ->). cbn [bind]. change (e_width2D (toy toy_b)) with (fun (_ : string) (_ : bool) (_ : option R) (a : list (list (list R))) (_ : list (list fl)) => Ok (map (fun _ => (Fin 1, Fin 1)) a)).
  cbv beta. cbn [also]. unfold find_spectral, spectral_of. cbn [set_decomp_only o_n_eigs o_eigvecs]. rewrite ?N, ?D2. change (e_nz (toy toy_b)) with 3%nat. unfold autocorr_spec. change (2 <=? 0)%Z with false. change (Z.of_nat 3 <? 2)%Z with false. change (2 =? 1)%Z with false. change (Z.to_nat 2) with 2%nat. cbv iota. cbn [seq map bind].
  change (e_width1D (toy toy_b)) with (fun (_ : string) (a : list (list R)) => Ok (map (fun _ => (Fin 1, Fin 1)) a)). cbv beta. cbn [map also].
  unfold fit_obj. cbv zeta. cbn [set_decomp_only o_cov o_n_eigs o_total o_prop o_eigvals o_eigvecs o_mean_sub o_spatial o_spectral o_fit o_decomp_only].
  rewrite map_length, L. change (length [(Fin 1, Fin 1); (Fin 1, Fin 1)]) with 2%nat. rewrite Nat.eqb_refl. destruct l as [|? [|? [|]]]; try discriminate. cbn [map rows_of combine fst snd].
  unfold fit_plaw. cbn [c_method c_xlow c_xhigh limit_pixels]. change (String.eqb "odr" "odr") with true. cbn [negb andb].
  eexists. reflexivity.
Qed.

(** ** Distances *)
Lemma root_half : 0 < sqrt (1 / 2). Proof. apply sqrt_lt_R0. lra. Qed.
Lemma toy_distance : pca_distance true 2 (eigvals_of (toy toy_a) true) (eigvals_of (toy toy_b) true) = Ok (Fin (sqrt (1 / 2))) /\
  pca_distance true 2 (eigvals_of (toy toy_a) false) (eigvals_of (toy toy_b) false) = Ok (Fin 0).
Proof.
  unfold eigvals_of. rewrite !a_eigh, !b_eigh. cbn [fst]. unfold pca_distance.
  change (slice (Some 0%Z) (Some 2%Z) 1 [4 / 3; 0; 0]) with [4 / 3; 0]. change (slice (Some 0%Z) (Some 2%Z) 1 [4 / 3; 4 / 3; 0]) with [4 / 3; 4 / 3]. change (slice (Some 0%Z) (Some 2%Z) 1 [1; 1; 0]) with [1; 1].
  cbv zeta. cbn [map length Nat.eqb]. unfold lsum. cbn [fold_right]. unfold fdiv. destruct (Reqb_spec (4 / 3 + (0 + 0)) 0); [lra|]. destruct (Reqb_spec (4 / 3 + (4 / 3 + 0)) 0); [lra|]. destruct (Reqb_spec (1 + (1 + 0)) 0); [lra|].
  split; unfold fsum, fsqr, fsub, fmul, fadd, fneg; cbn; unfold fsqrt.
  - match goal with |- context [Rltb ?a 0] => assert (X : a = 1 / 2) by field; rewrite X end. destruct (Rltb_spec (1 / 2) 0); [lra|reflexivity].
  - match goal with |- context [Rltb ?a 0] => assert (X : a = 0) by field; rewrite X end. destruct (Rltb_spec 0 0); [lra|]. now rewrite sqrt_0.
Qed.
Lemma other_mean_sub : exists e1 e2 o1 o2, eigh_ok e1 /\ eigh_ok e2 /\ o1 = history e1 new_pca [decompose false 2] /\ o2 = history e2 new_pca [decompose false 2] /\
  decomposition e1 o1 false /\ decomposition e2 o2 false /\
  objects_distance e1 e2 o1 o2 2 true = Ok (Fin 0) /\ cubes_distance e1 e2 2 true = Ok (Fin (sqrt (1 / 2))) /\ 0 < sqrt (1 / 2).
Proof.
  exists (toy toy_a), (toy toy_b). destruct (decompose_ok (toy toy_a) new_pca false 2 toy_a_ok ltac:(cbn; lia)) as (o1 & E1 & D1 & _). destruct (decompose_ok (toy toy_b) new_pca false 2 toy_b_ok ltac:(cbn; lia)) as (o2 & E2 & D2 & _).
  change (Z.of_nat 2) with 2%Z in *. exists o1, o2. split; [apply toy_a_ok|]. split; [apply toy_b_ok|]. cbn [history]. rewrite E1, E2. split; [reflexivity|]. split; [reflexivity|]. split; [exact D1|]. split; [exact D2|].
  pose proof (objects_value (toy toy_a) (toy toy_b) o1 o2 false false 2 true toy_a_ok toy_b_ok D1 D2 ltac:(cbn; lia) ltac:(cbn; lia)) as V1.
  pose proof (cubes_value (toy toy_a) (toy toy_b) 2 true toy_a_ok toy_b_ok ltac:(cbn; lia) ltac:(cbn; lia)) as V2. change (Z.of_nat 2) with 2%Z in *. destruct toy_distance as [T1 T2].
  split.
  - rewrite V1. clear -T2. revert T2. unfold eigvals_of. rewrite a_eigh, b_eigh. cbn [fst]. auto.
  - split; [now rewrite V2|apply root_half].
Qed.
