(** A bispectrum that is returned has sampled valid indices only, so its values are those of
    C60 for any shape *)
From Coq Require Import Reals List ZArith Arith Bool Lia Lra.
From Coquelicot Require Import Complex.
From Verif Require Import Lib.PyBase Lib.DFT Lib.RSum Lib.Fl Spec.Waves Model.Bispec Proofs.Bispec_Proofs.
Import ListNotations.
Local Open Scope R_scope.

Lemma each_in {A B} (f : A -> result B) l bs a : each f l = Ok bs -> In a l -> exists b, f a = Ok b.
Proof.
  revert bs. induction l as [|x l IH]; intros bs H I; [contradiction|]. cbn [each] in H. destruct (f x) as [b|] eqn:E; [|discriminate]. cbn [bind] in H.
  destruct (each f l) as [bs'|] eqn:E'; [|discriminate]. destruct I as [->|I]; [exists b; exact E|exact (IH bs' eq_refl I)].
Qed.
Lemma np_index_inside n z i : np_index n z = Ok i -> inside n z.
Proof.
  unfold np_index, inside. destruct ((0 <=? z) && (z <? Z.of_nat n))%Z eqn:A; [apply andb_true_iff in A; lia|]. destruct ((- Z.of_nat n <=? z) && (z <? 0))%Z eqn:B; [apply andb_true_iff in B; lia|discriminate].
Qed.
Lemma at_wave_inside ny nx k p : at_wave ny nx k = Ok p -> inside ny (fst k) /\ inside nx (snd k).
Proof.
  unfold at_wave. destruct (np_index ny (fst k)) as [i|] eqn:A; [|discriminate]. cbn [bind]. destruct (np_index nx (snd k)) as [j|] eqn:B; [|discriminate]. intros _. split; eapply np_index_inside; eassumption.
Qed.
Lemma cell_inside ny nx fft k1 k2 l r : cell ny nx fft k1 k2 l = Ok r -> l <> [] /\ forall phi, In phi l -> waves_inside ny nx k1 k2 phi.
Proof.
  unfold cell. destruct (Nat.eqb_spec (length l) 0) as [E|E]; [discriminate|]. intro H. split; [intros ->; apply E; reflexivity|].
  destruct (each _ (map (wave1 k1 k2) l)) as [i1|] eqn:E1; [|discriminate]. cbn [bind] in H. destruct (each _ (map (wave2 k1 k2) l)) as [i2|] eqn:E2; [|discriminate]. cbn [bind] in H. destruct (each _ (map (wave3 k1 k2) l)) as [i3|] eqn:E3; [|discriminate].
  intros phi I w [<-|[<-|[<-|[]]]].
  - destruct (each_in _ _ _ (wave1 k1 k2 phi) E1 (in_map _ _ _ I)) as [p P]. exact (at_wave_inside _ _ _ _ P).
  - destruct (each_in _ _ _ (wave2 k1 k2 phi) E2 (in_map _ _ _ I)) as [p P]. exact (at_wave_inside _ _ _ _ P).
  - destruct (each_in _ _ _ (wave3 k1 k2 phi) E3 (in_map _ _ _ I)) as [p P]. exact (at_wave_inside _ _ _ _ P).
Qed.
Theorem returned_value ny nx img ms angles r : compute_bispectrum ny nx img ms angles = Ok r ->
  forall k1 k2 w1 w2 w3 data, (k1 < ny / 2)%nat -> (k2 < nx / 2)%nat ->
    (forall phi, In phi (angles k1 k2) -> draws k1 k2 phi (w1 phi) (w2 phi) (w3 phi)) ->
    (forall i j, data i j = if ms then pix_data img i j - rsum ny (fun i => rsum nx (pix_data img i)) / INR (ny * nx) else pix_data img i j) ->
    let samps := map (fun phi => triple (mode ny nx data) (w1 phi) (w2 phi) (w3 phi)) (angles k1 k2) in
    s_bispectrum r k1 k2 = csum_list samps /\
    ((forall c, In c samps -> c = RtoC 0) -> s_bicoherence r k1 k2 = NaN) /\
    ((exists c, In c samps /\ c <> RtoC 0) -> exists v, s_bicoherence r k1 k2 = Fin v /\ 0 <= v <= 1 /\ v * lsum (map Cmod samps) = Cmod (csum_list samps)).
Proof.
  intro H. assert (C : forall k1 k2, (k1 < ny / 2)%nat -> (k2 < nx / 2)%nat -> angles k1 k2 <> [] /\ forall phi, In phi (angles k1 k2) -> waves_inside ny nx k1 k2 phi).
  { intros k1 k2 K1 K2. unfold compute_bispectrum in H. cbv zeta in H. fold (grid ny nx) in H. destruct (each _ (grid ny nx)) as [cells|] eqn:E; [|discriminate].
    destruct (each_in _ _ _ (k1, k2) E) as [b B]; [apply in_grid; split; assumption|]. cbn [fst snd] in B. exact (cell_inside _ _ _ _ _ _ _ B). }
  destruct (compute_value ny nx img ms angles) as [r' [E [_ V]]]; [intros k1 k2 phi K1 K2 I; exact (proj2 (C k1 k2 K1 K2) phi I)|intros k1 k2 K1 K2; exact (proj1 (C k1 k2 K1 K2))|].
  rewrite E in H. injection H as <-. intros k1 k2 w1 w2 w3 data K1 K2 D U samps. destruct (V k1 k2 K1 K2) as [V1 [V2 _]].
  assert (S : samps = samples ny nx img ms angles k1 k2).
  { unfold samps, samples. apply map_ext_in. intros phi I. destruct (draws_unique _ _ _ _ _ _ (D phi I)) as [-> [-> ->]].
    assert (M : forall k, mode ny nx data k = mode ny nx (used_data ny nx img ms) k).
    { intro k. unfold mode. apply csum_ext. intros i _. apply csum_ext. intros j _. rewrite U. reflexivity. }
    unfold triple. now rewrite !M. }
  rewrite S. split; [exact V1 |]. rewrite V2. apply ratio_value.
Qed.
