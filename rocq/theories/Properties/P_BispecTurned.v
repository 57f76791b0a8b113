(** C312: the bispectrum of an image turned by half.  [angles k1 k2] are the pairs of angles drawn for a cell (by the seed), [ms]
    is mean_subtract, [img] an image with [None] for blanks. *)
From Coq Require Import Reals List ZArith Arith Bool Lia Lra.
From Coquelicot Require Import Complex.
From Verif Require Import Lib.PyBase Lib.RSum Lib.Fl Spec.Waves Model.Bispec Proofs.Bispec_Proofs Proofs.Bispec2_Proofs Proofs.Bispec5_Proofs.
Import ListNotations.
Local Open Scope R_scope.

(** Turned about its first pixel, the edges joined: the bispectrum becomes its complex conjugate, the bicoherence and the amplitude
    stay, in every cell and whatever was drawn *)
Theorem C312_about_first : forall ny nx img ms angles r r' k1 k2, fits ny nx -> (forall k1 k2, (k1 < ny / 2)%nat -> (k2 < nx / 2)%nat -> angles k1 k2 <> []) ->
  (k1 < ny / 2)%nat -> (k2 < nx / 2)%nat ->
  compute_bispectrum ny nx img ms angles = Ok r -> compute_bispectrum ny nx (about_first ny nx img) ms angles = Ok r' ->
  s_bispectrum r' k1 k2 = Cconj (s_bispectrum r k1 k2) /\ s_bicoherence r' k1 k2 = s_bicoherence r k1 k2 /\ s_logamp r' k1 k2 = s_logamp r k1 k2.
Proof. exact turned_first. Qed.
Print Assumptions C312_about_first.
(** Turned about its centre, that is not so *)
Theorem C312_half_turn_refuted : forall n, (4 <= n)%nat -> exists img angles r r', (forall k1 k2, angles k1 k2 <> []) /\
  compute_bispectrum n n img false angles = Ok r /\ compute_bispectrum n n (half_turned n n img) false angles = Ok r' /\
  s_bicoherence r 1 1 = Fin 1 /\ exists v, s_bicoherence r' 1 1 = Fin v /\ v < 1.
Proof. intros n N. exists point. exact (turned_breaks n N). Qed.
Print Assumptions C312_half_turn_refuted.
(** but in the cells in which every sampled third wave vector is the sum of the other two *)
Theorem C312_half_turn_partial : forall ny nx img ms angles r r' k1 k2, fits ny nx -> (forall k1 k2, (k1 < ny / 2)%nat -> (k2 < nx / 2)%nat -> angles k1 k2 <> []) ->
  (k1 < ny / 2)%nat -> (k2 < nx / 2)%nat ->
  (forall phi w1 w2 w3, In phi (angles k1 k2) -> draws k1 k2 phi w1 w2 w3 -> w3 = wave_sum w1 w2) ->
  compute_bispectrum ny nx img ms angles = Ok r -> compute_bispectrum ny nx (half_turned ny nx img) ms angles = Ok r' ->
  s_bispectrum r' k1 k2 = Cconj (s_bispectrum r k1 k2) /\ s_bicoherence r' k1 k2 = s_bicoherence r k1 k2 /\ s_logamp r' k1 k2 = s_logamp r k1 k2.
Proof. exact turned_closed. Qed.
Print Assumptions C312_half_turn_partial.
Example C312_case : fits 5 5 /\ (forall w1 w2 w3, draws 1 1 (0, 0) w1 w2 w3 -> w3 = wave_sum w1 w2) /\
  half_turned 2 3 (fun i j => Some (INR (3 * i + j))) 0 1 = Some (INR 4) /\ about_first 2 3 (fun i j => Some (INR (3 * i + j))) 0 1 = Some (INR 2).
Proof.
  split; [apply fits_square|]. split; [|split; reflexivity].
  intros w1 w2 w3 D. destruct (draws_unique _ _ _ _ _ _ D) as [-> [-> ->]]. destruct skewed_waves as [_ [_ [_ [-> [-> ->]]]]]. reflexivity.
Qed.
