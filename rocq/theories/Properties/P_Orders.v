(** Theorems about the order of the channels and the arrangement of the spectra (C303-C304), and about the
    spectral axis in VCS (C307) *)
From Coq Require Import String Reals List Arith Lia Lra Permutation.
From Verif Require Import Lib.PyBase Lib.Arr Lib.Fl Lib.RSum Model.Psds Model.Scf Model.Pca Spec.Orders Spec.Covariance Model.VcsRun Proofs.Orders_Proofs Proofs.TurnedVcs_Proofs.
Import ListNotations.
Local Open Scope R_scope.

(** ** C303 *)
(** VCA: the two-dimensional power spectrum *)
Theorem C303_vca : forall nz ny nx p cube, (1 <= nz)%nat -> (1 <= ny)%nat -> (1 <= nx)%nat -> reorders p nz ->
  vca_ps2D nz ny nx (channels p cube) = vca_ps2D nz ny nx cube.
Proof. exact vca_channels. Qed.
Print Assumptions C303_vca.
(** SCF: the surface, whatever the lags, the boundary and the blanks *)
Theorem C303_scf : forall nz ny nx p cube lags boundary, reorders p nz ->
  compute_surface nz ny nx (channels p cube) lags boundary = compute_surface nz ny nx cube lags boundary.
Proof. exact surface_channels. Qed.
Print Assumptions C303_scf.
(** PCA without blanks: the covariances, and with them the eigenvalues and eigenvectors, are those
    of the channels wherever they stand *)
Theorem C303_pca_partial : forall eps big ms n p cube, channels_of n cube -> enough ms n -> reorders p (length cube) ->
  (forall i j, (i < length cube)%nat -> (j < length cube)%nat ->
    at2 0 (var_cov_cube eps big (map (map Fin) (in_order p [] cube)) ms) i j = at2 0 (var_cov_cube eps big (map (map Fin) cube) ms) (p i) (p j)) /\
  same_up_to p (length cube) (at2 0 (var_cov_cube eps big (map (map Fin) cube) ms)) (at2 0 (var_cov_cube eps big (map (map Fin) (in_order p [] cube)) ms)).
Proof. exact cov_channels. Qed.
Print Assumptions C303_pca_partial.
(** With blanks the covariance of two channels depends on which of them comes first: the blanks of
    the later one count as values, those of the earlier one do not *)
Theorem C303_blanks_refuted : forall eps big, 0 < eps < 1 -> exists cube p,
  Forall (fun c => length c = 2%nat) cube /\ reorders p (length cube) /\
  at2 0 (var_cov_cube eps big (in_order p [] cube) false) 0 1 <> at2 0 (var_cov_cube eps big cube false) (p 0%nat) (p 1%nat).
Proof. intros eps big E. destruct (cov_channels_refuted eps big E) as [cube H]. exists cube, swap01. exact H. Qed.
Print Assumptions C303_blanks_refuted.
Definition turn (i : nat) : nat := match i with 0%nat => 2%nat | 1%nat => 0%nat | 2%nat => 1%nat | _ => i end.
Example C303_case : reorders turn 3 /\ channels_of 2 [[1; 2]; [3; 5]; [0; 4]] /\ enough true 2 /\ in_order turn [] [[1; 2]; [3; 5]; [0; 4]] = [[0; 4]; [1; 2]; [3; 5]].
Proof.
  split; [unfold reorders; cbn; apply (perm_trans (l' := [0; 2; 1]%nat)); [apply perm_swap|apply perm_skip, perm_swap]|].
  split; [|split; [cbn; lia|reflexivity]]. intros c [<-|[<-|[<-|[]]]]; reflexivity.
Qed.

(** ** C304 *)
(** VCS: the one-dimensional power spectrum, blanks included *)
Theorem C304_vcs : forall nz ny nx q cube, (1 <= nz)%nat -> (1 <= ny)%nat -> (1 <= nx)%nat -> rearranges q ny nx ->
  vcs_ps1D nz ny nx (spectra q cube) = vcs_ps1D nz ny nx cube.
Proof. exact vcs_spectra. Qed.
Print Assumptions C304_vcs.
(** PCA: the covariance matrix, blanks included (a channel is the list of its pixels) *)
Theorem C304_pca : forall eps big ms q n cube, Forall (fun c => length c = n) cube -> reorders q n ->
  var_cov_cube eps big (map (in_order q NaN) cube) ms = var_cov_cube eps big cube ms.
Proof. exact cov_pixels. Qed.
Print Assumptions C304_pca.
Example C304_case : rearranges (fun p => (snd p, fst p)) 2 2 /\ spectra (fun p => (snd p, fst p)) (fun z y x => INR (100 * z + 10 * y + x)) 1 0 1 = INR 110.
Proof. split; [unfold rearranges; cbn; apply perm_skip, perm_swap|reflexivity]. Qed.

(** ** C307 *)
(** The spectral axis reversed, or begun at another channel (as in a periodic simulation) *)
Theorem C307_reversed : forall nz ny nx cube, (1 <= nz)%nat -> (1 <= ny)%nat -> (1 <= nx)%nat ->
  vcs_ps1D nz ny nx (channels (fun z => (nz - 1 - z)%nat) cube) = vcs_ps1D nz ny nx cube.
Proof. exact vcs_reversed. Qed.
Print Assumptions C307_reversed.
Theorem C307_rolled : forall nz ny nx s cube, (1 <= nz)%nat -> (1 <= ny)%nat -> (1 <= nx)%nat ->
  vcs_ps1D nz ny nx (channels (fun z => ((z + s) mod nz)%nat) cube) = vcs_ps1D nz ny nx cube.
Proof. exact vcs_rolled. Qed.
Print Assumptions C307_rolled.
(** So whatever is done with the object, it holds the same spectrum, limits and fit *)
Theorem C307_history : forall nz ny nx s cube to_freq knots ols boot o calls, (1 <= nz)%nat -> (1 <= ny)%nat -> (1 <= nx)%nat ->
  let seen cube := history nz ny nx cube to_freq knots ols boot o calls in
  seen (channels (fun z => (nz - 1 - z)%nat) cube) = seen cube /\ seen (channels (fun z => ((z + s) mod nz)%nat) cube) = seen cube.
Proof. exact vcs_histories. Qed.
Print Assumptions C307_history.
(** Another order of the channels can change it *)
Theorem C307_order : exists p cube, reorders p 4 /\ vcs_ps1D 4 1 1 (channels p cube) <> vcs_ps1D 4 1 1 cube.
Proof. exact vcs_order. Qed.
Print Assumptions C307_order.
Example C307_case : channels (fun z => (3 - 1 - z)%nat) (fun z y x => INR z) 0 5 5 = INR 2 /\ channels (fun z => ((z + 1) mod 3)%nat) (fun z y x => INR z) 2 5 5 = INR 0.
Proof. split; reflexivity. Qed.
