(** Vocabulary for a PCA object through a history of calls. *)
From Coq Require Import String Reals List ZArith Arith Bool.
From Verif Require Import Lib.PyBase Lib.Fl Lib.RSum Lib.Arr Spec.Covariance Spec.EigenImage Spec.Components Model.Psds Model.Pca Model.PcaFit Model.PcaRun.
Import ListNotations.
Local Open Scope R_scope.

(** The eigenvalues (one per channel, descending) and eigenvectors found for the covariance matrix. *)
Definition eigvals_of (e : pca_env) (mean_sub : bool) : list R := fst (e_eigh e (e_cov e mean_sub)).
Definition eigvecs_of (e : pca_env) (mean_sub : bool) : nat -> nat -> R := snd (e_eigh e (e_cov e mean_sub)).
Definition eigh_ok (e : pca_env) : Prop := (1 <= e_nz e)%nat /\ forall ms, length (eigvals_of e ms) = e_nz e /\ descending (eigvals_of e ms) /\
  orthonormal (e_nz e) (eigvecs_of e ms) /\
  forall k, (k < e_nz e)%nat -> eigenvector (e_nz e) (at2 0 (e_cov e ms)) (fun j => eigvecs_of e ms j k) (nth k (eigvals_of e ms) 0).

(** The width estimates give one width for each image or spectrum. *)
Definition one_each (e : pca_env) : Prop :=
  (forall m b f a n w, e_width2D e m b f a n = Ok w -> length w = length a) /\ (forall m a w, e_width1D e m a = Ok w -> length w = length a).

(** Eigenvalues, eigenvectors, mean subtraction and total variance are those of one decomposition. *)
Definition decomposition (e : pca_env) (o : pca_obj) (ms : bool) : Prop :=
  o_eigvals o = Some (eigvals_of e ms) /\ o_eigvecs o = Some (eigvecs_of e ms) /\ o_mean_sub o = Some ms /\
  o_total o = Some (Fin (lsum (compared ms (e_nz e) (eigvals_of e ms)))).
Definition undecomposed (o : pca_obj) : Prop :=
  o_eigvals o = None /\ o_eigvecs o = None /\ o_mean_sub o = None /\ o_total o = None /\ o_prop o = None.
(** The proportion of variance of [n] components. *)
Definition proportion_of (e : pca_env) (ms : bool) (n : nat) : fl :=
  fdiv (Fin (lsum (compared ms n (eigvals_of e ms)))) (Fin (lsum (compared ms (e_nz e) (eigvals_of e ms)))).

(** The same results of the decomposition, of the widths, of the fit. *)
Definition same_decomposition (o o' : pca_obj) : Prop :=
  o_cov o' = o_cov o /\ o_n_eigs o' = o_n_eigs o /\ o_total o' = o_total o /\ o_prop o' = o_prop o /\
  o_eigvals o' = o_eigvals o /\ o_eigvecs o' = o_eigvecs o /\ o_mean_sub o' = o_mean_sub o.
Definition same_widths (o o' : pca_obj) : Prop := o_spatial o' = o_spatial o /\ o_spectral o' = o_spectral o.
Definition same_fit (o o' : pca_obj) : Prop :=
  p_fit (o_fit o') = p_fit (o_fit o) /\ p_method (o_fit o') = p_method (o_fit o) /\ p_xlow (o_fit o') = p_xlow (o_fit o) /\ p_xhigh (o_fit o') = p_xhigh (o_fit o) /\
  forall c_s g, sonic_length (o_fit o') c_s g = sonic_length (o_fit o) c_s g.

(** The object made from the same cube with another beam in its header. *)
Definition with_beam (e : pca_env) (b : result R) : pca_env :=
  mk_env (e_nz e) (e_ny e) (e_nx e) (e_data e) (e_eps e) (e_big e) (e_eigh e) b (e_width2D e) (e_width1D e) (e_stat e) (e_odr e) (e_bayes e).
