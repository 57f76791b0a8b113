(** Model of turbustat/statistics/pca/pca.py: a PCA object through a history of calls, each of
    which may raise and leaves the attributes it had set before. *)
From Coq Require Import String Reals List ZArith Arith Bool.
From Verif Require Import Lib.PyBase Lib.Fl Lib.RSum Lib.Arr Model.Units Model.BaseStat Model.Pca Model.PcaFit.
Import ListNotations.
Local Open Scope R_scope.

(** What a PCA object is made from, and the steps that are not modelled here: the cube, the
    limits of its dtype, np.linalg.eigh with the sorting of pca.py:127-130, the beam in the
    header, the width estimates (Pca.v, Ellipse.v; the beam given or not) and the two fits
    (PcaFit.v). *)
Record pca_env := mk_env {
  e_nz : nat; e_ny : nat; e_nx : nat; e_data : nat -> nat -> nat -> fl; e_eps : R; e_big : R;
  e_eigh : list (list R) -> list R * (nat -> nat -> R);
  e_beam : result R;
  e_width2D : string -> bool -> option R -> list (list (list R)) -> list (list fl) -> result (list (fl * fl));
  e_width1D : string -> list (list R) -> result (list (fl * fl));
  e_stat : stat; e_odr : list width_row -> fitted; e_bayes : list width_row -> fitted * list (R * R) }.

(** Attributes; None: not set.  [o_fit] are those of the fit (PcaFit.v). *)
Record pca_obj := mk_pobj {
  o_cov : option (list (list R)); o_n_eigs : option Z; o_total : option fl; o_prop : option fl;
  o_eigvals : option (list R); o_eigvecs : option (nat -> nat -> R); o_mean_sub : option bool;
  o_spatial : option (list (fl * fl)); o_spectral : option (list (fl * fl)); o_fit : pca_state; o_decomp_only : option bool }.
Definition new_pca : pca_obj := mk_pobj None None None None None None None None None unfit None.

Definition outcome := (pca_obj * option exn)%type.
Definition also (r : outcome) (k : pca_obj -> outcome) : outcome := match r with (o, None) => k o | _ => r end.

(** The cube as its list of flattened channels *)
Definition e_channels (e : pca_env) : list (list fl) := map (fun z => concat (tab2 (e_ny e) (e_nx e) (e_data e z))) (seq 0 (e_nz e)).
Definition e_cov (e : pca_env) (mean_sub : bool) : list (list R) := var_cov_cube (e_eps e) (e_big e) (e_channels e) mean_sub.

(** pca.py:73-78, the setter of n_eigs *)
Definition set_n (o : pca_obj) (n : Z) : outcome :=
  match n_eigs_setter n with
  | Err x => (o, Some x)
  | Ok n => (mk_pobj (o_cov o) (Some n) (o_total o) (o_prop o) (o_eigvals o) (o_eigvecs o) (o_mean_sub o) (o_spatial o) (o_spectral o) (o_fit o) (o_decomp_only o), None)
  end.
Definition set_decomp_only (o : pca_obj) (b : bool) : pca_obj :=
  mk_pobj (o_cov o) (o_n_eigs o) (o_total o) (o_prop o) (o_eigvals o) (o_eigvecs o) (o_mean_sub o) (o_spatial o) (o_spectral o) (o_fit o) (Some b).

(** pca.py:80-157 [compute_pca] *)
Definition compute_pca (e : pca_env) (o : pca_obj) (mean_sub : bool) (n_eigs : n_eigs_arg) (min_eigval : option R) (eigen_cut_method : string) : outcome :=
  let o := set_decomp_only o true in
  match n_eigs, min_eigval with
  | Auto, None => (o, Some ValueError)
  | _, _ =>
      let cov := e_cov e mean_sub in
      let o := mk_pobj (Some cov) (o_n_eigs o) (o_total o) (o_prop o) (o_eigvals o) (o_eigvecs o) (o_mean_sub o) (o_spatial o) (o_spectral o) (o_fit o) (o_decomp_only o) in
      let '(all_eigvals, eigvecs) := e_eigh e cov in
      match choose_n_eigs (e_nz e) n_eigs min_eigval eigen_cut_method all_eigvals with
      | Err x => (o, Some x)
      | Ok n =>
          let '(total, prop) := variance_summary mean_sub n all_eigvals in
          (mk_pobj (o_cov o) (Some n) (Some total) (Some prop) (Some all_eigvals) (Some eigvecs) (Some mean_sub) (o_spatial o) (o_spectral o) (o_fit o) (o_decomp_only o), None)
      end
  end.

(** The attributes of a decomposition; AttributeError if one is not set *)
Definition decomposed (o : pca_obj) : result (Z * list R * (nat -> nat -> R) * bool) :=
  match o_n_eigs o, o_eigvals o, o_eigvecs o, o_mean_sub o with
  | Some n, Some l, Some v, Some m => Ok (n, l, v, m)
  | _, _, _, _ => Err AttributeError
  end.
(** pca.py:378-392 [find_spatial_widths]: what is computed *)
Definition spatial_of (e : pca_env) (o : pca_obj) (method : string) (brunt_beamcorrect : bool) (beam_fwhm : option R) : result (list (fl * fl)) :=
  beam <- (if brunt_beamcorrect then match beam_fwhm with Some b => Ok (Some b) | None => b <- e_beam e ;; Ok (Some b) end else Ok beam_fwhm) ;;
  d <- decomposed o ;;
  let '(n, eigvals, eigvecs, mean_sub) := d in
  acors <- autocorr_images (e_nz e) (e_ny e) (e_nx e) (e_data e) mean_sub (e_eps e) eigvals eigvecs n ;;
  noise <- noise_ACF (e_nz e) (e_ny e) (e_nx e) (e_data e) mean_sub (e_eps e) eigvals eigvecs (-10) ;;
  e_width2D e method brunt_beamcorrect beam acors noise.
(** pca.py:339-392 *)
Definition find_spatial (e : pca_env) (o : pca_obj) (method : string) (brunt_beamcorrect : bool) (beam_fwhm : option R) : outcome :=
  match spatial_of e o method brunt_beamcorrect beam_fwhm with
  | Err x => (o, Some x)
  | Ok w => (mk_pobj (o_cov o) (o_n_eigs o) (o_total o) (o_prop o) (o_eigvals o) (o_eigvecs o) (o_mean_sub o) (Some w) (o_spectral o) (o_fit o) (o_decomp_only o), None)
  end.
(** pca.py:433-441 [find_spectral_widths] *)
Definition spectral_of (e : pca_env) (o : pca_obj) (method : string) : result (list (fl * fl)) :=
  match o_n_eigs o, o_eigvecs o with
  | Some n, Some v => acors <- autocorr_spec (e_nz e) v n ;; e_width1D e method acors
  | _, _ => Err AttributeError
  end.
Definition find_spectral (e : pca_env) (o : pca_obj) (method : string) : outcome :=
  match spectral_of e o method with
  | Err x => (o, Some x)
  | Ok w => (mk_pobj (o_cov o) (o_n_eigs o) (o_total o) (o_prop o) (o_eigvals o) (o_eigvecs o) (o_mean_sub o) (o_spatial o) (Some w) (o_fit o) (o_decomp_only o), None)
  end.

Definition rows_of (spatial spectral : list (fl * fl)) : list width_row :=
  map (fun p => mk_row (fst (fst p)) (snd (fst p)) (fst (snd p)) (snd (snd p))) (combine spatial spectral).
(** pca.py:472-590 [fit_plaw]; the flag is set first.  Widths of different numbers of components
    raise ValueError in the product at 551, where too few points would raise a Warning later
    (no step gives one width, which numpy would broadcast). *)
Definition fit_obj (e : pca_env) (o : pca_obj) (c : fit_call) : outcome :=
  let o := set_decomp_only o false in
  match o_spatial o, o_spectral o with
  | Some a, Some b =>
      let same := Nat.eqb (length a) (length b) in
      let '(st, x) := fit_plaw (e_stat e) (rows_of a (if same then b else repeat (NaN, NaN) (length a))) (e_odr e) (e_bayes e) (o_fit o) c in
      let x := match x with Some OtherError => if same then x else Some ValueError | _ => x end in
      (mk_pobj (o_cov o) (o_n_eigs o) (o_total o) (o_prop o) (o_eigvals o) (o_eigvecs o) (o_mean_sub o) (o_spatial o) (o_spectral o) st (o_decomp_only o), x)
  | _, _ => (o, Some AttributeError)
  end.

(** Arguments of run that are not about plots *)
Record run_args := mk_args { a_mean_sub : bool; a_decomp_only : bool; a_n_eigs : n_eigs_arg; a_min_eigval : option R; a_cut : string;
  a_spatial : string; a_spectral : string; a_fit : fit_call; a_beam : option R; a_brunt : bool }.

(** pca.py:932-1012 [run] without the plots *)
Definition run (e : pca_env) (o : pca_obj) (a : run_args) : outcome :=
  let beam := match a_beam a with
              | None => if a_brunt a && negb (a_decomp_only a) then match e_beam e with Ok b => Ok (Some b) | Err _ => Err ValueError end else Ok None
              | Some b => Ok (Some b)
              end in
  match beam with
  | Err x => (o, Some x)
  | Ok beam =>
      also (compute_pca e o (a_mean_sub a) (a_n_eigs a) (a_min_eigval a) (a_cut a)) (fun o =>
      let o := set_decomp_only o (a_decomp_only a) in
      if a_decomp_only a then (o, None)
      else also (find_spatial e o (a_spatial a) (a_brunt a) beam) (fun o =>
           also (find_spectral e o (a_spectral a)) (fun o => fit_obj e o (a_fit a))))
  end.

(** pca.py:1079-1101, a PCA object given to PCA_Distance: hasattr(eigvals) is false if the
    decomposition was not computed *)
Definition given_to_distance (e : pca_env) (o : pca_obj) (n_eigs : Z) (mean_sub : bool) : outcome :=
  match o_eigvals o with
  | None => run e o (mk_args mean_sub true (Count n_eigs) None "value" "contour" "walk-down" (mk_call "odr" None None) None true)
  | Some l => also (set_n o n_eigs) (fun o => if (Z.of_nat (length l) <=? n_eigs)%Z then (o, Some ValueError) else (o, None))
  end.

(** Calls a user makes *)
Inductive call :=
| CSetN (n : Z)
| CCompute (mean_sub : bool) (n_eigs : n_eigs_arg) (min_eigval : option R) (cut : string)
| CSpatial (method : string) (brunt : bool) (beam : option R)
| CSpectral (method : string)
| CFit (c : fit_call)
| CRun (a : run_args)
| CDistance (n_eigs : Z) (mean_sub : bool).
Definition do_call (e : pca_env) (o : pca_obj) (c : call) : outcome :=
  match c with
  | CSetN n => set_n o n
  | CCompute m n v k => compute_pca e o m n v k
  | CSpatial m b f => find_spatial e o m b f
  | CSpectral m => find_spectral e o m
  | CFit c => fit_obj e o c
  | CRun a => run e o a
  | CDistance n m => given_to_distance e o n m
  end.
(** A history: exceptions are caught by the user, who goes on *)
Fixpoint history (e : pca_env) (o : pca_obj) (l : list call) : pca_obj :=
  match l with [] => o | c :: l => history e (fst (do_call e o c)) l end.

(** pca.py:1124-1146 for two objects given to PCA_Distance: the distance *)
Definition objects_distance (e1 e2 : pca_env) (o1 o2 : pca_obj) (n_eigs : Z) (mean_sub : bool) : result fl :=
  match given_to_distance e1 o1 n_eigs mean_sub, given_to_distance e2 o2 n_eigs mean_sub with
  | (o1, None), (o2, None) =>
      match o_eigvals o1, o_eigvals o2 with
      | Some l1, Some l2 => pca_distance mean_sub n_eigs l1 l2
      | _, _ => Err AttributeError
      end
  | (_, Some x), _ => Err x
  | _, (_, Some x) => Err x
  end.
(** The same for two cubes *)
Definition cubes_distance (e1 e2 : pca_env) (n_eigs : Z) (mean_sub : bool) : result fl := objects_distance e1 e2 new_pca new_pca n_eigs mean_sub.
