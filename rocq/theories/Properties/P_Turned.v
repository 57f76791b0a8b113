(** Theorems about power spectra of images and cubes seen from another side (C305), and of their spectral correlation
    function (C306) *)
From Coq Require Import String Reals List ZArith Arith Bool Lia Lra.
From Verif Require Import Lib.PyBase Lib.Arr Lib.Fl Lib.RSum Spec.Correlation Spec.ScfSpectrum Spec.PspecFit Spec.Turned Spec.Velocity Model.Psds Model.Scf Model.FitState Model.ScfSpectrum Model.PspecFit Model.Mvc
  Proofs.PspecFit4_Proofs Proofs.Turned_Proofs Proofs.TurnedScf_Proofs Proofs.TurnedMvc_Proofs.
Import ListNotations.
Local Open Scope R_scope.

(** ** C305 *)
(** PowerSpectrum: mirrored, transposed and turned images give the same spectrum and the same fit,
    as long as no directions are selected and the fit is that of the binned spectrum *)
Theorem C305_image : forall tppf line err seg solve perms o ny nx image a, (1 <= ny)%nat -> (1 <= nx)%nat ->
  k_theta_0 (r_radial a) = None -> f_unbinned (r_fit a) = false -> r_fit_2D a = false ->
  let run ny nx image := do_prun tppf line err seg solve perms o (Ok (map (map Fin) (power_ps2D ny nx image))) a in
  same_run same_results (run ny nx (left_right nx image)) (run ny nx image) /\
  same_run same_results (run ny nx (up_down ny image)) (run ny nx image) /\
  same_run same_results (run nx ny (axes_swapped image)) (run ny nx image) /\
  same_run same_results (run nx ny (quarter_turn ny image)) (run ny nx image).
Proof. exact turned_image. Qed.
Print Assumptions C305_image.
(** VCA: the same of all channels of a cube *)
Theorem C305_cube : forall tppf line err seg solve perms o nz ny nx cube a, (1 <= nz)%nat -> (1 <= ny)%nat -> (1 <= nx)%nat ->
  k_theta_0 (r_radial a) = None -> f_unbinned (r_fit a) = false -> r_fit_2D a = false ->
  let run ny nx (cube : nat -> nat -> nat -> R) := do_prun tppf line err seg solve perms o (Ok (map (map Fin) (vca_ps2D nz ny nx cube))) a in
  same_run same_results (run ny nx (fun z => left_right nx (cube z))) (run ny nx cube) /\
  same_run same_results (run ny nx (fun z => up_down ny (cube z))) (run ny nx cube) /\
  same_run same_results (run nx ny (fun z => axes_swapped (cube z))) (run ny nx cube) /\
  same_run same_results (run nx ny (fun z => quarter_turn ny (cube z))) (run ny nx cube).
Proof. exact turned_cube. Qed.
Print Assumptions C305_cube.
(** MVC: the same of its three maps, without apodization and without correction for the beam *)
Theorem C305_mvc : forall tppf line err seg solve perms o ny nx centroid moment0 linewidth a, (1 <= ny)%nat -> (1 <= nx)%nat ->
  k_theta_0 (r_radial a) = None -> f_unbinned (r_fit a) = false -> r_fit_2D a = false ->
  let run ny nx (turn : (nat -> nat -> R) -> nat -> nat -> R) := do_prun tppf line err seg solve perms o
    (mvc_ps2D (full ny nx (turn centroid)) (full ny nx (turn moment0)) (full ny nx (turn linewidth)) None false None) a in
  same_run same_results (run ny nx (left_right nx)) (run ny nx (fun map => map)) /\
  same_run same_results (run ny nx (up_down ny)) (run ny nx (fun map => map)) /\
  same_run same_results (run nx ny axes_swapped) (run ny nx (fun map => map)) /\
  same_run same_results (run nx ny (quarter_turn ny)) (run ny nx (fun map => map)).
Proof. exact turned_mvc. Qed.
Print Assumptions C305_mvc.
(** Half a turn changes nothing, whatever the options *)
Theorem C305_half_turn : forall tppf line err seg solve perms o ny nx image a, (1 <= ny)%nat -> (1 <= nx)%nat ->
  do_prun tppf line err seg solve perms o (Ok (map (map Fin) (power_ps2D ny nx (up_down ny (left_right nx image))))) a =
  do_prun tppf line err seg solve perms o (Ok (map (map Fin) (power_ps2D ny nx image))) a.
Proof. intros. now rewrite half_turn by assumption. Qed.
Print Assumptions C305_half_turn.
(** A 3 x 3 image with its diagonal set, which mirroring changes, and the plain options *)
Definition diagonal (y x : nat) : R := if Nat.eqb y x then 1 else 0.
Definition plain_run : prun_args := mk_pr false (mk_kw None 1 None None None None) plain_fit false (mk_f2 None None None true false false false false).
Example C305_case : left_right 3 diagonal 0%nat 2%nat = 1 /\ diagonal 0%nat 2%nat = 0 /\ up_down 3 (left_right 3 diagonal) 0%nat 0%nat = diagonal 2%nat 2%nat /\
  k_theta_0 (r_radial plain_run) = None /\ f_unbinned (r_fit plain_run) = false /\ r_fit_2D plain_run = false.
Proof. repeat split; reflexivity. Qed.

(** ** C306 *)
(** The surface of a mirrored cube is the mirrored surface, that of a transposed cube the transposed
    surface *)
Theorem C306_surface : forall nz ny nx cube lags b, cube_ok nz ny nx cube -> pixel_lags lags -> allowed b lags ny nx ->
  exists s t, compute_surface nz ny nx cube lags b = Ok s /\
    compute_surface nz ny nx (fun z => left_right nx (cube z)) lags b = Ok (rev s) /\
    compute_surface nz ny nx (fun z => up_down ny (cube z)) lags b = Ok (map (@rev fl) s) /\
    compute_surface nz nx ny (fun z => axes_swapped (cube z)) lags b = Ok t /\
    square_array (length lags) s /\ square_array (length lags) t /\
    forall j i, (j < length lags)%nat -> (i < length lags)%nat -> at2 NaN t j i = at2 NaN s i j.
Proof. exact turned_surfaces. Qed.
Print Assumptions C306_surface.
(** A run on the turned cube has the same lags, spectrum, deviations and fit, or raises the same *)
Theorem C306_run : forall tppf wls solve perms nz ny nx cube roll_lags size a,
  cube_ok nz ny nx cube -> init_lags roll_lags size <> [] -> pixel_lags (init_lags roll_lags size) -> allowed (a_boundary a) (init_lags roll_lags size) ny nx ->
  k_theta_0 (a_spec a) = None -> a_fit_2D a = false ->
  let run ny nx cube := do_run tppf wls solve perms (new_scf nz ny nx cube roll_lags size) a in
  same_scf_run (run ny nx (fun z => left_right nx (cube z))) (run ny nx cube) /\
  same_scf_run (run ny nx (fun z => up_down ny (cube z))) (run ny nx cube) /\
  same_scf_run (run nx ny (fun z => axes_swapped (cube z))) (run ny nx cube) /\
  same_scf_run (run nx ny (fun z => quarter_turn ny (cube z))) (run ny nx cube).
Proof. exact turned_run. Qed.
Print Assumptions C306_run.
(** The lags of an object made with a size are such lags, whatever the size *)
Theorem C306_default : forall size, pixel_lags (init_lags None size) /\ (size <> 0%nat -> init_lags None size <> []).
Proof.
  intros size. split; [apply default_pixel_lags|]. intros H. unfold init_lags, default_lags. cbv zeta. destruct size as [|[|size]]; [now elim H|discriminate|].
  destruct (Nat.even (S (S size))); [change (S (S size) - 1)%nat with (S size)|]; rewrite tab1_S; discriminate.
Qed.
Print Assumptions C306_default.
(** A cube of one channel, blank outside the diagonal, with lags of -1, 0 and 1 *)
Definition blank_diagonal (z y x : nat) : fl := if Nat.eqb y x then Fin (1 + INR y) else NaN.
Example C306_case : cube_ok 1 3 3 blank_diagonal /\ pixel_lags [-1; 0; 1] /\ allowed "cut" [-1; 0; 1] 3 3 /\ init_lags (Some [-1; 0; 1]) 11 = [-1; 0; 1] /\ left_right 3 (blank_diagonal 0) 0%nat 2%nat = Fin (1 + 0) /\ blank_diagonal 0 0 2 = NaN.
Proof.
  split; [intros z y x _ _ _; unfold blank_diagonal; now destruct (Nat.eqb y x)|]. split; [|split; [|split; [reflexivity|split; reflexivity]]].
  - split.
    + intros l [<-|[<-|[<-|[]]]]; [now exists (-1)%Z|now exists 0%Z|now exists 1%Z].
    + cbn [rev map app]. repeat f_equal; lra.
  - right. split; [reflexivity|]. intros l [<-|[<-|[<-|[]]]]; cbn [Nat.min INR]; unfold Rabs; destruct (Rcase_abs _); lra.
Qed.
