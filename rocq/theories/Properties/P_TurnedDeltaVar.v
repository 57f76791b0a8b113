(** C310: the delta variance of images seen from another side. *)
From Coq Require Import String Reals List Bool ZArith Arith Lra Lia.
From Verif Require Import Lib.PyBase Lib.Fl Spec.Turned Spec.TurnedDeltaVar Model.Units Model.FitState Model.DeltaVar Model.DeltaVarRun Spec.DeltaVarRun Spec.TurnedDeltaVarRun Proofs.TurnedDeltaVar_Proofs Proofs.TurnedDeltaVarRun_Proofs.
Import ListNotations.
Local Open Scope R_scope.

(** With kernels that depend on the distance in rows and in columns only, padded or periodic: value and error at a lag are the
    same from every side. *)
Theorem C310_image : forall v n0 n1 core annulus data weights wmax min_weight_frac preserve_nan lag, even_kernel core -> even_kernel annulus ->
  let m0 := rows_seen v n0 n1 in let m1 := columns_seen v n0 n1 in
  deltavar_lag (on_grid m1 (seen_kernel v core)) (on_grid m1 (seen_kernel v annulus)) (row_by_row m0 m1 (seen v n0 n1 data)) (row_by_row m0 m1 (seen v n0 n1 weights)) wmax min_weight_frac preserve_nan lag =
  deltavar_lag (on_grid n1 core) (on_grid n1 annulus) (row_by_row n0 n1 data) (row_by_row n0 n1 weights) wmax min_weight_frac preserve_nan lag.
Proof. exact deltavar_seen. Qed.
Print Assumptions C310_image.
(** The kernels of the lag at the pixels are such. *)
Theorem C310_sampled : forall v n0 n1 ratio data weights wmax min_weight_frac preserve_nan lag,
  let core a b := core_kernel lag (IZR a) (IZR b) in let annulus a b := annulus_kernel lag ratio (IZR a) (IZR b) in
  let m0 := rows_seen v n0 n1 in let m1 := columns_seen v n0 n1 in
  deltavar_lag (on_grid m1 core) (on_grid m1 annulus) (row_by_row m0 m1 (seen v n0 n1 data)) (row_by_row m0 m1 (seen v n0 n1 weights)) wmax min_weight_frac preserve_nan lag =
  deltavar_lag (on_grid n1 core) (on_grid n1 annulus) (row_by_row n0 n1 data) (row_by_row n0 n1 weights) wmax min_weight_frac preserve_nan lag.
Proof. exact deltavar_sampled. Qed.
Print Assumptions C310_sampled.
(** Periodic kernels are even where the sum over all periods is; here one of period 3 in rows and 2 in columns.  A 3 x 2 image and
    the image turned by a quarter. *)
Example C310_case : even_kernel (fun a b => if ((a mod 3 =? 0) && (b mod 2 =? 0))%Z%bool then 1 else 0) /\
  row_by_row 3 2 (fun y x => (2 * y + x)%nat) = [0; 1; 2; 3; 4; 5]%nat /\
  row_by_row (rows_seen QuarterTurn 3 2) (columns_seen QuarterTurn 3 2) (seen QuarterTurn 3 2 (fun y x => (2 * y + x)%nat)) = [4; 2; 0; 5; 3; 1]%nat.
Proof.
  split; [|split; reflexivity]. intros a b. assert (H : forall m z, (0 < m)%Z -> ((- z) mod m =? 0)%Z = (z mod m =? 0)%Z).
  { intros m z Hm. destruct (Z.eqb_spec (z mod m) 0) as [E|E]; [now rewrite Z.mod_opp_l_z by lia|]. rewrite Z.mod_opp_l_nz by lia. pose proof (Z.mod_pos_bound z m Hm). apply Z.eqb_neq. lia. }
  now rewrite !H by lia.
Qed.
(** Objects made from the image and from what is seen of it, with the same lags: after the same calls (computing, fitting, running,
    setting lags; some may have raised) they have the same lags, curve and errors, range of the fit, slopes and break, and the next
    call raises the same or succeeds. *)
Theorem C310_history : forall v image wmax m s line seg e e' lags nlags calls, even_means m ->
  made_from image wmax m s line seg e -> made_from (seen_image v image) wmax (seen_means v m) s line seg e' -> Forall good_boundary calls ->
  match new_dv e lags nlags, new_dv e' lags nlags with
  | Ok o, Ok o' => same_outcome (history e o calls) (history e' o' calls) /\
      forall c, good_boundary c -> snd (do_call e' (history e' o' calls) c) = snd (do_call e (history e o calls) c)
  | Err x, Err x' => x' = x
  | _, _ => False
  end.
Proof. exact seen_history. Qed.
Print Assumptions C310_history.
(** The distance of two images, each seen from another side *)
Theorem C310_distance : forall v1 v2 image1 image2 wmax1 wmax2 m1 m2 s1 s2 line1 line2 seg1 seg2 e1 e2 e1' e2' scale is_list lags c1 c2 a1 a2, even_means m1 -> even_means m2 ->
  made_from image1 wmax1 m1 s1 line1 seg1 e1 -> made_from (seen_image v1 image1) wmax1 (seen_means v1 m1) s1 line1 seg1 e1' ->
  made_from image2 wmax2 m2 s2 line2 seg2 e2 -> made_from (seen_image v2 image2) wmax2 (seen_means v2 m2) s2 line2 seg2 e2' ->
  good_boundary (CCompute c1) -> good_boundary (CCompute c2) ->
  (d <- data_distance e1' e2' scale is_list lags c1 c2 a1 a2 ;; Ok (snd d)) = (d <- data_distance e1 e2 scale is_list lags c1 c2 a1 a2 ;; Ok (snd d)).
Proof. exact seen_distance. Qed.
Print Assumptions C310_distance.
(** The kernels of the lag at the pixels are even, and every image has an object. *)
Example C310_object_case : forall image wmax s line seg ratio,
  let m := mk_means (fun _ lag a b => core_kernel lag (IZR a) (IZR b)) (fun _ lag a b => annulus_kernel lag ratio (IZR a) (IZR b)) (fun _ => / 100) (fun _ => true) in
  even_means m /\ (exists e, made_from image wmax m s line seg e) /\ Forall good_boundary [CCompute (mk_copts "wrap" false 0); CRun (mk_copts "fill" false 0) (mk_fargs None None None false)].
Proof.
  intros image wmax s line seg ratio m. split; [|split].
  - intros c lag. split; [apply core_even|apply annulus_even].
  - exists (mk_dv s (Nat.min (wi_n0 image) (wi_n1 image)) (fun c lag => deltavar_lag (on_grid (wi_n1 image) (m_core m c lag)) (on_grid (wi_n1 image) (m_annulus m c lag))
      (row_by_row (wi_n0 image) (wi_n1 image) (wi_data image)) (row_by_row (wi_n0 image) (wi_n1 image) (wi_weights image)) wmax (m_frac m c) (m_preserve m c) lag) (fun _ _ => []) (fun _ => (NaN, NaN)) line seg).
    repeat split.
  - constructor; [now left|]. constructor; [now right|]. constructor.
Qed.
