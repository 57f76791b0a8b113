(** C248-C251: lags of SCF objects, names given as strings, and the SCF distance. *)
From Coq Require Import String Reals List ZArith Arith Bool Lia Lra.
From Verif Require Import Lib.PyBase Lib.PyStr Lib.Arr Lib.Fl Lib.RSum Spec.Blank Spec.Correlation Spec.ScfSpectrum Spec.ScfPairs
  Model.DeltaVar Model.Psds Model.Scf Model.ScfSpectrum Model.ScfPairs Model.Formats
  Proofs.Fl_Proofs Proofs.Scf_Proofs Proofs.Scf2_Proofs Proofs.ScfPairs_Proofs Proofs.ScfPairs2_Proofs Proofs.ScfPairs3_Proofs.
Import ListNotations.
Local Open Scope R_scope.

(** A cube of one pixel with the value 1, and an object of it with three lags. *)
Definition one_cube (_ _ _ : nat) : fl := Fin 1.
Lemma one_ok : cube_ok 1 1 1 one_cube.
Proof. intros z y x _ _ _. exact I. Qed.
Lemma one_signal : signal 1 1 1 one_cube.
Proof. exists 0%nat, 0%nat, 0%nat, 1. repeat split; auto; lra. Qed.
Definition one_inst : scf_inst := new_inst 1 1 1 one_cube 1 None 3.

(** ** C248: giving an object other lags *)

(** As many lags as before: the surface computed next is the one of the new lags. *)
Theorem C248_same_number_partial : forall i lags b, b = "continuous"%string \/ b = "cut"%string -> length lags = i_size i ->
  match inst_surface (set_roll i lags) (text b), surface_of i lags b with
  | Ok i', Ok s => s_surface (i_obj i') = Some s
  | Err e, Err e' => e = e'
  | _, _ => False
  end.
Proof. exact new_lags_same. Qed.
Print Assumptions C248_same_number_partial.

(** Fewer lags: the surface keeps the old size, and is 0 wherever there is no lag. *)
Theorem C248_fewer_refuted : forall i lags, cube_ok (s_nz (i_obj i)) (s_ny (i_obj i)) (s_nx (i_obj i)) (s_cube (i_obj i)) -> (length lags < i_size i)%nat ->
  exists i' s, inst_surface (set_roll i lags) (text "continuous") = Ok i' /\ s_surface (i_obj i') = Some s /\ square_array (i_size i) s /\
    forall j k, (j < i_size i)%nat -> (k < i_size i)%nat -> (length lags <= j \/ length lags <= k)%nat -> at2 NaN s j k = Fin 0.
Proof. exact new_lags_fewer. Qed.
Print Assumptions C248_fewer_refuted.

(** More lags: the surface cannot be computed, whatever the cube and the boundary. *)
Theorem C248_more_refuted : forall i lags b, (i_size i < length lags)%nat -> is_ok (inst_surface (set_roll i lags) b) = false.
Proof. exact new_lags_more. Qed.
Print Assumptions C248_more_refuted.

Example C248_ok : i_size one_inst = 3%nat /\ cube_ok (s_nz (i_obj one_inst)) (s_ny (i_obj one_inst)) (s_nx (i_obj one_inst)) (s_cube (i_obj one_inst)) /\
  length [-2; 0; 2] = i_size one_inst /\ (length [0]%R < i_size one_inst)%nat /\ (i_size one_inst < length [-2; -1; 0; 1; 2]%R)%nat.
Proof. split; [reflexivity|]. split; [exact one_ok|]. cbn. lia. Qed.

(** ** C249: names are strings, and equal strings are the same name *)

(** The literals of the documentation are understood, other names are refused. *)
Theorem C249_documented_partial :
  (forall i b, b = "continuous"%string \/ b = "cut"%string ->
     boundary_surface (i_obj i) (text b) = surface_of i (s_roll_lags (i_obj i)) b) /\
  (forall i s lit, s <> "continuous"%string -> s <> "cut"%string -> boundary_surface (i_obj i) (mk_str s lit) = Err ValueError) /\
  (forall g, format_branch (text "intensity") g = Ok IntensityBranch) /\
  format_branch (text "spectra") true = Ok SpectraBranch /\
  (forall s lit g, s <> "intensity"%string -> s <> "spectra"%string -> format_branch (mk_str s lit) g = Err NameError).
Proof.
  split; [intros i b H; now apply literal_surface|]. split; [intros i s lit H1 H2; now apply unknown_surface|]. split; [reflexivity|]. split; [reflexivity|].
  intros s lit g H1 H2. unfold format_branch, is_literal. cbn [str_value str_interned]. apply String.eqb_neq in H1, H2. rewrite H1, H2. now destruct lit.
Qed.
Print Assumptions C249_documented_partial.

(** An equal string that is not the literal is accepted as a boundary by the first test and
    then handled by no branch. *)
Theorem C249_boundary_refuted : forall i b, b = "continuous"%string \/ b = "cut"%string -> s_roll_lags (i_obj i) <> [] ->
  inst_surface i (made b) = Err UnboundLocalError.
Proof. intros i b H N. unfold inst_surface. now rewrite made_surface. Qed.
Print Assumptions C249_boundary_refuted.

(** SCF_Distance asks for a list or array of two string elements: those of an array are such strings. *)
Theorem C249_array_refuted : forall tppf n1 m1 k1 c1 p1 n2 m2 k2 c2 p2 size b1 b2 w, 0 < p1 -> 0 < p2 -> (1 <= odd_size size)%nat ->
  b1 = "continuous"%string \/ b1 = "cut"%string ->
  scf_pair_distance tppf (RawCube n1 m1 k1 c1 p1) (RawCube n2 m2 k2 c2 p2) size (Boundaries [made b1; b2]) w = Err UnboundLocalError.
Proof.
  intros tppf n1 m1 k1 c1 p1 n2 m2 k2 c2 p2 size b1 b2 w H1 H2 O B. unfold scf_pair_distance, pair_init. rewrite lags_of_cubes by assumption.
  cbn [bind fst snd pair_boundary]. unfold prepare. rewrite (raw_surface n1 m1 k1 c1 p1 _ size) by apply scaled_length.
  rewrite made_surface; [reflexivity|exact B|]. cbn [fresh s_roll_lags]. intros C. pose proof (scaled_length size p1 p2) as L. rewrite C in L. cbn in L. lia.
Qed.
Print Assumptions C249_array_refuted.

Theorem C249_format_refuted : forall s g, format_branch (made s) g = Err NameError.
Proof. reflexivity. Qed.
Print Assumptions C249_format_refuted.

Example C249_ok : s_roll_lags (i_obj one_inst) <> [] /\ (1 <= odd_size 11)%nat /\ str_value (made "cut") = str_value (text "cut").
Proof. split; [discriminate|]. split; [cbn; lia|reflexivity]. Qed.

(** ** C250: the distance of two cubes *)

(** Both surfaces are sampled at the same angles, with whole pixels on the coarser grid. *)
Theorem C250_common_angles : forall tppf n1 m1 k1 c1 p1 n2 m2 k2 c2 p2 size b p, 0 < p1 -> 0 < p2 ->
  pair_init tppf (RawCube n1 m1 k1 c1 p1) (RawCube n2 m2 k2 c2 p2) size b = Ok p ->
  angles (p_1 p) = angles (p_2 p) /\ length (angles (p_1 p)) = odd_size size /\
  (p2 <= p1 -> s_roll_lags (i_obj (p_1 p)) = default_lags size) /\ (p1 <= p2 -> s_roll_lags (i_obj (p_2 p)) = default_lags size).
Proof. exact cubes_angles. Qed.
Print Assumptions C250_common_angles.

(** It is the weighted distance of the two surfaces, a number between 0 and sqrt 2. *)
Theorem C250_defined : forall tppf n1 m1 k1 c1 p1 n2 m2 k2 c2 p2 size w, 0 < p1 -> 0 < p2 -> (3 <= size)%nat ->
  cube_ok n1 m1 k1 c1 -> cube_ok n2 m2 k2 c2 -> signal n1 m1 k1 c1 -> signal n2 m2 k2 c2 ->
  exists s1 s2 d,
    compute_surface n1 m1 k1 c1 (map (fun l => l * (Rmax p1 p2 / p1)) (default_lags size)) "continuous" = Ok s1 /\
    compute_surface n2 m2 k2 c2 (map (fun l => l * (Rmax p2 p1 / p2)) (default_lags size)) "continuous" = Ok s2 /\
    scf_pair_distance tppf (RawCube n1 m1 k1 c1 p1) (RawCube n2 m2 k2 c2 p2) size (OneBoundary (text "continuous")) w = Ok (Fin d) /\
    d = weighted_rms (odd_size size) (if w then lag_weight (odd_size size) else fun _ _ => 1) (values_of s1) (values_of s2) /\ 0 <= d <= sqrt 2.
Proof.
  intros tppf n1 m1 k1 c1 p1 n2 m2 k2 c2 p2 size w H1 H2 N K1 K2 S1 S2.
  destruct (cubes_defined tppf n1 m1 k1 c1 p1 n2 m2 k2 c2 p2 size w H1 H2 N K1 K2 S1 S2) as [s1 [s2 [d [E1 [E2 [E [D B]]]]]]].
  exists s1, s2, d. rewrite <- scf_distance_formula. auto.
Qed.
Print Assumptions C250_defined.

Theorem C250_symmetric : forall tppf n1 m1 k1 c1 p1 n2 m2 k2 c2 p2 size b1 b2 w v, 0 < p1 -> 0 < p2 ->
  scf_pair_distance tppf (RawCube n1 m1 k1 c1 p1) (RawCube n2 m2 k2 c2 p2) size (Boundaries [b1; b2]) w = Ok v ->
  scf_pair_distance tppf (RawCube n2 m2 k2 c2 p2) (RawCube n1 m1 k1 c1 p1) size (Boundaries [b2; b1]) w = Ok v.
Proof. exact cubes_sym. Qed.
Print Assumptions C250_symmetric.

(** The calibration of either cube does not matter. *)
Theorem C250_calibration : forall tppf n1 m1 k1 c1 p1 n2 m2 k2 c2 p2 size b1 b2 w v a1 a2, 0 < p1 -> 0 < p2 ->
  cube_ok n1 m1 k1 c1 -> cube_ok n2 m2 k2 c2 -> a1 <> 0 -> a2 <> 0 ->
  scf_pair_distance tppf (RawCube n1 m1 k1 (recalibrated a1 c1) p1) (RawCube n2 m2 k2 (recalibrated a2 c2) p2) size (Boundaries [b1; b2]) w = Ok v <->
  scf_pair_distance tppf (RawCube n1 m1 k1 c1 p1) (RawCube n2 m2 k2 c2 p2) size (Boundaries [b1; b2]) w = Ok v.
Proof. exact cubes_calibration. Qed.
Print Assumptions C250_calibration.

Theorem C250_same_cube : forall tppf nz ny nx c p size w, 0 < p -> (3 <= size)%nat -> cube_ok nz ny nx c -> signal nz ny nx c ->
  scf_pair_distance tppf (RawCube nz ny nx c p) (RawCube nz ny nx c p) size (OneBoundary (text "continuous")) w = Ok (Fin 0).
Proof. exact cubes_same. Qed.
Print Assumptions C250_same_cube.

(** An even size means the odd one below it. *)
Theorem C250_even_size : forall tppf n1 m1 k1 c1 p1 n2 m2 k2 c2 p2 k b1 b2 w v, 0 < p1 -> 0 < p2 ->
  scf_pair_distance tppf (RawCube n1 m1 k1 c1 p1) (RawCube n2 m2 k2 c2 p2) (2 * S k) (Boundaries [b1; b2]) w = Ok v <->
  scf_pair_distance tppf (RawCube n1 m1 k1 c1 p1) (RawCube n2 m2 k2 c2 p2) (2 * S k - 1) (Boundaries [b1; b2]) w = Ok v.
Proof. exact cubes_even. Qed.
Print Assumptions C250_even_size.

Example C250_ok : cube_ok 1 1 1 one_cube /\ signal 1 1 1 one_cube /\ (3 <= 11)%nat /\
  exists d, scf_pair_distance (fun _ => Fin 0) (RawCube 1 1 1 one_cube 1) (RawCube 1 1 1 one_cube 2) 4 (OneBoundary (text "continuous")) true = Ok (Fin d).
Proof.
  split; [exact one_ok|]. split; [exact one_signal|]. split; [lia|].
  destruct (cubes_defined (fun _ => Fin 0) 1 1 1 one_cube 1 1 1 1 one_cube 2 4 true) as [s1 [s2 [d [_ [_ [E _]]]]]]; try lra; try lia; try exact one_ok; try exact one_signal.
  now exists d.
Qed.

(** ** C251: SCF objects given to the distance *)

(** Objects on one grid with the same lags that have been run are used as they are. *)
Theorem C251_reused_partial : forall tppf i1 i2 size b bb, 0 < i_pixel i1 -> i_pixel i2 = i_pixel i1 -> s_roll_lags (i_obj i2) = s_roll_lags (i_obj i1) ->
  s_spectrum (i_obj i1) <> None -> s_spectrum (i_obj i2) <> None -> pair_boundary b = Ok bb ->
  pair_init tppf (ScfGiven i1) (ScfGiven i2) size b = Ok (mk_pair i1 i2 (i_size i1)).
Proof. exact objects_reused. Qed.
Print Assumptions C251_reused_partial.

(** Objects of two cubes that have been run with the same size give the distance of the cubes,
    whatever boundary the distance is given; so does a cube with an object. *)
Theorem C251_as_cubes_partial : forall tppf n1 m1 k1 c1 n2 m2 k2 c2 p size b1 b2 w v i1 i2 b bb, 0 < p ->
  ran tppf n1 m1 k1 c1 p size b1 i1 -> ran tppf n2 m2 k2 c2 p size b2 i2 -> pair_boundary b = Ok bb ->
  scf_pair_distance tppf (RawCube n1 m1 k1 c1 p) (RawCube n2 m2 k2 c2 p) size (Boundaries [b1; b2]) w = Ok v ->
  scf_pair_distance tppf (ScfGiven i1) (ScfGiven i2) size b w = Ok v /\
  (fst bb = b1 -> scf_pair_distance tppf (RawCube n1 m1 k1 c1 p) (ScfGiven i2) size b w = Ok v).
Proof. exact objects_as_cubes. Qed.
Print Assumptions C251_as_cubes_partial.

(** Objects that have not been run are computed, and then compared with weights of the size
    argument: unless it is their own size, the distance fails. *)
Theorem C251_unrun_refuted : forall tppf i1 i2 size w, 0 < i_pixel i1 -> i_pixel i2 = i_pixel i1 -> s_roll_lags (i_obj i2) = s_roll_lags (i_obj i1) ->
  s_spectrum (i_obj i1) = None -> s_spectrum (i_obj i2) = None ->
  i_size i1 = length (s_roll_lags (i_obj i1)) -> i_size i2 = length (s_roll_lags (i_obj i1)) ->
  cube_ok (s_nz (i_obj i1)) (s_ny (i_obj i1)) (s_nx (i_obj i1)) (s_cube (i_obj i1)) -> cube_ok (s_nz (i_obj i2)) (s_ny (i_obj i2)) (s_nx (i_obj i2)) (s_cube (i_obj i2)) ->
  (2 <= length (s_roll_lags (i_obj i1)))%nat -> (2 <= odd_size size)%nat -> odd_size size <> length (s_roll_lags (i_obj i1)) ->
  scf_pair_distance tppf (ScfGiven i1) (ScfGiven i2) size (OneBoundary (text "continuous")) w = Err ValueError.
Proof. exact unrun_fails. Qed.
Print Assumptions C251_unrun_refuted.

(** An object given first and a cube given second on one grid: no distance at all. *)
Theorem C251_object_first_refuted : forall tppf i1 n m k c size b w, 0 < i_pixel i1 ->
  scf_pair_distance tppf (ScfGiven i1) (RawCube n m k c (i_pixel i1)) size b w = Err AttributeError.
Proof. intros tppf i1 n m k c size b w P. unfold scf_pair_distance, pair_init, pair_lags. cbn [input_pixel input_lags]. now rewrite scale_one. Qed.
Print Assumptions C251_object_first_refuted.

(** Objects on different grids: with as many lags as the size argument asks for they end with the
    same angles ... *)
Theorem C251_other_grid_partial : forall tppf i1 i2 size b p, 0 < i_pixel i1 -> 0 < i_pixel i2 -> i_pixel i1 <> i_pixel i2 ->
  length (s_roll_lags (i_obj i1)) = odd_size size -> length (s_roll_lags (i_obj i2)) = odd_size size ->
  pair_init tppf (ScfGiven i1) (ScfGiven i2) size b = Ok p -> angles (p_1 p) = angles (p_2 p).
Proof. exact other_grid_angles. Qed.
Print Assumptions C251_other_grid_partial.

(** ... with any other number of lags they are compared as they are, at different angles ... *)
Theorem C251_other_grid_refuted : forall tppf i1 i2 size b bb, 0 < i_pixel i1 -> 0 < i_pixel i2 -> i_pixel i1 <> i_pixel i2 ->
  s_roll_lags (i_obj i2) = s_roll_lags (i_obj i1) -> (exists l, In l (s_roll_lags (i_obj i1)) /\ l <> 0) ->
  s_spectrum (i_obj i1) <> None -> s_spectrum (i_obj i2) <> None -> pair_boundary b = Ok bb ->
  odd_size size <> length (s_roll_lags (i_obj i1)) ->
  pair_init tppf (ScfGiven i1) (ScfGiven i2) size b = Ok (mk_pair i1 i2 (i_size i1)) /\ angles i1 <> angles i2.
Proof.
  intros tppf i1 i2 size b bb P1 P2 N E Z S1 S2 B O. split; [|now apply angles_differ]. apply (other_grid_kept tppf i1 i2 size b bb); try assumption. now rewrite E.
Qed.
Print Assumptions C251_other_grid_refuted.

(** ... and an object that is recomputed at other lags keeps the fits to its old surface. *)
Theorem C251_stale_fit_refuted : forall tppf i1 c2 size b p, 0 < i_pixel i1 -> i_pixel i1 < input_pixel c2 -> (2 <= odd_size size)%nat ->
  s_roll_lags (i_obj i1) = default_lags size -> pair_init tppf (ScfGiven i1) c2 size b = Ok p ->
  s_roll_lags (i_obj (p_1 p)) <> s_roll_lags (i_obj i1) /\ s_fit (i_obj (p_1 p)) = s_fit (i_obj i1) /\ s_fit2D (i_obj (p_1 p)) = s_fit2D (i_obj i1) /\
  exists b0 s, boundary_surface (i_obj (set_roll i1 (s_roll_lags (i_obj (p_1 p))))) b0 = Ok s /\
    s_surface (i_obj (p_1 p)) = Some (fill (i_size i1) (length (s_roll_lags (i_obj (p_1 p)))) s).
Proof. exact fit_stays. Qed.
Print Assumptions C251_stale_fit_refuted.

(** Objects of the one-pixel cube on two grids that have been run with three lags. *)
Lemma one_ran p : exists i, ran (fun _ => Fin 0) 1 1 1 one_cube p 3 (text "continuous") i.
Proof.
  destruct (finite_surface 1 1 1 one_cube (default_lags 3) one_ok one_signal) as [s [E [_ _]]].
  pose proof (boundary_square _ _ _ E) as Q. cbn [fresh s_roll_lags] in Q.
  destruct (prepare_raw_ok (fun _ => Fin 0) 1 1 1 one_cube p (default_lags 3) 3 (text "continuous") s) as [i H]; try assumption.
  - apply default_length.
  - rewrite default_length. cbn. lia.
  - exists i. now apply ran_prepare.
Qed.
Example C251_ok :
  (exists i1 i2, ran (fun _ => Fin 0) 1 1 1 one_cube 1 3 (text "continuous") i1 /\ ran (fun _ => Fin 0) 1 1 1 one_cube 2 3 (text "continuous") i2 /\
     0 < i_pixel i1 /\ i_pixel i1 < i_pixel i2 /\ s_roll_lags (i_obj i2) = s_roll_lags (i_obj i1) /\ s_roll_lags (i_obj i1) = default_lags 3 /\
     s_spectrum (i_obj i1) <> None /\ s_spectrum (i_obj i2) <> None /\ (exists l, In l (s_roll_lags (i_obj i1)) /\ l <> 0) /\
     odd_size 11 <> length (s_roll_lags (i_obj i1)) /\ pair_boundary (OneBoundary (text "continuous")) = Ok (text "continuous", text "continuous")) /\
  s_spectrum (i_obj one_inst) = None /\ i_size one_inst = length (s_roll_lags (i_obj one_inst)).
Proof.
  split; [|split; reflexivity]. destruct (one_ran 1) as [i1 H1]. destruct (one_ran 2) as [i2 H2]. exists i1, i2. split; [exact H1|]. split; [exact H2|].
  apply ran_prepare in H1, H2. apply (prepare_raw _ _ _ _ _ _ _ 3) in H1; [|apply default_length]. apply (prepare_raw _ _ _ _ _ _ _ 3) in H2; [|apply default_length].
  destruct H1 as [_ [_ [s1 [_ (_ & _ & _ & _ & G1 & L1 & _ & _ & S1)]]]]. destruct H2 as [_ [_ [s2 [_ (_ & _ & _ & _ & G2 & L2 & _ & _ & S2)]]]].
  rewrite G1, G2, L1, L2. split; [lra|]. split; [lra|]. split; [reflexivity|]. split; [reflexivity|]. split; [exact S1|]. split; [exact S2|].
  split; [apply default_nonzero; cbn; lia|]. split; [rewrite default_length; cbn; lia|reflexivity].
Qed.
