(** C263-C264: the lags an SCF object is made with, and a surface that cannot be computed. *)
From Coq Require Import String Reals List ZArith Arith Bool Lia Lra.
From Verif Require Import Lib.PyBase Lib.PyStr Lib.PySlice Lib.Arr Lib.Fl Model.Units Spec.ScfSpectrum Spec.ScfPairs Spec.ScfLags
  Model.Psds Model.Scf Model.ScfSpectrum Model.ScfPairs Model.ScfLags Proofs.Scf_Proofs Proofs.Scf2_Proofs Proofs.ScfPairs_Proofs Proofs.ScfLags_Proofs.
Import ListNotations.
Local Open Scope R_scope.

(** ** C263: the surface is computed at the lags asked for *)

(** By size: the whole numbers of pixels around zero, as many as asked for or one less. *)
Theorem C263_size : forall s size k, size = (2 * k + 1)%nat \/ size = (2 * k + 2)%nat ->
  scf_lags s size NoLags = Ok (mk_q (around_zero k) pix).
Proof. exact default_around. Qed.
Print Assumptions C263_size.

(** As an array (pixels) or as a Quantity, when they are odd in number: exactly these; lags given
    as angles are divided by the size of a pixel. *)
Theorem C263_odd_partial : forall s nz ny nx cube size b,
  (forall l, Nat.Odd (length l) -> lags_surface s nz ny nx cube size (ArrayLags l) b = compute_surface nz ny nx cube l b) /\
  (forall q p, Nat.Odd (length (q_vals q)) -> to_pixel s q = Ok p ->
     scf_lags s size (QuantityLags q) = Ok q /\ lags_surface s nz ny nx cube size (QuantityLags q) b = compute_surface nz ny nx cube (q_vals p) b) /\
  (forall a theta u, pixel_of s a -> u_pix u = 0%Z -> u_ang u = 1%Z -> u_len u = 0%Z -> u_other u = 0%Z -> Nat.Odd (length theta) ->
     lags_surface s nz ny nx cube size (QuantityLags (mk_q theta u)) b = compute_surface nz ny nx cube (map (fun v => v * u_factor u / a) theta) b).
Proof.
  intros. split; [intros; now apply array_as_given|]. split.
  - intros q p H P. split; [now apply (lags_as_given s size q p)|now apply surface_as_given].
  - intros. now apply angle_surface.
Qed.
Print Assumptions C263_odd_partial.

(** An even number of lags: the last one is left out without a warning.  Lags with which every
    lag has its opposite, as the documentation asks, then do not have it any more. *)
Theorem C263_even_refuted : forall s nz ny nx cube size b l x, Nat.Odd (length l) ->
  lags_surface s nz ny nx cube size (ArrayLags (l ++ [x])) b = compute_surface nz ny nx cube l b /\
  (NoDup (l ++ [x]) -> symmetric (l ++ [x]) -> x <> 0 -> ~ symmetric l).
Proof.
  intros s nz ny nx cube size b l x O. split; [unfold lags_surface, scf_lags; now rewrite even_cut by assumption|].
  intros. now apply (symmetric_lost l x).
Qed.
Print Assumptions C263_even_refuted.

(** A list of lags is not refused with the TypeError that the code has for it. *)
Theorem C263_list_refuted : forall s size l, scf_lags s size (ListLags l) = Err AttributeError.
Proof. reflexivity. Qed.
Print Assumptions C263_list_refuted.

Example C263_ok : around_zero 1 = [0 - 1; 1 - 1; 1 + 1 - 1] /\ Nat.Odd (length [-2; -1; 1]) /\ NoDup ([-2; -1; 1] ++ [2]) /\ symmetric ([-2; -1; 1] ++ [2]) /\
  pixel_of (mk_stat (Some (1 / 2)) None) (1 / 2).
Proof.
  split; [reflexivity|]. split; [now exists 1%nat|]. split; [repeat constructor; cbn; intros C; repeat (destruct C as [C|C]; [lra|]); exact C|].
  split; [|split; [reflexivity|lra]]. intros x H. cbn in *. destruct H as [<-|[<-|[<-|[<-|[]]]]]; [right; right; right; left|right; right; left|right; left|left]; lra.
Qed.

(** ** C264: a surface that cannot be computed *)

(** A call that raises nothing has computed the whole surface, and every surface that can be
    computed is. *)
Theorem C264_whole : forall i b i' e, b = "continuous"%string \/ b = "cut"%string -> surface_call i b = (i', e) ->
  (e = None <-> is_ok (inst_surface i (text b)) = true) /\ (e = None -> inst_surface i (text b) = Ok i').
Proof. intros i b i' e Hb H. destruct (surface_call_spec i b i' e Hb H) as [s [_ [_ [A [B _]]]]]. now split. Qed.
Print Assumptions C264_whole.

(** A call with an unknown boundary leaves the object alone. *)
Theorem C264_name_partial : forall i b, b <> "continuous"%string -> b <> "cut"%string -> surface_call i b = (i, Some ValueError).
Proof. intros i b H1 H2. unfold surface_call. apply String.eqb_neq in H1, H2. now rewrite H1, H2. Qed.
Print Assumptions C264_name_partial.

(** Any other call that raises leaves a surface with zeros in place of what it did not reach,
    and from this surface the spectrum is computed without an error. *)
Theorem C264_left_refuted : forall tppf i b i' e, b = "continuous"%string \/ b = "cut"%string -> surface_call i b = (i', Some e) ->
  length (s_roll_lags (i_obj i)) = i_size i -> (2 <= i_size i)%nat -> last (s_roll_lags (i_obj i)) 0 <> 0 ->
  exists s i'', s_surface (i_obj i') = Some s /\ square_array (i_size i) s /\ at2 NaN s (i_size i - 1) (i_size i - 1) = Fin 0 /\
    inst_spectrum tppf i' = Ok i'' /\ s_surface (i_obj i'') = Some s /\ s_spectrum (i_obj i'') <> None.
Proof. exact left_behind. Qed.
Print Assumptions C264_left_refuted.

(** It happens for lags beyond the image with boundary="cut". *)
Definition wide_inst : scf_inst := new_inst 1 5 5 (fun _ _ _ => Fin 1) 1 (Some [IZR (-7); 0; IZR 7]) 11.
Example C264_ok : s_surface (i_obj wide_inst) = None /\ snd (surface_call wide_inst "cut") = Some ValueError /\
  length (s_roll_lags (i_obj wide_inst)) = i_size wide_inst /\ (2 <= i_size wide_inst)%nat /\ last (s_roll_lags (i_obj wide_inst)) 0 <> 0 /\
  exists i', surface_call wide_inst "continuous" = (i', None).
Proof.
  split; [reflexivity|]. split; [|split; [reflexivity|split; [cbn; lia|split; [cbn; lra|]]]].
  - assert (V : scf_value 1 5 5 (fun _ _ _ => Fin 1) "cut" (IZR (-7)) (IZR (-7)) = Err ValueError).
    { unfold scf_value. cbn [String.eqb Ascii.eqb Bool.eqb]. unfold cut_data, cut_tmp. rewrite np_ceil_IZR. reflexivity. }
    unfold surface_call. cbn [negb orb String.eqb Ascii.eqb Bool.eqb wide_inst new_inst new_scf i_obj i_size s_nz s_ny s_nx s_cube s_roll_lags init_lags length Nat.even].
    unfold lag_pairs. cbn [length seq combine list_prod map app fill_loop].
    destruct (Reqb_spec (IZR (-7)) 0) as [C|_]; [lra|]. cbn [andb negb]. now rewrite V.
  - destruct (surface_call wide_inst "continuous") as [i' e] eqn:E. exists i'. f_equal.
    apply (proj1 (C264_whole wide_inst "continuous" i' e (or_introl eq_refl) E)).
    unfold inst_surface. cbn [wide_inst new_inst new_scf i_obj i_size s_roll_lags init_lags length Nat.even].
    rewrite (literal_surface _ "continuous" (or_introl eq_refl)). cbn [s_nz s_ny s_nx s_cube s_roll_lags].
    rewrite surface_cont; [reflexivity|]. intros z y x _ _ _; exact I.
Qed.
