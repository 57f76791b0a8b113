(** Properties C217-C222: what the constructors do with the arrays, headers and beams they are given. *)
From Coq Require Import Reals List Arith Bool Lia Lra.
From Verif Require Import Lib.PyBase Lib.Fl Model.InputData Model.Construct Spec.Construct Proofs.Construct_Proofs.
Import ListNotations.
Local Open Scope R_scope.

(** C217: no constructor but PowerSpectrum with weights writes an array of the caller,
    whether it succeeds or raises. *)
Theorem C217_others_partial : forall c st, (forall s q h w, c <> CPowerSpectrum s q h (Some w)) ->
  unchanged st (fst (construct c st)).
Proof. exact construct_unchanged. Qed.
Print Assumptions C217_others_partial.
(** PowerSpectrum writes no other array than the weights, and these only if they have blanks. *)
Theorem C217_pspec_partial : forall s q h w st, source_exists st s -> (w < length st)%nat ->
  unchanged_but w st (fst (construct (CPowerSpectrum s q h (Some w)) st)) /\
  ((forall v, In v (read st w) -> v <> NaN) -> unchanged st (fst (construct (CPowerSpectrum s q h (Some w)) st))).
Proof. exact (fun s q h w st E Hw => conj (power_spectrum_others s q h w st E Hw) (power_spectrum_no_blanks s q h w st E Hw)). Qed.
Print Assumptions C217_pspec_partial.
(** Blanks in the weights are overwritten in the array of the caller, for all weights and data,
    also when the weights do not fit and IndexError is raised. *)
Theorem C217_refuted : forall s q h w st, source_exists st s -> (w < length st)%nat ->
  is_ok (header_rule s q h) = true -> In NaN (read st w) ->
  read (fst (construct (CPowerSpectrum s q h (Some w)) st)) w = blanks_to_zero (read st w) /\
  ~ unchanged st (fst (construct (CPowerSpectrum s q h (Some w)) st)).
Proof.
  intros s q h w st E Hw A N. pose proof (power_spectrum_weights_zeroed s q h w st E Hw A) as Z. split; [exact Z|].
  intros U. rewrite (U w Hw) in Z. rewrite Z in N. apply in_map_iff in N. destruct N as [v [Hv _]]. destruct v; discriminate.
Qed.
Print Assumptions C217_refuted.
(** an image HDU (array 0) with weights (array 1), and a VCA with a blank pixel that is zeroed in a copy *)
Definition two : store := [[Fin 1; NaN; Fin 3]; [Fin 1; Fin 1; NaN]].
Example C217_nonvacuous :
  source_exists two (ImageHDU 0 7) /\ (1 < length two)%nat /\ is_ok (header_rule (ImageHDU 0 7) false None) = true /\ In NaN (read two 1) /\
  snd (construct (CVca (ImageHDU 0 7) false None) two) = Ok (mk_obj 2 [] (Some 7%nat)) /\
  read (fst (construct (CVca (ImageHDU 0 7) false None) two)) 2 = [Fin 1; Fin 0; Fin 3] /\
  read (fst (construct (CVca (ImageHDU 0 7) false None) two)) 0 = [Fin 1; NaN; Fin 3].
Proof. cbn. repeat split; auto. Qed.

(** C218: the data kept: blanks are zeros for the Fourier statistics, and left blank for the
    others; every other pixel is the given one. *)
Theorem C218_blanks : forall c st st' o t r,
  source_exists st (source_of c) -> (forall s q h w, c = CPowerSpectrum s q h (Some w) -> (w < length st)%nat) ->
  construct c st = (st', Ok o) -> treatment c = Some t -> array_of (source_of c) = Some r ->
  read st' (o_data o) = treat t (read st r).
Proof. exact construct_data. Qed.
Print Assumptions C218_blanks.
(** The three maps of MVC: only a pixel that is blank in all of them becomes zero. *)
Theorem C218_mvc_partial : forall sc h sm sl st st' o c m l,
  source_exists st sc -> source_exists st sm -> source_exists st sl ->
  array_of sc = Some c -> array_of sm = Some m -> array_of sl = Some l ->
  construct (CMvc sc h sm sl) st = (st', Ok o) ->
  let clean := cleaned (read st c) (read st m) (read st l) in
  exists m' l', o_other o = [m'; l'] /\
    read st' (o_data o) = clean (read st c) /\ read st' m' = clean (read st m) /\ read st' l' = clean (read st l).
Proof. exact mvc_data. Qed.
Print Assumptions C218_mvc_partial.
Lemma cleaned_keeps_blank ca mo li i : length ca = length mo -> length ca = length li -> (i < length ca)%nat ->
  nth i ca (Fin 0) = NaN -> nth i mo (Fin 0) <> NaN -> nth i (cleaned ca mo li ca) (Fin 0) = NaN.
Proof.
  assert (G : forall ca mo li l, length ca = length mo -> length ca = length li -> length ca = length l -> forall i, (i < length ca)%nat ->
    nth i mo (Fin 0) <> NaN -> nth i (cleaned ca mo li l) (Fin 0) = nth i l (Fin 0)).
  { clear. induction ca as [|c ca IH]; intros [|m mo] [|w li] [|v l] L1 L2 L3 i Hi Hm; try discriminate; [cbn in Hi; lia|].
    destruct i as [|i]; cbn in *; [destruct c, m, w; try reflexivity; now destruct Hm|]. apply IH; auto; lia. }
  intros L1 L2 Hi Hc Hm. rewrite (G ca mo li ca) by auto. exact Hc.
Qed.
(** A pixel blank in the centroid but not in the moment 0 map stays blank. *)
Theorem C218_mvc_refuted : forall sc h sm sl st st' o c m l i,
  source_exists st sc -> source_exists st sm -> source_exists st sl ->
  array_of sc = Some c -> array_of sm = Some m -> array_of sl = Some l ->
  length (read st c) = length (read st m) -> length (read st c) = length (read st l) ->
  construct (CMvc sc h sm sl) st = (st', Ok o) ->
  (i < length (read st c))%nat -> nth i (read st c) (Fin 0) = NaN -> nth i (read st m) (Fin 0) <> NaN ->
  nth i (read st' (o_data o)) (Fin 0) = NaN.
Proof.
  intros sc h sm sl st st' o c m l i Ec Em El Ac Am Al L1 L2 H Hi Hc Hm.
  destruct (mvc_data sc h sm sl st st' o c m l Ec Em El Ac Am Al H) as [m' [l' [_ [D _]]]].
  rewrite D. now apply cleaned_keeps_blank.
Qed.
Print Assumptions C218_mvc_refuted.
Definition maps : store := [[NaN; NaN; Fin 3]; [NaN; Fin 5; Fin 6]; [NaN; Fin 1; NaN]].
Example C218_nonvacuous :
  let run := construct (CMvc (ImageHDU 0 7) None (Array 1) (Array 2)) maps in
  snd run = Ok (mk_obj 3 [4%nat; 5%nat] (Some 7%nat)) /\ read (fst run) 3 = [Fin 0; NaN; Fin 3] /\
  read (fst run) 4 = [Fin 0; Fin 5; Fin 6] /\ nth 1 (read maps 0) (Fin 0) = NaN /\ nth 1 (read maps 1) (Fin 0) <> NaN.
Proof. cbn. repeat split; auto. discriminate. Qed.
Example C218_nonvacuous_kept :
  snd (construct (CScf (ImageHDU 0 7) false None) two) = Ok (mk_obj 0 [] (Some 7%nat)) /\
  snd (construct (CBispectrum (Array 0)) two) = Ok (mk_obj 2 [] None) /\
  treatment (CScf (ImageHDU 0 7) false None) = Some Kept /\ treatment (CBispectrum (Array 0)) = Some Zeroed.
Proof. cbn. auto. Qed.

(** The values of PDF. *)
Theorem C218_pdf : forall s m st st' o r, array_of s = Some r -> construct (CPdf s m None) st = (st', Ok o) ->
  read st' (o_data o) = filter (used m) (read st r).
Proof. exact pdf_unweighted. Qed.
Print Assumptions C218_pdf.
Theorem C218_pdf_weighted : forall s m ws st r w, source_exists st ws -> source_exists st s -> array_of s = Some r -> array_of ws = Some w ->
  (length (read st w) = length (read st r) ->
   exists st' o, construct (CPdf s m (Some ws)) st = (st', Ok o) /\ read st' (o_data o) = pdf_values m (read st r) (read st w)) /\
  (length (read st w) <> length (read st r) -> snd (construct (CPdf s m (Some ws)) st) = Err IndexError).
Proof. exact pdf_weighted. Qed.
Print Assumptions C218_pdf_weighted.
Example C218_nonvacuous_pdf : (pdf_values NInf (read two 0) (read two 1) = [Fin (1 * 1)]) /\ (filter (used NInf) (read two 0) = [Fin 1; Fin 3]) /\ source_exists two (Array 0) /\ source_exists two (Array 1) /\ length (read two 1) = length (read two 0).
Proof. cbn. repeat split; auto. Qed.

(** C219: the weighted image of PowerSpectrum. *)
Theorem C219_weighted : forall s q h w st r n, source_exists st s -> (w < length st)%nat -> header_rule s q h = Ok (r, n) ->
  Forall blankable (read st r) -> Forall blankable (read st w) ->
  (length (read st w) = length (read st r) ->
   exists st' o wd, construct (CPowerSpectrum s q h (Some w)) st = (st', Ok o) /\ o_other o = [wd] /\
     read st' wd = map2 weighted (read st r) (read st w)) /\
  (length (read st w) <> length (read st r) -> snd (construct (CPowerSpectrum s q h (Some w)) st) = Err IndexError).
Proof. exact weighted_data_value. Qed.
Print Assumptions C219_weighted.
Theorem C219_unweighted : forall s q h st st' o r n, source_exists st s -> header_rule s q h = Ok (r, n) ->
  Forall blankable (read st r) -> construct (CPowerSpectrum s q h None) st = (st', Ok o) ->
  exists wd, o_other o = [wd] /\ read st' wd = blanks_to_zero (read st r).
Proof. exact unweighted_data_value. Qed.
Print Assumptions C219_unweighted.
Example C219_nonvacuous : header_rule (ImageHDU 0 7) false None = Ok (0%nat, 7%nat) /\
  Forall blankable (read two 0) /\ Forall blankable (read two 1) /\ length (read two 1) = length (read two 0) /\
  map2 weighted (read two 0) (read two 1) = [Fin (1 * 1); Fin 0; Fin 0].
Proof. cbn. repeat split; repeat constructor. Qed.

(** C220: which data and headers are accepted, and which header the statistic has. *)
Theorem C220_header : forall c st q h, header_arg c = Some (q, h) ->
  match header_rule (source_of c) q h with
  | Err e => construct c st = (st, Err e)
  | Ok (r, n) => forall st' o, construct c st = (st', Ok o) -> o_header o = Some n
  end.
Proof. exact construct_header. Qed.
Print Assumptions C220_header.
Theorem C220_accepts : forall c st q h, header_arg c = Some (q, h) -> source_exists st (source_of c) ->
  is_ok (header_rule (source_of c) q h) = true ->
  (forall s q h w, c <> CPowerSpectrum s q h (Some w)) -> (forall s q h w, c <> CDeltaVariance s q h (Some w)) ->
  (forall s q h w, c <> CStatMoments s q h (Some w)) ->
  exists st' o, construct c st = (st', Ok o).
Proof. exact construct_accepts. Qed.
Print Assumptions C220_accepts.
(** a given header wins over that of the data; an array alone is refused; an array with a header is accepted *)
Example C220_nonvacuous :
  header_rule (ImageHDU 0 7) false (Some (IHeader 9)) = Ok (0%nat, 9%nat) /\
  header_rule (Array 0) false None = Err ValueError /\
  header_rule (Array 0) false (Some (IHeader 9)) = Ok (0%nat, 9%nat) /\
  header_rule (Sequence [IArray 0; IHeader 3]) false None = Ok (0%nat, 3%nat) /\
  header_rule (Array 0) false (Some IOther) = Err TypeError /\
  snd (construct (CTsallis (Array 0) false (Some (IHeader 9))) two) = Ok (mk_obj 0 [] (Some 9%nat)).
Proof. cbn. auto 10. Qed.

(** C221: Genus. *)
Theorem C221_header_partial : forall s st r n, array_of s = Some r -> header_of s = Some n -> (forall r h, s <> LowerDim r h) ->
  exists o, construct (CGenus s) st = (st, Ok o) /\ o_header o = Some n.
Proof. exact genus_header. Qed.
Print Assumptions C221_header_partial.
(** The header of a Projection or Slice is lost, as if a plain array had been given. *)
Theorem C221_refuted : forall r n st, header_of (LowerDim r n) = Some n /\
  exists o, construct (CGenus (LowerDim r n)) st = (st, Ok o) /\ o_header o = None /\
  construct (CGenus (Array r)) st = (st, Ok o).
Proof.
  intros r n st. split; [reflexivity|]. eexists. split; [reflexivity|]. split; reflexivity.
Qed.
Print Assumptions C221_refuted.
Example C221_nonvacuous : snd (construct (CGenus (ImageHDU 0 7)) two) = Ok (mk_obj 0 [] (Some 7%nat)) /\
  snd (construct (CGenus (LowerDim 0 7)) two) = Ok (mk_obj 0 [] None).
Proof. cbn. auto. Qed.

(** C222: the beam after any history of load_beam calls is the last one that was given or found. *)
Theorem C222_beam : forall header from_header calls beam,
  beam_after header from_header beam calls = last_some beam (map (beam_found header from_header) calls).
Proof. exact (fun header from_header calls beam => load_beam_history header from_header calls beam). Qed.
Print Assumptions C222_beam.
Theorem C222_wrong_type : forall header from_header beam, load_beam header from_header beam NotABeam = Err TypeError.
Proof. reflexivity. Qed.
Print Assumptions C222_wrong_type.
Example C222_nonvacuous :
  beam_after (Some 7%nat) (fun h => if Nat.eqb h 7 then Some 70%nat else None) None [NoBeam; ABeam 5; NotABeam] = Some 5%nat /\
  beam_after (Some 7%nat) (fun h => if Nat.eqb h 7 then Some 70%nat else None) None [ABeam 5; NoBeam] = Some 70%nat /\
  beam_after None (fun h => None) (Some 3%nat) [NoBeam; NotABeam] = Some 3%nat.
Proof. cbn. auto. Qed.
