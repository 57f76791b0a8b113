(** Proofs about Model/RunOptions.v (C259, C260). *)
From Coq Require Import Reals String List Arith Bool Lia Lra.
From Verif Require Import Lib.PyBase Model.FitUtils Model.Kwargs Model.RunOptions Spec.Kwargs Spec.RunOptions Proofs.Kwargs_Proofs Proofs.Kwargs2_Proofs Proofs.Kwargs3_Proofs.
Import ListNotations.
Local Open Scope string_scope.
Local Open Scope list_scope.

(** Value of a parameter with a default *)
Lemma bound_arg : forall s e x a m k d, bind_args s e x = Ok (a, m) -> find (fun p => String.eqb k (fst p)) (s_params s) = Some (k, Some d) ->
  get a k = Some (chosen (e ++ x) k d) /\ arg a k = chosen (e ++ x) k d.
Proof.
  intros s e x a m k d B F. destruct (bind_ok_args _ _ _ _ _ B) as [Ba _]. unfold arg. rewrite Ba, F. cbn. unfold chosen. destruct (get (e ++ x) k); auto.
Qed.
Lemma chosen_self : forall e k d, k <> "self" -> chosen (self :: e) k d = chosen e k d.
Proof. intros e k d N. unfold chosen. cbn. destruct (String.eqb_spec k "self"); [contradiction|reflexivity]. Qed.

(** Steps that are not among the first three *)
Definition late (f : string) : Prop := In f ["fit_model"; "residual_bootstrap"; "plot"].
Definition named (f : string) (l : list event) : list event := filter (fun c => String.eqb (e_fun c) f) l.
Lemma step_one : forall o f s e x w w' u, (_ <~ step o f s e x ; ret tt) w = (w', Ok u) ->
  exists a m, bind_args s e x = Ok (a, m) /\ w' = mk_w (heap w) (steps w ++ [ev o f a m]).
Proof.
  intros o f s e x w w' u H. apply thent_ok in H as (w1 & [a m] & H1 & H2). injection H2 as <- _. apply step_ok in H1 as (B & ->). eauto.
Qed.
Definition convolve_given (pyfftw : bool) (k : kind) (h : list dict) (a : dict) : dict :=
  match k with
  | DELTA => [("array", VObj 0); ("kernel", VObj 0); ("normalize_kernel", VBool true); ("fftn", fft_of pyfftw h (arg a "use_pyfftw"));
          ("ifftn", fft_of pyfftw h (arg a "use_pyfftw")); ("boundary", arg a "boundary"); ("fill_value", match arg a "nan_treatment" with VStr s => if String.eqb s "fill" then VNum 0 else VObj 12 | _ => VObj 12 end);
          ("allow_huge", arg a "allow_huge"); ("nan_treatment", arg a "nan_treatment")]
  | WAVELET => [("array", VObj 0); ("kernel", VObj 0); ("normalize_kernel", VBool false); ("fftn", fft_of pyfftw h (arg a "use_pyfftw"));
          ("ifftn", fft_of pyfftw h (arg a "use_pyfftw")); ("nan_treatment", VStr "fill"); ("preserve_nan", VBool true)]
  end.
Lemma convolve_ok : forall py k o a w w' u, convolve py k o a w = (w', Ok u) -> exists va vm d, bind_args convolve_sig (convolve_given py k (heap w) a) d = Ok (va, vm) /\
  w' = mk_w (heap w) (steps w ++ [ev o "convolve_fft" va vm]) /\ match k with DELTA => d = [] | WAVELET => exists r, arg a "convolve_kwargs" = VDict r /\ d = look (heap w) r end.
Proof.
  intros py k o a w w' u H. destruct k; unfold convolve in H.
  - apply step_one in H as (va & vm & B & ->). exists va, vm, []. auto.
  - apply thent_ok in H as (w1 & d & M & H). apply mapping_ok in M as (-> & r & E & ->). apply step_one in H as (va & vm & B & ->). exists va, vm, (look (heap w) r). split; [exact B|]. split; [reflexivity|]. eauto.
Qed.
Definition segmented_given (k : kind) (a more : dict) : dict :=
  set_key "cov_type" (VStr "HC3") (match k with DELTA => set_key "verbose" (arg a "verbose") more | WAVELET => more end).
Definition seg_calls (k : kind) (o : nat) (fa fm : dict) (l : list event) : Prop :=
  (arg fa "brk" = VNone -> l = []) /\ (arg fa "brk" <> VNone -> exists la lm, bind_args lm_seg_sig [self] (segmented_given k fa fm) = Ok (la, lm) /\ l = [ev o "fit_model" la lm]).
Lemma fit_body_ok : forall k o fa fm w w' u, fit_body k o fa fm w = (w', Ok u) -> heap w' = heap w /\ exists tail, steps w' = steps w ++ tail /\
  Forall (fun c => In (e_fun c) ["fit_model"; "residual_bootstrap"] /\ e_of c = o) tail /\ seg_calls k o fa fm (named "fit_model" tail).
Proof.
  intros k o fa fm w w' u H. unfold fit_body in H. apply thent_ok in H as (w1 & u1 & H1 & H2).
  assert (A : heap w1 = heap w /\ exists t1, steps w1 = steps w ++ t1 /\ Forall (fun c => In (e_fun c) ["fit_model"; "residual_bootstrap"] /\ e_of c = o) t1 /\ named "fit_model" t1 = t1 /\ seg_calls k o fa fm t1).
  { assert (D : arg fa "brk" = VNone \/ arg fa "brk" <> VNone) by (destruct (arg fa "brk"); (now left) || (right; discriminate)). destruct D as [D|D].
    - rewrite D in H1. injection H1 as <- _. split; [reflexivity|]. exists []. rewrite app_nil_r. split; [reflexivity|]. split; [constructor|]. split; [reflexivity|]. split; [reflexivity|]. intros N. now contradiction N.
    - assert (H1' : (_ <~ step o "fit_model" lm_seg_sig [self] (segmented_given k fa fm) ; ret tt) w = (w1, Ok u1)) by (destruct (arg fa "brk"); [now contradiction D|exact H1..]).
      apply step_one in H1' as (la & lm & B & ->). split; [reflexivity|]. exists [ev o "fit_model" la lm]. split; [reflexivity|]. split; [constructor; [split; [cbn; auto|reflexivity]|constructor]|]. split; [reflexivity|]. split; [intros N; contradiction|]. intros _. eauto. }
  destruct A as (Hh & t1 & S1 & F1 & N1 & C1). destruct (truthy (heap w1) (arg fa "bootstrap")).
  - apply thent_ok in H2 as (w2 & d & M & H2). apply mapping_ok in M as (-> & r & E & ->). apply step_one in H2 as (ba & bm & B & ->). split; [exact Hh|].
    exists (t1 ++ [ev o "residual_bootstrap" ba bm]). cbn [steps]. rewrite S1, <- app_assoc. split; [reflexivity|]. split; [apply Forall_app; split; [exact F1|constructor; [split; [cbn; auto|reflexivity]|constructor]]|].
    unfold named in *. rewrite filter_app, N1. cbn. now rewrite app_nil_r.
  - injection H2 as <- _. split; [exact Hh|]. exists t1. rewrite N1. auto.
Qed.
Lemma run_trace : forall py k o e x w w' u, run py k o e x w = (w', Ok u) ->
  exists a am ca cm va vm d rf fa fm tail, bind_args (run_sig k) (self :: e) x = Ok (a, am) /\
    bind_args (compute_sig k) (self :: compute_args k a) [] = Ok (ca, cm) /\
    bind_args convolve_sig (convolve_given py k (heap w) ca) d = Ok (va, vm) /\ match k with DELTA => d = [] | WAVELET => exists r, arg ca "convolve_kwargs" = VDict r /\ d = look (heap w) r end /\
    arg a "fit_kwargs" = VDict rf /\ bind_args (fit_sig k) (self :: fit_args k a) (look (heap w) rf) = Ok (fa, fm) /\ heap w' = heap w /\
    steps w' = steps w ++ [ev o (compute_name k) ca cm; ev o "convolve_fft" va vm; ev o (fit_name k) fa fm] ++ tail /\
    Forall (fun c => late (e_fun c) /\ e_of c = o) tail /\ seg_calls k o fa fm (named "fit_model" tail).
Proof.
  intros py k o e x w w' u H. unfold run in H. apply thent_ok in H as (w0 & [a am] & B & H). unfold lift in B. injection B as <- B. cbn [fst snd] in H.
  apply thent_ok in H as (w1 & [ca cm] & S1 & H). apply step_ok in S1 as (Bc & ->). cbn [fst] in H.
  apply thent_ok in H as (w2 & u2 & S2 & H). apply convolve_ok in S2 as (va & vm & d & Bv & -> & D). cbn [heap steps] in *.
  apply thent_ok in H as (w3 & fk & M & H). apply mapping_ok in M as (-> & rf & Ef & ->). cbn [heap] in H.
  apply thent_ok in H as (w4 & [fa fm] & S4 & H). apply step_ok in S4 as (Bf & ->). cbn [fst snd heap steps] in H.
  apply thent_ok in H as (w5 & u5 & S5 & H). apply fit_body_ok in S5 as (H5 & tail & T5 & F5 & C5). cbn [heap steps] in *.
  exists a, am, ca, cm, va, vm, d, rf, fa, fm. assert (F5' : Forall (fun c => late (e_fun c) /\ e_of c = o) tail).
  { eapply Forall_impl; [|exact F5]. intros c [[A|[A|[]]] Q]; (split; [|exact Q]); rewrite <- A; unfold late; cbn; auto. }
  destruct (truthy (heap w5) (arg a "verbose")).
  - apply step_one in H as (pa & pm & Bp & ->). exists (tail ++ [ev o "plot" pa pm]). cbn [heap steps]. repeat (split; [assumption|]). split; [rewrite T5, <- !app_assoc; reflexivity|].
    split; [apply Forall_app; split; [exact F5'|constructor; [split; [unfold late; cbn; auto|reflexivity]|constructor]]|]. unfold named in *. rewrite filter_app. cbn [filter e_fun]. change (String.eqb "plot" "fit_model") with false. cbn. now rewrite app_nil_r.
  - injection H as <- _. exists tail. repeat (split; [assumption|]). split; [rewrite T5, <- !app_assoc; reflexivity|]. auto.
Qed.

(** ** Which options reach which step *)
Lemma late_names : forall o f l, ~ late f -> Forall (fun c => late (e_fun c) /\ e_of c = o) l -> forall o', filter (fun c => Nat.eqb (e_of c) o' && String.eqb (e_fun c) f) l = [].
Proof.
  intros o f l N F o'. induction F as [|c l [A B] F IH]; [reflexivity|]. cbn [filter]. destruct (String.eqb_spec (e_fun c) f) as [E|E]; [rewrite E in A; contradiction|]. rewrite andb_false_r. exact IH.
Qed.
Ltac not_late := unfold late; cbn; intros ?Q; repeat (destruct Q as [Q|Q]; [discriminate|]); exact Q.
Lemma calls_compute : forall k o ca cm va vm fa fm tail w w', Forall (fun c => late (e_fun c) /\ e_of c = o) tail ->
  steps w' = steps w ++ [ev o (compute_name k) ca cm; ev o "convolve_fft" va vm; ev o (fit_name k) fa fm] ++ tail ->
  new_calls w w' o (compute_name k) [ev o (compute_name k) ca cm] /\ new_calls w w' o (fit_name k) [ev o (fit_name k) fa fm] /\
  new_calls w w' o "convolve_fft" [ev o "convolve_fft" va vm] /\ new_calls w w' o "fit_model" (named "fit_model" tail).
Proof.
  intros k o ca cm va vm fa fm tail w w' F E.
  assert (N : forall f, ~ late f -> filter (fun c => Nat.eqb (e_of c) o && String.eqb (e_fun c) f) tail = []) by (intros f Nf; now apply (late_names o)).
  assert (T : filter (fun c => Nat.eqb (e_of c) o && String.eqb (e_fun c) "fit_model") tail = named "fit_model" tail).
  { unfold named. clear -F. induction F as [|c l [A B] F IH]; [reflexivity|]. cbn [filter]. rewrite B, Nat.eqb_refl, IH. reflexivity. }
  repeat split; (eexists; split; [exact E|]); rewrite filter_app; [rewrite N by (destruct k; not_late)|rewrite N by (destruct k; not_late)|rewrite N by not_late|rewrite T];
    cbn [filter e_of e_fun]; rewrite !Nat.eqb_refl; destruct k; reflexivity.
Qed.
Ltac each_option H := cbn in H; repeat (destruct H as [H|H]; [|]); try contradiction.
Lemma run_arg : forall k e x a am n v, bind_args (run_sig k) (self :: e) x = Ok (a, am) -> In (n, v) (transform_table k ++ fit_table k ++ [("fit_kwargs", VDict 0)]) -> arg a n = chosen (e ++ x) n v.
Proof.
  intros k e x a am n v B Hin. destruct (bind_ok_args _ _ _ _ _ B) as [Ba _]. unfold arg, chosen.
  destruct k; each_option Hin; injection Hin as <- <-; rewrite Ba; cbn; destruct (get (e ++ x) _); reflexivity.
Qed.
Lemma transform_gets : forall k o e x a am ca cm, bind_args (run_sig k) (self :: e) x = Ok (a, am) -> bind_args (compute_sig k) (self :: compute_args k a) [] = Ok (ca, cm) ->
  gets (ev o (compute_name k) ca cm) (transform_table k) (e ++ x).
Proof.
  intros k o e x a am ca cm B Bc n v Hin. cbn [e_args].
  assert (A : arg a n = chosen (e ++ x) n v) by (apply (run_arg k e x a am); [exact B|apply in_or_app; now left]).
  rewrite <- A. destruct (bind_ok_args _ _ _ _ _ Bc) as [Ba _]. rewrite Ba. destruct k; each_option Hin; injection Hin as <- _; reflexivity.
Qed.
Lemma fit_gets : forall k o e x a am rf h fa fm, bind_args (run_sig k) (self :: e) x = Ok (a, am) -> arg a "fit_kwargs" = VDict rf -> nth 0 h [] = [] ->
  bind_args (fit_sig k) (self :: fit_args k a) (look h rf) = Ok (fa, fm) ->
  gets (ev o (fit_name k) fa fm) (fit_table k) (e ++ x) /\ gets (ev o (fit_name k) fa fm) (fit_dict_table k) (options_in h (e ++ x) "fit_kwargs").
Proof.
  intros k o e x a am rf h fa fm B Ef H0 Bf. split; intros n v Hin; cbn [e_args]; destruct (bind_ok_args _ _ _ _ _ Bf) as [Ba _]; rewrite Ba.
  - assert (A : arg a n = chosen (e ++ x) n v) by (apply (run_arg k e x a am); [exact B|apply in_or_app; right; apply in_or_app; now left]).
    rewrite <- A. destruct k; each_option Hin; injection Hin as <- _; reflexivity.
  - assert (A : arg a "fit_kwargs" = chosen (e ++ x) "fit_kwargs" (VDict 0)) by (apply (run_arg k e x a am); [exact B|apply in_or_app; right; apply in_or_app; right; now left]).
    rewrite (options_look h (e ++ x) "fit_kwargs" rf H0) by congruence. unfold chosen. destruct k; each_option Hin; injection Hin as <- <-; cbn; destruct (get (look h rf) _); reflexivity.
Qed.
Lemma run_reaches : forall py k o e x w w' u, run py k o e x w = (w', Ok u) -> nth 0 (heap w) [] = [] -> ran_with w w' k o (e ++ x).
Proof.
  intros py k o e x w w' u H H0. destruct (run_trace _ _ _ _ _ _ _ _ H) as (a & am & ca & cm & va & vm & d & rf & fa & fm & tail & B & Bc & _ & _ & Ef & Bf & _ & E & F & _).
  destruct (calls_compute k o ca cm va vm fa fm tail w w' F E) as (C1 & C2 & _ & _). split; eexists; (split; [eassumption|]).
  - now apply (transform_gets k o e x a am ca cm).
  - now apply (fit_gets k o e x a am rf (heap w) fa fm).
Qed.
