(** Proofs about Model/DeltaVarRun.v (C256-C258). *)
From Coq Require Import String Reals List ZArith Arith Bool Lia Lra.
From Verif Require Import Lib.PyBase Lib.Fl Lib.RSum Lib.Arr Spec.DeltaVar Spec.Components Spec.DeltaVarRun Model.Units Model.DeltaVar Model.FitState Model.DeltaVarRun
  Proofs.DeltaVar2_Proofs.
Import ListNotations.
Local Open Scope R_scope.

(** ** Runs *)
Lemma step_same pts_line boot st st2 b : let f := fit_step false 3 boot pts_line st b in let f2 := fit_step false 3 boot pts_line st2 b in
  t_slope f2 = t_slope f /\ t_slope_err f2 = t_slope_err f /\ t_brk f2 = t_brk f /\ ((exists b, t_brk f = Some (Some b)) -> t_brk_err f2 = t_brk_err f).
Proof.
  cbv zeta. unfold fit_step. destruct b as [[b be slopes errs bt below|]|]; [destruct (Nat.ltb below 3)| |]; cbn; repeat (split; [reflexivity|]); try reflexivity; intros [x X]; discriminate.
Qed.
Lemma run_fresh e o o2 c a : d_lags o = d_lags o2 -> d_lags o <> [] ->
  snd (run e o c a) = snd (run e o2 c a) /\
  (snd (run e o c a) = None -> same_results (fst (run e o c a)) (fst (run e o2 c a)) /\
     exists c', c_boundary c' = c_boundary c /\ c_others c' = c_others c /\ d_lags (fst (run e o c a)) = d_lags o /\ curve_of e (fst (run e o c a)) c').
Proof.
  intros L NL. unfold run, compute. rewrite <- L. destruct (d_lags o) as [|l0 ls] eqn:EL; [now contradiction NL|]. cbn [c_boundary c_keep c_others].
  destruct (known (c_boundary c)) eqn:K; cbn [also]; [|split; [reflexivity|discriminate]]. cbv zeta. set (c' := mk_copts (c_boundary c) false (c_others c)).
  unfold fit_plaw. cbn [d_lags d_curve d_kept d_range d_fit]. destruct (in_pixels (v_stat e) (f_xlow a)) as [lo|x]; [|split; [reflexivity|discriminate]].
  destruct (in_pixels (v_stat e) (f_xhigh a)) as [hi|x]; [|split; [reflexivity|discriminate]]. rewrite map_length, Nat.eqb_refl. cbn [negb]. cbv zeta.
  assert (F : forall b, let r := (mk_dvo (l0 :: ls) (Some (map (v_value e c') (l0 :: ls))) (append_to "_convolved_weights" [] (append_to "_convolved_arrays" [] (d_kept o))) (Some (given_or (fst (default_range (l0 :: ls))) lo, given_or (snd (default_range (l0 :: ls))) hi)) (fit_step false 3 (f_boot a) (v_line e (points lo hi (l0 :: ls) (map (v_value e c') (l0 :: ls))) (f_boot a)) (d_fit o) b)) in
     let r2 := (mk_dvo (l0 :: ls) (Some (map (v_value e c') (l0 :: ls))) (append_to "_convolved_weights" [] (append_to "_convolved_arrays" [] (d_kept o2))) (Some (given_or (fst (default_range (l0 :: ls))) lo, given_or (snd (default_range (l0 :: ls))) hi)) (fit_step false 3 (f_boot a) (v_line e (points lo hi (l0 :: ls) (map (v_value e c') (l0 :: ls))) (f_boot a)) (d_fit o2) b)) in
     same_results r r2 /\ exists c1, c_boundary c1 = c_boundary c /\ c_others c1 = c_others c /\ d_lags r = l0 :: ls /\ curve_of e r c1).
  { intros b. cbv zeta. split.
    - unfold same_results. cbn [d_curve d_range d_fit]. split; [reflexivity|]. split; [reflexivity|].
      apply (step_same (v_line e (points lo hi (l0 :: ls) (map (v_value e c') (l0 :: ls))) (f_boot a)) (f_boot a) (d_fit o) (d_fit o2) b).
    - exists c'. repeat (split; [reflexivity|]). reflexivity. }
  destruct (in_pixels (v_stat e) (f_brk a)) as [[b|]|x]; [| |split; [reflexivity|discriminate]].
  - destruct (Rltb b _ || Rltb _ b); [split; [reflexivity|discriminate]|]. destruct (v_seg e _ _ _) as [s|x]; [|split; [reflexivity|discriminate]].
    split; [reflexivity|]. intros _. apply F.
  - split; [reflexivity|]. intros _. apply F.
Qed.

Lemma compute_lags e o c : d_lags (fst (compute e o c)) = d_lags o.
Proof. unfold compute. destruct (d_lags o) as [|l0 ls] eqn:E; [reflexivity|]. destruct (known _); cbn; auto. Qed.
Lemma fit_lags e o a : d_lags (fst (fit_plaw e o a)) = d_lags o /\ d_curve (fst (fit_plaw e o a)) = d_curve o.
Proof.
  unfold fit_plaw. destruct (d_curve o) as [cv|] eqn:EC; [|auto]. destruct (in_pixels _ _) as [lo|x]; [|auto]. destruct (in_pixels _ (f_xhigh a)) as [hi|x]; [|auto].
  cbv zeta. cbn [d_lags]. destruct (negb _); [auto|]. destruct (in_pixels _ (f_brk a)) as [[b|]|x]; cbn [fst d_lags d_curve]; auto.
  destruct (_ || _); [auto|]. destruct (v_seg e _ _ _); auto.
Qed.
Lemma known_good b : known b = true <-> b = "wrap"%string \/ b = "fill"%string.
Proof. unfold known. rewrite orb_true_iff, !String.eqb_eq. tauto. Qed.
Definition computed_curve (e : dv_env) (o : dvo) : Prop := d_curve o = None \/ exists c, curve_of e o c.
Lemma compute_curve e o c : known (c_boundary c) = true -> curve_of e (fst (compute e o c)) c.
Proof. intros K. unfold compute, curve_of. destruct (d_lags o) as [|l0 ls] eqn:E; [reflexivity|]. rewrite K. cbn [fst d_curve d_lags]. reflexivity. Qed.
Lemma history_curve e l : Forall keeps_lags l -> Forall good_boundary l -> forall o, computed_curve e o ->
  d_lags (history e o l) = d_lags o /\ computed_curve e (history e o l).
Proof.
  induction l as [|c l IH]; intros K G o C; [auto|]. inversion K as [|? ? K1 K2]; subst. inversion G as [|? ? G1 G2]; subst. cbn [history].
  assert (H : d_lags (fst (do_call e o c)) = d_lags o /\ computed_curve e (fst (do_call e o c))).
  { destruct c as [x|x|x|c x]; cbn [do_call keeps_lags good_boundary] in *.
    - contradiction.
    - split; [apply compute_lags|]. right. exists x. apply compute_curve. now apply known_good.
    - destruct (fit_lags e o x) as [A B]. split; [exact A|]. unfold computed_curve, curve_of. rewrite A, B. exact C.
    - unfold run. set (c' := mk_copts (c_boundary c) false (c_others c)). pose proof (compute_curve e o c' (proj2 (known_good (c_boundary c)) G1)) as H. pose proof (compute_lags e o c') as L.
      destruct (compute e o c') as [p [y|]]; cbn [also fst] in *; [split; [exact L|right; now exists c']|].
      destruct (fit_lags e p x) as [A B]. split; [now rewrite A|]. right. exists c'. unfold curve_of. rewrite A, B. exact H. }
  destruct H as [H1 H2]. destruct (IH K2 G2 _ H2) as [A B]. split; [now rewrite A|exact B].
Qed.
Lemma history_new e la n o l : new_dv e la n = Ok o -> Forall keeps_lags l -> Forall good_boundary l ->
  d_lags (history e o l) = d_lags o /\ (d_curve (history e o l) = None \/ exists c, curve_of e (history e o l) c).
Proof.
  intros N K G. apply history_curve; auto. left. unfold new_dv in N. destruct (lags_of e la n); [|discriminate]. injection N as <-. reflexivity.
Qed.

(** ** What refused calls and new lags leave *)
Lemma fit_default e o curve boot : d_curve o = Some curve -> length curve = length (d_lags o) ->
  fit_plaw e o (mk_fargs None None None boot) =
  (mk_dvo (d_lags o) (d_curve o) (d_kept o) (Some (default_range (d_lags o))) (fit_step false 3 boot (v_line e (points None None (d_lags o) curve) boot) (d_fit o) None), None).
Proof.
  intros C L. unfold fit_plaw. rewrite C. cbn [in_pixels f_xlow f_xhigh f_brk f_boot]. cbv zeta. cbn [d_lags d_curve d_kept d_range d_fit given_or]. rewrite L, Nat.eqb_refl. cbn [negb].
  now destruct (default_range (d_lags o)).
Qed.
Lemma stale_curve e o c l boot : curve_of e o c -> lags_ok (v_side e) l = true -> length l = length (d_lags o) ->
  exists o1 o2, do_call e o (CSetLags l) = (o1, None) /\ d_lags o1 = l /\ d_curve o1 = Some (map (v_value e c) (d_lags o)) /\
    do_call e o1 (CFit (mk_fargs None None None boot)) = (o2, None) /\ t_slope (d_fit o2) = Some [fst (v_line e (points None None l (map (v_value e c) (d_lags o))) boot)].
Proof.
  intros C K L. exists (mk_dvo l (d_curve o) (d_kept o) (d_range o) (d_fit o)). eexists. cbn [do_call]. unfold set_lags. rewrite K. split; [reflexivity|]. split; [reflexivity|]. split; [exact C|].
  split; [|]. { apply (fit_default e (mk_dvo l (d_curve o) (d_kept o) (d_range o) (d_fit o)) (map (v_value e c) (d_lags o)) boot); cbn; [exact C|now rewrite map_length]. }
  reflexivity.
Qed.
Lemma other_number e o c l a lo hi : curve_of e o c -> lags_ok (v_side e) l = true -> length l <> length (d_lags o) ->
  in_pixels (v_stat e) (f_xlow a) = Ok lo -> in_pixels (v_stat e) (f_xhigh a) = Ok hi ->
  exists o1 o2 x, do_call e o (CSetLags l) = (o1, None) /\ do_call e o1 (CFit a) = (o2, Some x) /\ d_fit o2 = d_fit o /\
    d_range o2 = Some (given_or (fst (default_range l)) lo, given_or (snd (default_range l)) hi).
Proof.
  intros C K L A B. unfold curve_of in C. cbn [do_call]. unfold set_lags. rewrite K. eexists. eexists. eexists. split; [reflexivity|]. unfold fit_plaw. cbn [d_curve d_lags]. rewrite C, A, B. cbv zeta. cbn [d_lags].
  rewrite map_length. destruct (Nat.eqb_spec (length (d_lags o)) (length l)); [congruence|]. cbn [negb]. split; [reflexivity|]. cbn. auto.
Qed.
Lemma refused_boundary e o c : d_lags o <> [] -> c_boundary c <> "wrap"%string -> c_boundary c <> "fill"%string ->
  exists o', do_call e o (CCompute c) = (o', Some ValueError) /\ d_curve o' = Some (map (v_memory e) (seq 0 (length (d_lags o)))) /\ d_fit o' = d_fit o /\ d_range o' = d_range o.
Proof.
  intros L A B. cbn [do_call]. unfold compute. destruct (d_lags o) as [|l0 ls] eqn:EL; [now contradiction L|]. destruct (known (c_boundary c)) eqn:K.
  - apply known_good in K. tauto.
  - eexists. split; [reflexivity|]. cbn. auto.
Qed.
Lemma refused_break e o c lo hi b boot : curve_of e o c -> b < lo \/ hi < b ->
  exists o', do_call e o (CFit (mk_fargs (Some (mk_q [lo] pix)) (Some (mk_q [hi] pix)) (Some (mk_q [b] pix)) boot)) = (o', Some ValueError) /\
    d_range o' = Some (lo, hi) /\ d_fit o' = d_fit o /\ d_curve o' = d_curve o.
Proof.
  intros C H. unfold curve_of in C. cbn [do_call]. unfold fit_plaw. rewrite C. cbn [f_xlow f_xhigh f_brk f_boot in_pixels].
  assert (P : forall v, to_pixel (v_stat e) (mk_q [v] pix) = Ok (mk_q [v] pix)) by (intros; reflexivity). rewrite !P. cbn [bind q_vals hd given_or]. cbv zeta. cbn [d_lags d_curve d_kept d_range d_fit fst snd].
  rewrite map_length, Nat.eqb_refl. cbn [negb]. assert (E : Rltb b lo || Rltb hi b = true).
  { apply orb_true_iff. destruct H; [left; destruct (Rltb_spec b lo)|right; destruct (Rltb_spec hi b)]; auto; lra. }
  rewrite E. eexists. split; [reflexivity|]. cbn. auto.
Qed.

(** ** Kept arrays *)
Lemma attribute_append name n2 v l : attribute name (append_to n2 v l) = match attribute name l with Ok w => Ok (if String.eqb name n2 then w ++ v else w) | Err x => Err x end.
Proof.
  induction l as [|[m w] l IH]; [reflexivity|]. cbn [append_to attribute]. destruct (String.eqb_spec m n2) as [->|N]; cbn [attribute].
  - rewrite (String.eqb_sym name n2). destruct (String.eqb_spec n2 name) as [->|N2]; [reflexivity|]. destruct (attribute name l); reflexivity.
  - destruct (String.eqb_spec m name) as [->|N2]; [|exact IH]. destruct (String.eqb_spec name n2) as [E|_]; [now contradiction N|reflexivity].
Qed.
Lemma compute_attribute e o c name : attribute name (d_kept (fst (compute e o c))) = Err AttributeError <-> attribute name (d_kept o) = Err AttributeError.
Proof.
  unfold compute. destruct (d_lags o); [reflexivity|]. destruct (known _); cbn [fst d_kept]; [|reflexivity]. rewrite !attribute_append. destruct (attribute name (d_kept o)) as [w|x]; [|reflexivity].
  split; discriminate.
Qed.
Lemma fit_kept e o a : d_kept (fst (fit_plaw e o a)) = d_kept o.
Proof.
  unfold fit_plaw. destruct (d_curve o) as [cv|] eqn:EC; [|reflexivity]. destruct (in_pixels _ _) as [lo|x]; [|reflexivity]. destruct (in_pixels _ (f_xhigh a)) as [hi|x]; [|reflexivity].
  cbv zeta. destruct (negb _); [reflexivity|]. destruct (in_pixels _ (f_brk a)) as [[b|]|x]; cbn [fst d_kept]; auto. destruct (_ || _); [reflexivity|]. destruct (v_seg e _ _ _); reflexivity.
Qed.
Lemma run_kept e o c a : d_kept (fst (run e o c a)) = d_kept (fst (compute e o (mk_copts (c_boundary c) false (c_others c)))).
Proof. unfold run. destruct (compute e o _) as [p [x|]]; cbn [also fst]; [reflexivity|]. apply fit_kept. Qed.
Lemma never_read e la n o l : new_dv e la n = Ok o -> convolve_arrays (history e o l) = Err AttributeError /\ convolve_weights (history e o l) = Err AttributeError.
Proof.
  intros N. unfold convolve_weights. change (attribute "_convolve_arrays" (d_kept (history e o l))) with (convolve_arrays (history e o l)).
  assert (H : convolve_arrays (history e o l) = Err AttributeError); [|now split]. unfold convolve_arrays.
  assert (A : attribute "_convolve_arrays" (d_kept o) = Err AttributeError) by (unfold new_dv in N; destruct (lags_of e la n); [|discriminate]; injection N as <-; reflexivity).
  clear N. revert o A. induction l as [|c l IH]; intros o A; [exact A|]. cbn [history]. apply IH. destruct c as [x|x|x|c x]; cbn [do_call].
  - unfold set_lags. destruct (lags_ok _ _); exact A.
  - now apply compute_attribute.
  - now rewrite fit_kept.
  - rewrite run_kept. now apply compute_attribute.
Qed.
Definition keep (b : string) (k : nat) : call := CCompute (mk_copts b true k).
Lemma kept_once e la n o b k : new_dv e la n = Ok o -> b = "wrap"%string \/ b = "fill"%string -> d_lags o <> [] ->
  attribute "_convolved_arrays" (d_kept (history e o [keep b k])) = Ok (map (v_conv e (mk_copts b true k)) (d_lags o)) /\
  attribute "_convolved_arrays" (d_kept (history e o [keep b k; keep b k])) = Ok (map (v_conv e (mk_copts b true k)) (d_lags o) ++ map (v_conv e (mk_copts b true k)) (d_lags o)).
Proof.
  intros N B L. apply known_good in B. unfold new_dv in N. destruct (lags_of e la n) as [lags|]; [|discriminate]. injection N as <-. cbn [d_lags] in *.
  cbn [history do_call keep]. unfold compute at 1 2 3. cbn [d_lags]. destruct lags as [|l0 ls]; [now contradiction L|]. cbn [c_boundary c_keep]. rewrite ?B. cbn [fst d_kept d_lags].
  split; [reflexivity|]. try unfold compute. cbn [d_lags c_boundary c_keep]. rewrite ?B. cbn [fst d_kept]. reflexivity.
Qed.

(** ** Lags of the distance *)
Lemma map_scale_id l : map (fun v => 1 * v) l = l.
Proof. induction l as [|a l IH]; cbn; [reflexivity|]. rewrite IH. f_equal. ring. Qed.
Lemma pixel_lags_of e l v nl w : pixels_given l v -> lags_of e l nl = Ok w -> w = v.
Proof.
  intros [-> | ->]; unfold lags_of; cbn.
  - destruct (lags_ok _ _); [|discriminate]. now intros [= <-].
  - destruct (lags_ok _ _); [|discriminate]. now intros [= <-].
Qed.
Lemma pair_pixels scale is_list l v l1 l2 : 0 < scale -> pixels_given l v -> pair_lags scale is_list l = Ok (l1, l2) ->
  exists v1 v2, pixels_given l1 v1 /\ pixels_given l2 v2 /\ v1 = map (fun x => Rmax scale 1 * x) v /\ v2 = map (fun x => Rmax scale 1 / scale * x) v.
Proof.
  intros P G H. unfold pair_lags in H. destruct (Reqb_spec scale 1) as [->|N].
  - injection H as <- <-. exists v, v. split; [exact G|]. split; [exact G|]. rewrite Rmax_left by lra. replace (1 / 1) with 1 by field. rewrite map_scale_id. auto.
  - destruct (Rltb_spec 1 scale) as [Q|Q].
    + injection H as <- <-. rewrite Rmax_left by lra. exists (map (fun x => scale * x) v), v. split; [destruct G as [-> | ->]; [now left|now right]|]. split; [exact G|]. split; [reflexivity|].
      replace (scale / scale) with 1 by (field; lra). now rewrite map_scale_id.
    + rewrite Rmax_right by lra. replace (1 / scale) with (/ scale) by (field; lra). exists v, (map (fun x => / scale * x) v).
      destruct G as [-> | ->]; [destruct is_list; [discriminate|]|]; injection H as <- <-; (split; [(now left) || (now right)|]); (split; [(now left) || (now right)|]); rewrite map_scale_id; auto.
Qed.
Lemma common_angles e1 e2 s1 s2 is_list l v l1 l2 w1 w2 : pixel_size e1 s1 -> pixel_size e2 s2 -> pixels_given l v ->
  distance_lags e1 e2 (s2 / s1) is_list l = Ok (l1, l2) -> lags_of e1 l1 25 = Ok w1 -> lags_of e2 l2 25 = Ok w2 ->
  angles s1 w1 = angles (Rmax s1 s2) v /\ angles s2 w2 = angles (Rmax s1 s2) v.
Proof.
  intros [_ P1] [_ P2] G H W1 W2. assert (P : 0 < s2 / s1) by (apply Rdiv_lt_0_compat; lra).
  assert (H' : pair_lags (s2 / s1) is_list l = Ok (l1, l2)) by (unfold distance_lags in H; destruct G as [-> | ->]; exact H).
  destruct (pair_pixels _ _ _ _ _ _ P G H') as (v1 & v2 & G1 & G2 & E1 & E2). apply (pixel_lags_of e1 l1 v1 25) in W1; [|assumption]. apply (pixel_lags_of e2 l2 v2 25) in W2; [|assumption]. subst w1 w2 v1 v2.
  assert (M : Rmax (s2 / s1) 1 * s1 = Rmax s1 s2).
  { unfold Rmax. destruct (Rle_dec (s2 / s1) 1) as [A|A]; destruct (Rle_dec s1 s2) as [B|B].
    - apply Rmult_le_compat_r with (r := s1) in A; [|lra]. replace (s2 / s1 * s1) with s2 in A by (field; lra). lra.
    - ring.
    - field; lra.
    - exfalso. apply A. apply Rmult_le_reg_r with s1; [lra|]. replace (s2 / s1 * s1) with s2 by (field; lra). lra. }
  unfold angles. rewrite !map_map. split; apply map_ext; intros x.
  - rewrite <- M. ring.
  - rewrite <- M. field. lra.
Qed.
Lemma default_angles e1 e2 s1 s2 is_list l1 l2 w1 w2 : pixel_size e1 s1 -> pixel_size e2 s2 ->
  distance_lags e1 e2 (s2 / s1) is_list LNone = Ok (l1, l2) -> lags_of e1 l1 25 = Ok w1 -> lags_of e2 l2 25 = Ok w2 -> angles s1 w1 = angles s2 w2 /\ length w1 = 25%nat.
Proof.
  intros P1 P2 H W1 W2. set (v := logspace 3 (INR (if Nat.ltb (v_side e2) (v_side e1) then v_side e2 else v_side e1) / 2) 25).
  assert (H' : distance_lags e1 e2 (s2 / s1) is_list (LQuantity (mk_q v pix)) = Ok (l1, l2)) by exact H.
  destruct (common_angles e1 e2 s1 s2 is_list (LQuantity (mk_q v pix)) v l1 l2 w1 w2 P1 P2 (or_intror eq_refl) H' W1 W2) as [A B]. rewrite A, B. split; [reflexivity|].
  assert (C : length (angles s1 w1) = length (angles (Rmax s1 s2) v)) by now rewrite A. unfold angles in C. rewrite !map_length in C. rewrite C. unfold v, logspace, tab1. now rewrite map_length, seq_length.
Qed.
(** Lags as angles *)
Lemma angle_lags_of e s q nl w : pixel_size e s -> is_equivalent (q_unit q) deg = true -> lags_of e (LQuantity q) nl = Ok w ->
  angles s w = map (fun v => v * u_factor (q_unit q)) (q_vals q).
Proof.
  intros [HS P] U. unfold lags_of, to_pixel. destruct (is_equivalent (q_unit q) pix) eqn:UP.
  { exfalso. unfold is_equivalent in U, UP. cbn in U, UP. rewrite !andb_true_iff, !Z.eqb_eq in U, UP. lia. }
  rewrite U. unfold to_angular, ang_size. rewrite HS. cbn [bind]. unfold convert. rewrite UP. replace (is_equivalent (q_unit q) pix && is_equivalent pix deg) with false by (rewrite UP; reflexivity).
  rewrite U. change (is_equivalent pix pix) with true. cbn [andb bind q_vals]. destruct (lags_ok _ _); [|discriminate]. intros [= <-]. unfold angles. rewrite map_map. apply map_ext. intros v.
  rewrite Rabs_pos_eq by lra. cbn [u_factor pix deg]. field. lra.
Qed.
Lemma given_angles e1 e2 s1 s2 is_list q l1 l2 w1 w2 : pixel_size e1 s1 -> pixel_size e2 s2 -> is_equivalent (q_unit q) deg = true ->
  distance_lags e1 e2 (s2 / s1) is_list (LQuantity q) = Ok (l1, l2) -> lags_of e1 l1 25 = Ok w1 -> lags_of e2 l2 25 = Ok w2 ->
  let theta := map (fun v => v * u_factor (q_unit q)) (q_vals q) in
  angles s1 w1 = map (fun t => Rmax (s2 / s1) 1 * t) theta /\ angles s2 w2 = map (fun t => Rmax (s1 / s2) 1 * t) theta.
Proof.
  intros P1 P2 U H W1 W2. cbv zeta. pose proof P1 as [_ Q1]. pose proof P2 as [_ Q2]. unfold distance_lags, pair_lags in H. assert (I : s1 / s2 = / (s2 / s1)) by (field; lra).
  assert (P : 0 < s2 / s1) by (apply Rdiv_lt_0_compat; lra).
  destruct (Reqb_spec (s2 / s1) 1) as [E|N].
  - injection H as <- <-. rewrite (angle_lags_of e1 s1 q 25 w1 P1 U W1), (angle_lags_of e2 s2 q 25 w2 P2 U W2). rewrite I, E. replace (/ 1) with 1 by field. rewrite !Rmax_left by lra. rewrite map_scale_id. auto.
  - destruct (Rltb_spec 1 (s2 / s1)) as [Q|Q].
    + injection H as <- <-. rewrite Rmax_left by lra. rewrite (angle_lags_of e2 s2 q 25 w2 P2 U W2). pose proof (fun U => angle_lags_of e1 s1 _ 25 w1 P1 U W1) as A. cbn [q_vals q_unit] in A. rewrite (A U). split.
      * rewrite !map_map. apply map_ext. intros. ring.
      * rewrite I, Rmax_right; [symmetry; apply map_scale_id|]. rewrite <- Rinv_1. apply Rinv_le_contravar; lra.
    + injection H as <- <-. rewrite (Rmax_right (s2 / s1)) by lra. rewrite (angle_lags_of e1 s1 q 25 w1 P1 U W1). pose proof (fun U => angle_lags_of e2 s2 _ 25 w2 P2 U W2) as A. cbn [q_vals q_unit] in A. rewrite (A U). split.
      * symmetry. apply map_scale_id.
      * rewrite I, Rmax_left; [rewrite !map_map; apply map_ext; intros; ring|]. rewrite <- Rinv_1 at 1. apply Rinv_le_contravar; lra.
Qed.
Lemma list_refused e1 e2 s1 s2 v : 0 < s2 < s1 -> distance_lags e1 e2 (s2 / s1) true (LNumbers v) = Err TypeError.
Proof.
  intros [A B]. unfold distance_lags, pair_lags. assert (Q : s2 / s1 < 1) by (apply Rmult_lt_reg_r with s1; [lra|]; replace (s2 / s1 * s1) with s2 by (field; lra); lra).
  destruct (Reqb_spec (s2 / s1) 1); [lra|]. destruct (Rltb_spec 1 (s2 / s1)); [lra|reflexivity].
Qed.

(** ** A pair of maps of the same sky, with pixels of 1 and 2 degrees *)
Definition sky (t : R) : R := if Reqb t 24 then 8 else if Reqb t 12 then 2 else 1.
Definition toy (s : R) (side : nat) : dv_env :=
  mk_dv (mk_stat (Some s) None) side (fun _ lag => (Fin (sky (lag * s)), Fin 1)) (fun _ _ => []) (fun _ => (NaN, NaN)) (fun pts _ => (Fin (INR (length pts)), Fin 1))
    (fun pts b _ => if Rltb b 0 then Err ValueError else Ok Unbroken).
Definition wrap : copts := mk_copts "wrap" false 0.
Definition range_px (lo hi : R) : fargs := mk_fargs (Some (mk_q [lo] pix)) (Some (mk_q [hi] pix)) None false.
Lemma lags_ok_toy side l : Forall (fun v => 1 <= v <= INR side / 2) l -> lags_ok side l = true.
Proof.
  intros H. apply lags_ok_iff. intros v I. rewrite Forall_forall in H. destruct (H v I) as [A B]. split; [exact A|]. pose proof (base_Int_part v) as [C _].
  assert (0 < / 10 ^ 10) by (apply Rinv_0_lt_compat, pow_lt; lra). lra.
Qed.
Lemma ok_fine : lags_ok 48 [6; 12; 24] = true.
Proof. apply lags_ok_toy. cbn. repeat constructor; lra. Qed.
Lemma ok_coarse : lags_ok 24 [3; 6; 12] = true.
Proof. apply lags_ok_toy. cbn. repeat constructor; lra. Qed.
Lemma toy_lags : distance_lags (toy 1 48) (toy 2 24) 2 false (LNumbers [3; 6; 12]) = Ok (LNumbers [6; 12; 24], LNumbers [3; 6; 12]).
Proof.
  unfold distance_lags, pair_lags. destruct (Reqb_spec 2 1); [lra|]. destruct (Rltb_spec 1 2); [|lra]. cbn [map].
  replace (2 * 3) with 6 by lra. replace (2 * 6) with 12 by lra. replace (2 * 12) with 24 by lra. reflexivity.
Qed.
Lemma sky_fine : map (v_value (toy 1 48) wrap) [6; 12; 24] = [(Fin 1, Fin 1); (Fin 2, Fin 1); (Fin 8, Fin 1)].
Proof.
  cbn [map v_value toy]. unfold sky. destruct (Reqb_spec (6 * 1) 24); [lra|]. destruct (Reqb_spec (6 * 1) 12); [lra|]. destruct (Reqb_spec (12 * 1) 24); [lra|].
  destruct (Reqb_spec (12 * 1) 12); [|lra]. destruct (Reqb_spec (24 * 1) 24); [|lra]. reflexivity.
Qed.
Lemma sky_coarse : map (v_value (toy 2 24) wrap) [3; 6; 12] = [(Fin 1, Fin 1); (Fin 2, Fin 1); (Fin 8, Fin 1)].
Proof.
  cbn [map v_value toy]. unfold sky. destruct (Reqb_spec (3 * 2) 24); [lra|]. destruct (Reqb_spec (3 * 2) 12); [lra|]. destruct (Reqb_spec (6 * 2) 24); [lra|].
  destruct (Reqb_spec (6 * 2) 12); [|lra]. destruct (Reqb_spec (12 * 2) 24); [|lra]. reflexivity.
Qed.
Lemma run_range e lo hi l : l <> [] -> run e (mk_dvo l None [("_convolved_arrays"%string, []); ("_convolved_weights"%string, [])] None unfitted) wrap (range_px lo hi) =
  (mk_dvo l (Some (map (v_value e wrap) l)) [("_convolved_arrays"%string, []); ("_convolved_weights"%string, [])] (Some (lo, hi))
     (fit_step false 3 false (v_line e (points (Some lo) (Some hi) l (map (v_value e wrap) l)) false) unfitted None), None).
Proof.
  intros N. destruct l as [|l0 ls]; [now contradiction N|]. unfold run, compute. cbn [d_lags c_boundary c_keep c_others wrap]. change (known "wrap") with true. cbn [also]. cbv zeta.
  unfold fit_plaw, range_px. cbn [d_curve f_xlow f_xhigh f_brk f_boot in_pixels]. assert (P : forall v, to_pixel (v_stat e) (mk_q [v] pix) = Ok (mk_q [v] pix)) by (intros; reflexivity). rewrite !P.
  cbn [bind q_vals hd given_or d_lags]. rewrite map_length, Nat.eqb_refl. cbn [negb]. cbn [d_lags d_curve d_kept d_range d_fit]. reflexivity.
Qed.
Lemma toy_distance lo hi : exists o1 o2, data_distance (toy 1 48) (toy 2 24) 2 false (LNumbers [3; 6; 12]) wrap wrap (range_px lo hi) (range_px lo hi) =
    (d <- curve_distance true [Fin 1; Fin 2; Fin 8] [6; 12; 24] (lo, hi) [Fin 1; Fin 2; Fin 8] [3; 6; 12] (lo, hi) ;; Ok (o1, o2, d)) /\
  d_lags o1 = [6; 12; 24] /\ d_lags o2 = [3; 6; 12] /\ d_curve o1 = Some [(Fin 1, Fin 1); (Fin 2, Fin 1); (Fin 8, Fin 1)] /\ d_curve o2 = d_curve o1.
Proof.
  unfold data_distance. rewrite toy_lags. cbn [bind fst snd]. unfold new_dv, lags_of. cbn [bind v_side toy]. change (v_side (toy 1 48)) with 48%nat. rewrite ok_fine, ok_coarse. cbn [bind].
  rewrite !run_range by discriminate. cbn [d_curve d_range d_lags]. rewrite sky_fine, sky_coarse. cbn [map fst]. eexists. eexists. split; [reflexivity|]. cbn [d_lags d_curve]. auto.
Qed.
Lemma no_blanks a : Forall (fun v => 0 < v) a -> map blank_or_neg (map Fin a) = repeat false (length a).
Proof.
  induction 1 as [|x a P H IH]; [reflexivity|]. cbn [map repeat length]. rewrite IH. f_equal. unfold blank_or_neg. cbn. destruct (Rleb_spec x 0); [lra|reflexivity].
Qed.
Lemma or_false n : map2 orb (repeat false n) (repeat false n) = repeat false n.
Proof. induction n; cbn; [reflexivity|]. now rewrite IHn. Qed.
Lemma select_within lo hi a : forall lags, length lags = length a ->
  select (map Fin a) (map2 (fun c n => c && negb n) (map (fun l => Rleb lo l && Rleb l hi) lags) (repeat false (length a))) = map Fin (values_within lo hi lags (map Fin a)).
Proof.
  induction a as [|x a IH]; intros [|l lags] L; try discriminate; [reflexivity|]. injection L as L. cbn [map map2 repeat length select values_within].
  rewrite <- (IH lags L) || idtac. destruct (Rleb lo l), (Rleb l hi); cbn [andb negb map]; rewrite (IH lags L); reflexivity.
Qed.
Lemma within_pos lo hi a : Forall (fun v => 0 < v) a -> forall lags, Forall (fun v => 0 < v) (values_within lo hi lags (map Fin a)).
Proof.
  induction 1 as [|x a P H IH]; intros [|l lags]; cbn [map values_within]; try constructor. destruct (Rleb lo l); [destruct (Rleb l hi); [constructor|]|]; auto.
Qed.
Lemma pixel_limits a b lags1 lags2 lo hi : Forall (fun v => 0 < v) a -> Forall (fun v => 0 < v) b -> length b = length a -> length lags1 = length a -> length lags2 = length a ->
  let w1 := values_within lo hi lags1 (map Fin a) in let w2 := values_within lo hi lags2 (map Fin b) in
  curve_distance true (map Fin a) lags1 (lo, hi) (map Fin b) lags2 (lo, hi) =
  if Nat.eqb (length w1) (length w2) then Ok (Fin (l2_distance (log_share w1) (log_share w2))) else Err ValueError.
Proof.
  intros PA PB LB L1 L2. cbv zeta. unfold curve_distance. cbn [fst snd]. destruct (Reqb_spec lo lo); [|lra]. destruct (Reqb_spec hi hi); [|lra]. cbn [andb]. cbv zeta.
  rewrite !no_blanks by auto. rewrite LB, or_false. unfold normed_curve. cbv zeta. rewrite select_within by auto. rewrite <- LB. rewrite select_within by lia.
  rewrite !normed_log_share by now apply within_pos. rewrite !map_length, !log_share_length. destruct (Nat.eqb _ _); [|reflexivity]. now rewrite l2_fl.
Qed.
Ltac sel := repeat match goal with |- context [Rleb ?a ?b] => destruct (Rleb_spec a b); [try (exfalso; lra)|try (exfalso; lra)] end.
Lemma toy_limits : exists o1 o2 d, data_distance (toy 1 48) (toy 2 24) 2 false (LNumbers [3; 6; 12]) wrap wrap (range_px 5 13) (range_px 5 13) = Ok (o1, o2, Fin d) /\ 0 < d /\
  angles 1 (d_lags o1) = angles 2 (d_lags o2) /\ d_curve o1 = d_curve o2.
Proof.
  destruct (toy_distance 5 13) as (o1 & o2 & E & L1 & L2 & C1 & C2). exists o1, o2. rewrite E, L1, L2, C2.
  pose proof (pixel_limits [1; 2; 8] [1; 2; 8] [6; 12; 24] [3; 6; 12] 5 13) as P. cbv zeta in P. cbn [map] in P. rewrite P by (try reflexivity; repeat constructor; lra). clear P.
  assert (W1 : values_within 5 13 [6; 12; 24] [Fin 1; Fin 2; Fin 8] = [1; 2]) by (cbn [values_within]; sel; reflexivity).
  assert (W2 : values_within 5 13 [3; 6; 12] [Fin 1; Fin 2; Fin 8] = [2; 8]) by (cbn [values_within]; sel; reflexivity).
  rewrite W1, W2. cbn [length Nat.eqb bind]. eexists. split; [reflexivity|]. split; [|split; [unfold angles; cbn [map]; f_equal; [lra|f_equal; [lra|f_equal; lra]]|reflexivity]].
  unfold l2_distance, log_share. cbn [map map2 lsum fold_right]. apply sqrt_lt_R0.
  assert (T : 0 < ln 10) by (rewrite <- ln_1; apply ln_increasing; lra).
  assert (D : ln (2 / (2 + (8 + 0))) / ln 10 < ln (1 / (1 + (2 + 0))) / ln 10).
  { apply Rmult_lt_compat_r; [now apply Rinv_0_lt_compat|]. apply ln_increasing; lra. }
  set (u := ln (1 / (1 + (2 + 0))) / ln 10) in *. set (v := ln (2 / (2 + (8 + 0))) / ln 10) in *. assert (0 < (u - v) ^ 2) by (apply pow_lt; lra).
  pose proof (pow2_ge_0 (ln (2 / (1 + (2 + 0))) / ln 10 - ln (8 / (2 + (8 + 0))) / ln 10)). lra.
Qed.
Lemma toy_refused : data_distance (toy 1 48) (toy 2 24) 2 false (LNumbers [3; 6; 12]) wrap wrap (range_px 5 30) (range_px 5 30) = Err ValueError.
Proof.
  destruct (toy_distance 5 30) as (o1 & o2 & E & _). rewrite E.
  pose proof (pixel_limits [1; 2; 8] [1; 2; 8] [6; 12; 24] [3; 6; 12] 5 30) as P. cbv zeta in P. cbn [map] in P. rewrite P by (try reflexivity; repeat constructor; lra). clear P.
  assert (W1 : values_within 5 30 [6; 12; 24] [Fin 1; Fin 2; Fin 8] = [1; 2; 8]) by (cbn [values_within]; sel; reflexivity).
  assert (W2 : values_within 5 30 [3; 6; 12] [Fin 1; Fin 2; Fin 8] = [2; 8]) by (cbn [values_within]; sel; reflexivity).
  rewrite W1, W2. reflexivity.
Qed.
Lemma list_either e1 e2 s1 s2 v : 0 < s2 < s1 -> distance_lags e1 e2 (s2 / s1) true (LNumbers v) = Err TypeError /\ is_ok (distance_lags e2 e1 (s1 / s2) true (LNumbers v)) = true.
Proof.
  intros [A B]. split; [now apply list_refused|]. unfold distance_lags, pair_lags. assert (Q : 1 < s1 / s2) by (apply Rmult_lt_reg_r with s2; [lra|]; replace (s1 / s2 * s2) with s1 by (field; lra); lra).
  destruct (Reqb_spec (s1 / s2) 1); [lra|]. destruct (Rltb_spec 1 (s1 / s2)); [reflexivity|lra].
Qed.
Lemma angle_pixels e s l : pixel_size e s -> lags_ok (v_side e) (map (fun v => v / s) l) = true -> lags_of e (LQuantity (mk_q l deg)) 25 = Ok (map (fun v => v / s) l).
Proof.
  intros [HS P] K. unfold lags_of, to_pixel. cbn [q_unit q_vals]. change (is_equivalent deg pix) with false. change (is_equivalent deg deg) with true. unfold to_angular, ang_size. rewrite HS. cbn [bind].
  unfold convert. cbn [q_unit q_vals]. change (is_equivalent deg pix) with false. change (is_equivalent deg deg) with true. change (is_equivalent pix pix) with true. cbn [andb bind q_vals].
  assert (E : map (fun v => v * (u_factor deg / u_factor deg) / Rabs s * (u_factor pix / u_factor pix)) l = map (fun v => v / s) l).
  { apply map_ext. intros v. rewrite Rabs_pos_eq by lra. cbn [u_factor pix deg]. field. lra. }
  rewrite E, K. reflexivity.
Qed.
Lemma toy_angles : exists l1 l2, is_equivalent (q_unit (mk_q [6; 12] deg)) deg = true /\
  distance_lags (toy 1 48) (toy 2 24) (2 / 1) false (LQuantity (mk_q [6; 12] deg)) = Ok (l1, l2) /\
  lags_of (toy 1 48) l1 25 = Ok [12; 24] /\ lags_of (toy 2 24) l2 25 = Ok [3; 6].
Proof.
  assert (E1 : [12; 24] = map (fun v => v / 1) (map (fun v => 2 / 1 * v) [6; 12])) by (cbn [map]; f_equal; [lra|f_equal; lra]).
  assert (E2 : [3; 6] = map (fun v => v / 2) [6; 12]) by (cbn [map]; f_equal; [lra|f_equal; lra]).
  exists (LQuantity (mk_q (map (fun v => 2 / 1 * v) [6; 12]) deg)), (LQuantity (mk_q [6; 12] deg)). split; [reflexivity|]. split.
  - unfold distance_lags, pair_lags. destruct (Reqb_spec (2 / 1) 1); [lra|]. destruct (Rltb_spec 1 (2 / 1)); [|lra]. reflexivity.
  - rewrite E1, E2. split; apply angle_pixels; try (split; [reflexivity|lra]).
    + rewrite <- E1. apply lags_ok_toy. cbn. repeat constructor; lra.
    + rewrite <- E2. apply lags_ok_toy. cbn. repeat constructor; lra.
Qed.
