(** Proofs about Model/PdfRun.v. *)
From Coq Require Import String Reals List Bool ZArith Arith Lra Lia.
From Verif Require Import Lib.PyBase Lib.RSum Lib.Fl Lib.Arr Lib.Hist Spec.Distrib Model.StatsUtils Model.EllipPlaw Model.Pdf Model.PdfRun Spec.PdfRun Proofs.Fl_Proofs Proofs.Hist_Proofs Proofs.Pdf_Proofs.
Import ListNotations.
Local Open Scope R_scope.

Lemma ecdf_share l x : l <> [] -> ecdf l x = Fin (share_le l x).
Proof.
  intros H. unfold ecdf, share_le, count_le, fdiv. assert (P : INR (length l) <> 0) by (apply not_0_INR; destruct l; [contradiction|discriminate]). destruct (Reqb_spec (INR (length l)) 0); [contradiction|reflexivity].
Qed.
Lemma density_length d e : length (density d e) = (length e - 1)%nat.
Proof. unfold density. apply tab1_length. Qed.
Lemma hist_length d b h : histogram_fl d b = Ok h -> length (fst h) = length (mid (snd h)).
Proof.
  assert (K : forall r, histogram r b = Ok h -> length (fst h) = length (mid (snd h))).
  { intros r. unfold histogram. destruct (bin_edges r b) as [e|]; [|discriminate]. cbn [bind]. intros H. injection H as <-. cbn [fst snd]. rewrite density_length. unfold mid. now rewrite tab1_length. }
  unfold histogram_fl. destruct b; [destruct (forallb is_fin d); [|discriminate]|]; apply K.
Qed.

Section Object.
Variable l : list R.
Hypothesis ne : l <> [].
Notation data := (map Fin l).
Variable nm : (list R -> result fl) -> list R -> result (list R).
Variable bse : (list R -> result fl) -> list R -> result (list R).
Variable emcee : (list R -> result fl) -> list R -> result (list (list R)).
Notation do_make_pdf := (do_make_pdf data).
Notation do_make_ecdf := (do_make_ecdf data).
Notation do_percentile := (do_percentile data).
Notation do_fit_pdf := (do_fit_pdf nm bse emcee).
Notation do_run := (do_run data nm bse emcee).
Notation history := (history data nm bse emcee).

Lemma percentile_value o v r : snd (do_percentile o v) = Ok r -> r = Fin (100 * share_le l v).
Proof.
  unfold PdfRun.do_percentile. destruct (match o_ecdf o with None => do_make_ecdf o | Some _ => (o, None) end) as [o1 [e|]]; cbn [snd]; [discriminate|]. intros H. injection H as <-. unfold find_percentile.
  rewrite fins_Fin, ecdf_share by exact ne. cbn. f_equal. ring.
Qed.
Lemma make_pdf_ok o b o' : do_make_pdf o b = (o', None) -> exists c p, o_bins o' = Some (Edges c) /\ o_pdf o' = Some p /\ length p = length c /\ o_ecdf o' = o_ecdf o /\ same_fit o' o.
Proof.
  unfold PdfRun.do_make_pdf. destruct (histogram_fl data _) as [h|e] eqn:H; [|discriminate]. intros K. injection K as <-. exists (mid (snd h)), (fst h). cbn. split; [reflexivity|]. split; [reflexivity|]. split; [exact (hist_length _ _ _ H)|]. split; [reflexivity|]. repeat split; reflexivity.
Qed.
Lemma make_ecdf_ok o c p : o_bins o = Some (Edges c) -> o_pdf o = Some p -> exists o', do_make_ecdf o = (o', None) /\ o_bins o' = Some (Edges c) /\ o_pdf o' = Some p /\
  o_ecdf o' = Some (map (fun x => Fin (share_le l x)) c) /\ same_fit o' o.
Proof.
  intros B P. unfold PdfRun.do_make_ecdf. rewrite P. assert (D : forall A (y z : A), match data with [] => y | _ => z end = z) by (intros; destruct l; [contradiction|reflexivity]). rewrite D, B. clear D. eexists. split; [reflexivity|]. cbn [o_bins o_pdf o_ecdf].
  split; [reflexivity|]. split; [exact P|]. split; [|repeat split; reflexivity]. f_equal. apply map_ext. intros x. rewrite fins_Fin. apply ecdf_share. exact ne.
Qed.
Lemma fit_keeps o m t x : same_pdf (fst (do_fit_pdf o m t x)) o.
Proof.
  unfold PdfRun.do_fit_pdf. destruct t.
  - destruct (if x_floc x && x_fscale x then _ else _) as [f|e]; [|repeat split]. destruct (loglike _ _ _ _ _ _); [|repeat split]. destruct (nm _ _); [|repeat split]. destruct (bse _ _) as [|[]]; repeat split.
  - destruct (if x_floc x && x_fscale x then _ else _) as [f|e]; [|repeat split]. destruct (emcee _ _); repeat split.
  - repeat split.
Qed.
Theorem run_aligned o b f o' : do_run o b f = (o', None) -> aligned l o'.
Proof.
  unfold PdfRun.do_run. destruct (do_make_pdf o b) as [o1 [e|]] eqn:M; [discriminate|]. destruct (make_pdf_ok o b o1 M) as (c & p & B & P & L & _). destruct (make_ecdf_ok o1 c p B P) as (o2 & E2 & B2 & P2 & C2 & _). rewrite E2.
  assert (A : aligned l o2) by (exists c, p; auto). destruct f as [[[m t] x]|]; intros H.
  - pose proof (fit_keeps o2 m t x) as (K1 & K2 & K3). rewrite H in *. cbn [fst] in *. exists c, p. rewrite K1, K2, K3. auto.
  - injection H as <-. exact A.
Qed.
(** ** What the past matters for *)
Lemma make_pdf_same o1 o2 b : same_pdf (mk_p (o_bins o1) (o_pdf o1) None None None None None None) (mk_p (o_bins o2) (o_pdf o2) None None None None None None) \/ b <> None ->
  snd (do_make_pdf o1 b) = snd (do_make_pdf o2 b) /\ (snd (do_make_pdf o1 b) = None -> o_bins (fst (do_make_pdf o1 b)) = o_bins (fst (do_make_pdf o2 b)) /\ o_pdf (fst (do_make_pdf o1 b)) = o_pdf (fst (do_make_pdf o2 b))).
Proof.
  intros H. unfold PdfRun.do_make_pdf. assert (E : (match b with Some b => Some b | None => o_bins o1 end) = (match b with Some b => Some b | None => o_bins o2 end)).
  { destruct b; [reflexivity|]. destruct H as [(K & _)|K]; [exact K|contradiction]. }
  rewrite E. destruct (histogram_fl data _); cbn [fst snd o_bins o_pdf]; split; auto. discriminate.
Qed.
Lemma fit_same o1 o2 m t x : snd (do_fit_pdf o1 m t x) = snd (do_fit_pdf o2 m t x) /\ (snd (do_fit_pdf o1 m t x) = None -> same_fit (fst (do_fit_pdf o1 m t x)) (fst (do_fit_pdf o2 m t x))).
Proof.
  unfold PdfRun.do_fit_pdf. destruct t.
  - destruct (if x_floc x && x_fscale x then _ else _) as [f|e]; [|split; [reflexivity|discriminate]]. destruct (loglike _ _ _ _ _ _); [|split; [reflexivity|discriminate]]. destruct (nm _ _); [|split; [reflexivity|discriminate]]. destruct (bse _ _) as [|[]]; (split; [reflexivity|try discriminate]); repeat split.
  - destruct (if x_floc x && x_fscale x then _ else _) as [f|e]; [|split; [reflexivity|discriminate]]. destruct (emcee _ _); (split; [reflexivity|try discriminate]); repeat split.
  - split; [reflexivity|discriminate].
Qed.
Theorem run_forgets o1 o2 b f : snd (do_run o1 (Some b) f) = snd (do_run o2 (Some b) f) /\
  (snd (do_run o1 (Some b) f) = None -> same_pdf (fst (do_run o1 (Some b) f)) (fst (do_run o2 (Some b) f)) /\ (f <> None -> same_fit (fst (do_run o1 (Some b) f)) (fst (do_run o2 (Some b) f)))).
Proof.
  unfold PdfRun.do_run. destruct (make_pdf_same o1 o2 (Some b)) as [E K]; [right; discriminate|]. destruct (do_make_pdf o1 (Some b)) as [a1 e1] eqn:M1, (do_make_pdf o2 (Some b)) as [a2 e2] eqn:M2. cbn [fst snd] in *. subst e2.
  destruct e1 as [e|]; [split; [reflexivity|discriminate]|]. destruct (K eq_refl) as [KB KP]. destruct (make_pdf_ok _ _ _ M1) as (c & p & B1 & P1 & _). rewrite B1 in KB. rewrite P1 in KP.
  destruct (make_ecdf_ok a1 c p B1 P1) as (b1 & E1 & B1' & P1' & C1 & _). destruct (make_ecdf_ok a2 c p (eq_sym KB) (eq_sym KP)) as (b2 & E2 & B2' & P2' & C2 & _). rewrite E1, E2.
  assert (S : same_pdf b1 b2) by (repeat split; congruence). destruct f as [[[m t] x]|].
  - destruct (fit_same b1 b2 m t x) as [F1 F2]. split; [exact F1|]. intros N. split; [|intros _; auto]. destruct (fit_keeps b1 m t x) as (Q1 & Q2 & Q3), (fit_keeps b2 m t x) as (R1 & R2 & R3), S as (S1 & S2 & S3). repeat split; congruence.
  - split; [reflexivity|]. intros _. split; [exact S|intros C; now destruct C].
Qed.
(** ** New bins and refused bins *)
Theorem new_bins o b f o' e : do_run o b f = (o', None) -> nondecreasing e = true ->
  exists o2, do_make_pdf o' (Some (Edges e)) = (o2, None) /\ o_bins o2 = Some (Edges (mid e)) /\ o_ecdf o2 = o_ecdf o' /\ (forall c, o_bins o' = Some (Edges c) -> length (mid e) <> length c -> ~ aligned l o2).
Proof.
  intros H N. pose proof (run_aligned o b f o' H) as (c & p & B & P & L & C). unfold PdfRun.do_make_pdf. unfold histogram_fl, histogram, bin_edges. rewrite N. cbn [bind fst snd]. eexists. split; [reflexivity|]. cbn [o_bins o_ecdf]. split; [reflexivity|]. split; [reflexivity|].
  intros c' B' D (c2 & p2 & B2 & _ & _ & C2). cbn [o_bins o_ecdf] in *. rewrite B in B'. injection B' as <-. injection B2 as <-. rewrite C in C2. injection C2 as C2. apply (f_equal (@length fl)) in C2. rewrite !map_length in C2. congruence.
Qed.
Theorem refused_bins o e : nondecreasing e = false -> exists o2, do_make_pdf o (Some (Edges e)) = (o2, Some ValueError) /\ o_bins o2 = Some (Edges e) /\ o_pdf o2 = o_pdf o /\ snd (do_make_pdf o2 None) = Some ValueError.
Proof.
  intros N. unfold PdfRun.do_make_pdf at 1. unfold histogram_fl, histogram, bin_edges. rewrite N. cbn [bind]. eexists. split; [reflexivity|]. split; [reflexivity|]. split; [reflexivity|]. unfold PdfRun.do_make_pdf. cbn [o_bins]. unfold histogram_fl, histogram, bin_edges. rewrite N. reflexivity.
Qed.
(** ** Fits *)
Lemma loglike_shown m x p : x_floc x && x_fscale x = false -> exists shapes loc scale,
  (forall o, o_fixes o = Some x -> o_params o = Some p -> o_model o = Some m -> shown o = Ok (Some (m, shapes, loc, scale))) /\
  (x_floc x = true -> loc = x_loc x) /\ (x_fscale x = true -> scale = x_scale x) /\
  loglike (m_logpdf m) (x_floc x) (x_loc x) (x_fscale x) (x_scale x) p = Ok (log_likelihood m shapes loc scale).
Proof.
  intros NB. destruct x as [[] lc [] sc]; cbn [x_floc x_fscale x_loc x_scale] in *; try discriminate.
  - exists (firstn (length p - 1) p), lc, (nth (length p - 1) p 0). split; [intros o F P M; unfold shown; rewrite F, P, M; reflexivity|]. split; [reflexivity|]. split; [discriminate|]. unfold loglike, log_likelihood. cbn [negb andb bind]. destruct (forallb is_fin _); reflexivity.
  - exists (firstn (length p - 1) p), (nth (length p - 1) p 0), sc. split; [intros o F P M; unfold shown; rewrite F, P, M; reflexivity|]. split; [discriminate|]. split; [reflexivity|]. unfold loglike, log_likelihood. cbn [negb andb bind]. destruct (forallb is_fin _); reflexivity.
  - exists (firstn (length p - 2) p), (nth (length p - 2) p 0), (nth (length p - 1) p 0). split; [intros o F P M; unfold shown; rewrite F, P, M; reflexivity|]. split; [discriminate|]. split; [discriminate|]. unfold loglike, log_likelihood. cbn [negb andb bind]. destruct (forallb is_fin _); reflexivity.
Qed.
Lemma fit_leaves o m t x o' : do_fit_pdf o m t x = (o', None) -> o_fixes o' = Some x /\ o_model o' = Some m /\ exists f p, o_params o' = Some p /\
  m_fit m (if x_floc x && negb (x_fscale x) then Some (x_loc x) else None) (if x_fscale x && negb (x_floc x) then Some (x_scale x) else None) = Ok f /\
  let start := init_params f (x_floc x) (x_fscale x) in
  let like := loglike (m_logpdf m) (x_floc x) (x_loc x) (x_fscale x) (x_scale x) in
  (t = Mle /\ x_floc x && x_fscale x = false /\ nm like start = Ok p /\ (exists s, (bse like p = Ok s /\ o_errs o' = Some (Bse (map Fin s))) \/ (bse like p = Err ValueError /\ o_errs o' = Some (Bse (map (fun _ => NaN) p)))) /\ o_chain o' = o_chain o \/
   t = Mcmc /\ exists c, emcee like start = Ok c /\ p = map mean c /\ o_chain o' = Some c /\ o_errs o' = Some (Range (map (fun s => percentile (sort_r s) 15) c) (map (fun s => percentile (sort_r s) 85) c))).
Proof.
  assert (FE : (if x_floc x && x_fscale x then m_fit m None None else if x_floc x then m_fit m (Some (x_loc x)) None else if x_fscale x then m_fit m None (Some (x_scale x)) else m_fit m None None) =
    m_fit m (if x_floc x && negb (x_fscale x) then Some (x_loc x) else None) (if x_fscale x && negb (x_floc x) then Some (x_scale x) else None)) by (destruct (x_floc x), (x_fscale x); reflexivity).
  unfold PdfRun.do_fit_pdf. rewrite FE. clear FE. destruct t.
  - destruct (m_fit m _ _) as [f|e]; [|discriminate]. destruct (loglike _ _ _ _ _ (init_params f (x_floc x) (x_fscale x))) eqn:LL; [|discriminate]. destruct (nm _ _) as [p|] eqn:N; [|discriminate].
    assert (NB : x_floc x && x_fscale x = false). { destruct x as [[] lc [] sc]; try reflexivity. cbn in LL. discriminate. }
    destruct (bse _ _) as [s|[]] eqn:BS; try discriminate; intros H; injection H as <-; cbn [o_fixes o_model o_params o_errs o_chain]; (split; [reflexivity|]); (split; [reflexivity|]); exists f, p; (split; [reflexivity|]); (split; [reflexivity|]); left; (split; [reflexivity|]); (split; [exact NB|]); (split; [exact N|]); (split; [|reflexivity]).
    + exists s. left. split; [exact BS|reflexivity].
    + exists p. right. split; [exact BS|reflexivity].
  - destruct (m_fit m _ _) as [f|e]; [|discriminate]. destruct (emcee _ _) as [c|] eqn:E; [|discriminate]. intros H; injection H as <-. cbn. split; [reflexivity|]. split; [reflexivity|]. exists f, (map mean c). split; [reflexivity|]. split; [reflexivity|]. right. split; [reflexivity|]. exists c. auto.
  - discriminate.
Qed.
Theorem fit_shown o m t x o' : do_fit_pdf o m t x = (o', None) -> (t = Mle \/ x_floc x && x_fscale x = false) -> exists p shapes loc scale, o_params o' = Some p /\ shown o' = Ok (Some (m, shapes, loc, scale)) /\
  (x_floc x = true -> loc = x_loc x) /\ (x_fscale x = true -> scale = x_scale x) /\ loglike (m_logpdf m) (x_floc x) (x_loc x) (x_fscale x) (x_scale x) p = Ok (log_likelihood m shapes loc scale).
Proof.
  intros H T. destruct (fit_leaves o m t x o' H) as (F & M & f & p & P & _ & D). assert (NB : x_floc x && x_fscale x = false). { destruct D as [(_ & NB & _)|(-> & _)]; [exact NB|]. destruct T as [T|T]; [discriminate|exact T]. }
  destruct (loglike_shown m x p NB) as (shapes & loc & scale & S & K). exists p, shapes, loc, scale. split; [exact P|]. split; [exact (S o' F P M)|exact K].
Qed.
Theorem both_fixed o m x f : x_floc x = true -> x_fscale x = true -> m_fit m None None = Ok f -> snd (do_fit_pdf o m Mle x) = Some UnboundLocalError /\
  (o_params o = None -> shown (fst (do_fit_pdf o m Mle x)) = Err OtherError).
Proof. intros A B F. unfold PdfRun.do_fit_pdf. rewrite A, B. cbn [andb]. rewrite F. unfold loglike. cbn [negb andb bind]. split; [reflexivity|]. cbn [fst]. intros P. unfold shown. cbn. now rewrite P. Qed.
Theorem failed_fit o m x e m0 p s lc : m_fit m None None = Err e -> x_floc x = false -> x_fscale x = false ->
  o_fixes o = Some (mk_fixes true lc false 0) -> o_model o = Some m0 -> o_params o = Some (p ++ [s]) ->
  exists o', do_fit_pdf o m Mle x = (o', Some e) /\ shown o = Ok (Some (m0, p, lc, s)) /\ o_params o' = o_params o /\
    (forall q a, p = q ++ [a] -> shown o' = Ok (Some (m0, q, a, s))).
Proof.
  intros F A B FX M P. unfold PdfRun.do_fit_pdf. rewrite A, B. cbn [andb]. rewrite F. eexists. split; [reflexivity|]. split; [|split; [reflexivity|]].
  - unfold shown. rewrite FX, P, M. cbn [x_floc x_fscale x_loc andb]. rewrite app_length. cbn [length]. replace (length p + 1 - 1)%nat with (length p) by lia. rewrite firstn_app, Nat.sub_diag, firstn_O, app_nil_r, firstn_all, app_nth2, Nat.sub_diag by lia. reflexivity.
  - intros q a ->. unfold shown. cbn [o_fixes o_params o_model]. rewrite P, M, A, B. cbn [andb]. rewrite !app_length. cbn [length]. replace (length q + 1 + 1 - 2)%nat with (length q) by lia. replace (length q + 1 + 1 - 1)%nat with (length q + 1)%nat by lia.
    rewrite <- app_assoc. cbn [app]. rewrite firstn_app, Nat.sub_diag, firstn_O, app_nil_r, firstn_all, !app_nth2, Nat.sub_diag by lia. replace (length q + 1 - length q)%nat with 1%nat by lia. reflexivity.
Qed.
Theorem ecdf_loc o m x o' : do_fit_pdf o m Mle x = (o', None) -> x_floc x = true -> exists shapes scale, shown o' = Ok (Some (m, shapes, x_loc x, scale)) /\ shown_ecdf false o' = Ok (Some (m, shapes, 0, scale)) /\ shown_ecdf true o' = shown o'.
Proof.
  intros H A. destruct (fit_shown o m Mle x o' H (or_introl eq_refl)) as (p & shapes & loc & scale & P & S & L & _). rewrite (L A) in S. exists shapes, scale. split; [exact S|]. unfold shown_ecdf. rewrite S. cbn [bind]. split; reflexivity.
Qed.
Theorem old_chain o m x o1 m2 x2 o2 : do_fit_pdf o m Mcmc x = (o1, None) -> do_fit_pdf o1 m2 Mle x2 = (o2, None) -> drawn_chain o2 = drawn_chain o1 /\ is_ok (drawn_chain o2) = true.
Proof.
  intros H1 H2. destruct (fit_leaves _ _ _ _ _ H1) as (_ & _ & s1 & p1 & _ & _ & [(D & _)|(_ & c & _ & _ & C1 & _)]); [discriminate|]. destruct (fit_leaves _ _ _ _ _ H2) as (_ & _ & s2 & p2 & _ & _ & [(_ & _ & _ & _ & C2)|(D & _)]); [|discriminate].
  unfold drawn_chain. rewrite C2, C1. split; reflexivity.
Qed.
End Object.
