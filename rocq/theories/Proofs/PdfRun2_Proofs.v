(** PDF objects: instances. *)
From Coq Require Import Reals List Bool ZArith Arith Lra Lia.
From Verif Require Import Lib.PyBase Lib.RSum Lib.Fl Lib.Arr Lib.Hist Spec.Distrib Model.StatsUtils Model.EllipPlaw Model.Pdf Model.PdfRun Spec.PdfRun Proofs.Fl_Proofs Proofs.Hist_Proofs Proofs.Pdf_Proofs Proofs.PdfRun_Proofs.
Import ListNotations.
Local Open Scope R_scope.

(** A family with one shape, and routines that keep the start *)
Definition bell : family := mk_family (fun shapes loc scale => [Fin (lsum shapes + loc + scale)])
  (fun loc scale => Ok [5; match loc with Some a => a | None => 3 end; match scale with Some b => b | None => 2 end]).
Definition broken : family := mk_family (fun _ _ _ => [Fin 0]) (fun _ _ => Err OtherError).
Definition nm0 : (list R -> result fl) -> list R -> result (list R) := fun _ p => Ok p.
Definition bse0 : (list R -> result fl) -> list R -> result (list R) := fun _ p => Ok (map (fun _ => 1) p).
Definition emcee0 : (list R -> result fl) -> list R -> result (list (list R)) := fun _ p => Ok (map (fun v => [v; v]) p).
Definition fix_loc (a : R) : fixes := mk_fixes true a false 0.
Definition free : fixes := mk_fixes false 0 false 0.

Lemma bell_fit o a : do_fit_pdf nm0 bse0 emcee0 o bell Mle (fix_loc a) =
  (mk_p (o_bins o) (o_pdf o) (o_ecdf o) (Some (fix_loc a)) (Some bell) (Some [5; 2]) (Some (Bse [Fin 1; Fin 1])) (o_chain o), None).
Proof. reflexivity. Qed.
Lemma bell_chain o : exists o', do_fit_pdf nm0 bse0 emcee0 o bell Mcmc (fix_loc 0) = (o', None).
Proof. eexists. reflexivity. Qed.
Lemma up3 a b c : a < b -> b < c -> nondecreasing [a; b; c] = true.
Proof. intros. cbn. destruct (Rleb_spec a b), (Rleb_spec b c); try lra; reflexivity. Qed.
Lemma bell_run h : exists o', do_run (map Fin [1; 2; 4]) nm0 bse0 emcee0 h (Some (Edges [0; 2; 5])) (Some (bell, Mle, fix_loc 0)) = (o', None) /\ o_bins o' = Some (Edges (mid [0; 2; 5])).
Proof.
  unfold do_run. unfold do_make_pdf. unfold histogram_fl, histogram, bin_edges. rewrite up3 by lra. cbn [bind fst snd]. unfold do_make_ecdf. cbn [o_pdf o_bins]. cbn [map]. rewrite bell_fit. eexists. split; reflexivity.
Qed.
