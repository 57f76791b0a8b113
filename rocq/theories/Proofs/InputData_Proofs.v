(** Proofs about Model/InputData.v. *)
From Coq Require Import String Reals List Lia Lra Bool Arith.
From Verif Require Import Lib.PyBase Lib.Fl Model.InputData Spec.Input.
Import ListNotations.
Local Open Scope R_scope.

Lemma read_app st x r : (r < length st)%nat -> read (st ++ [x]) r = read st r.
Proof. intros. unfold read. now rewrite app_nth1. Qed.
Lemma read_last st x : read (st ++ [x]) (length st) = x.
Proof. unfold read. rewrite app_nth2, Nat.sub_diag by lia. reflexivity. Qed.
Lemma read_write st : forall r q v, r <> q -> read (write st r v) q = read st q.
Proof. induction st as [|x st IH]; intros [|r] [|q] v H; cbn; auto; try lia. apply IH. lia. Qed.

Lemma accepts st data no_header need_copy :
  (supported data no_header /\ is_ok (input_data st data no_header need_copy) = true) \/
  (~ supported data no_header /\ input_data st data no_header need_copy = Err TypeError).
Proof.
  destruct data as [r h|r h|r h|l|r|]; unfold input_data, make_copy.
  1-3: left; split; [exact I|]; destruct need_copy, no_header; reflexivity.
  - cbn [supported]. destruct l as [|a [|b [|c l]]]; try (right; split; [cbn; lia|reflexivity]).
    left. split; [reflexivity|]. destruct no_header; reflexivity.
  - destruct no_header; cbn [negb supported].
    + left. split; [reflexivity|]. destruct need_copy; reflexivity.
    + right. split; [discriminate|reflexivity].
  - right. split; [intros []|reflexivity].
Qed.

Lemma returned st data no_header need_copy st' d hd : input_data st data no_header need_copy = Ok (st', d, hd) -> wf_source st data ->
  (forall r, (r < length st)%nat -> read st' r = read st r) /\
  item_value st' d = source_value st data /\ hd = (if no_header then None else source_header data).
Proof.
  intros H W. destruct data as [r h|r h|r h|l|r|]; unfold input_data, make_copy in H.
  1-3: cbn [wf_source] in W; destruct need_copy; cbn in H; destruct no_header; injection H as <- <- <-; cbn [item_value source_value source_header];
       (split; [intros; try now rewrite read_app|split; [try now rewrite read_last|]]; reflexivity).
  - destruct l as [|a [|b [|c l]]]; try discriminate. cbn in H. destruct no_header; injection H as <- <- <-; repeat split; auto.
  - cbn in W. destruct no_header; cbn [negb] in H; [|discriminate]. destruct need_copy; cbn in H; injection H as <- <- <-; cbn [item_value source_value];
       (split; [intros; try now rewrite read_app|split; [try now rewrite read_last|]]; reflexivity).
  - discriminate.
Qed.

Lemma copy_protects st data no_header st' r hd v : input_data st data no_header true = Ok (st', IArray r, hd) -> wf_source st data ->
  (forall l, data <> Sequence l) -> forall q, (q < length st)%nat -> read (write st' r v) q = read st q.
Proof.
  intros H W NS q Hq. destruct data as [r0 h|r0 h|r0 h|l|r0|]; unfold input_data, make_copy in H.
  1-3: cbn in H; destruct no_header; injection H as <- <- <-; (rewrite read_write by lia; now apply read_app).
  - exfalso. now apply (NS l).
  - destruct no_header; cbn in H; [|discriminate]. injection H as <- <- <-. rewrite read_write by lia. now apply read_app.
  - discriminate.
Qed.

Lemma copy_not_protects : exists st data st' r hd v, wf_source st data /\ input_data st data false true = Ok (st', IArray r, hd) /\
  source_value (write st' r v) data <> source_value st data.
Proof.
  exists [[Fin 1]], (Sequence [IArray 0; IHeader 0]), [[Fin 1]], 0%nat, (Some (IHeader 0)), [Fin 2]. split; [intros i [<-|[<-|[]]]; cbn; [lia|exact I]|]. split; [reflexivity|].
  cbn. intros E. injection E. lra.
Qed.

(** Beam *)
Lemma beam_spec hdr : match find_beam_properties hdr with
  | Ok (maj, mn, pa) => exists h, hdr = Some h /\ h "BMAJ"%string = Some maj /\ (h "BMIN"%string = Some mn \/ (h "BMIN"%string = None /\ mn = maj)) /\ (h "BPA"%string = Some pa \/ (h "BPA"%string = None /\ pa = 0))
  | Err TypeError => hdr = None
  | Err ValueError => exists h, hdr = Some h /\ h "BMAJ"%string = None
  | Err _ => False
  end.
Proof.
  unfold find_beam_properties. destruct hdr as [h|]; [|reflexivity]. destruct (h "BMAJ"%string) as [maj|] eqn:A; cbn [bind]; [|eauto].
  exists h. split; [reflexivity|]. split; [auto|]. destruct (h "BMIN"%string), (h "BPA"%string); split; auto.
Qed.
Lemma beam_width_spec hdr : find_beam_width hdr = match find_beam_properties hdr with Ok (maj, _, _) => Ok maj | Err e => Err e end.
Proof. unfold find_beam_width. destruct (find_beam_properties hdr) as [[[a b] c]|e]; reflexivity. Qed.

Lemma crpix_refuted : exists n1 n2, fst (image_crpix (n1, n2)) <> INR n2 / 2 /\ forall k, fst (cube_crpix (k, n1, n2)) <> INR n2 / 2.
Proof. exists 2%nat, 4%nat. cbn. split; [|intros k]; lra. Qed.
Lemma crpix_square n k : image_crpix (n, n) = (INR n / 2, INR n / 2) /\ cube_crpix (k, n, n) = (INR n / 2, INR n / 2).
Proof. auto. Qed.
