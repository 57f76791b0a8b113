(** Proofs about Model/Odr.v: the best lines *)
From Coq Require Import String Reals List Lia Lra.
From Coq Require Import List.
From Verif Require Import Lib.PyBase Lib.Fl Lib.RSum Model.EllipPlaw Model.PcaFit Model.Odr Spec.Odr.
Import ListNotations.
Local Open Scope R_scope.

(** ** Points of numbers *)
Record quad := mk_q { qx : R; qy : R; qd : R; qe : R }.
Definition datum_of (q : quad) : datum := mk_dat (Fin (qx q)) (Fin (qy q)) (Fin (qd q)) (Fin (qe q)).
Definition posq (l : list quad) : Prop := Forall (fun q => 0 < qd q /\ 0 < qe q) l.
Fixpoint rmis (l : list quad) (a b : R) (delta : nat -> R) : R :=
  match l with
  | [] => 0
  | q :: l => qe q * ((a * (qx q + delta 0%nat) + b - qy q) * (a * (qx q + delta 0%nat) + b - qy q)) + qd q * (delta 0%nat * delta 0%nat) + rmis l a b (fun i => delta (S i))
  end.
Lemma misfit_real l a b : forall delta, misfit (map datum_of l) a b delta = Fin (rmis l a b delta).
Proof.
  induction l as [|q l IH]; intro delta; [reflexivity|]. cbn [map misfit rmis]. rewrite IH. unfold fit_func, fsub, fsqr, datum_of. cbn [fst snd d_x d_y d_wd d_we fadd fmul fneg]. reflexivity.
Qed.
Lemma proper_real l : proper l -> exists qs, l = map datum_of qs /\ posq qs.
Proof.
  intro H. induction H as [|p l [x [y [wd [we [A [B ->]]]]]] H [qs [-> P]]]; [exists []; split; [reflexivity|constructor]|].
  exists (mk_q x y wd we :: qs). split; [reflexivity|]. constructor; [split; assumption|exact P].
Qed.
(** ** The least misfit of a line *)
Definition resid (q : quad) (a b : R) : R := qy q - a * qx q - b.
Definition cost1 (q : quad) (a b : R) : R := resid q a b * resid q a b * (qe q * qd q) / (qd q + a * a * qe q).
Definition cost (l : list quad) (a b : R) : R := lsum (map (fun q => cost1 q a b) l).
Definition shift (q : quad) (a b : R) : R := a * qe q * resid q a b / (qd q + a * a * qe q).
Lemma den_pos q a : 0 < qd q -> 0 < qe q -> 0 < qd q + a * a * qe q.
Proof. intros D E. pose proof (Rle_0_sqr a) as S. unfold Rsqr in S. assert (0 <= a * a * qe q) by (apply Rmult_le_pos; lra). lra. Qed.
Lemma profile q a b d : 0 < qd q -> 0 < qe q ->
  qe q * ((a * (qx q + d) + b - qy q) * (a * (qx q + d) + b - qy q)) + qd q * (d * d) = cost1 q a b + (qd q + a * a * qe q) * ((d - shift q a b) * (d - shift q a b)).
Proof. intros D E. assert (P := den_pos q a D E). unfold cost1, shift, resid. field. lra. Qed.
Lemma cost1_nonneg q a b : 0 < qd q -> 0 < qe q -> 0 <= cost1 q a b.
Proof.
  intros D E. unfold cost1, Rdiv. apply Rmult_le_pos; [apply Rmult_le_pos|].
  - apply (Rle_0_sqr (resid q a b)).
  - apply Rmult_le_pos; lra.
  - left. apply Rinv_0_lt_compat. now apply den_pos.
Qed.
Lemma cost_below l a b : posq l -> forall delta, cost l a b <= rmis l a b delta.
Proof.
  unfold cost. intro P. induction P as [|q l [D E] P IH]; intro delta; cbn [map rmis]; [cbn; lra|]. rewrite lsum_cons, (profile q a b _ D E).
  specialize (IH (fun i => delta (S i))). pose proof (den_pos q a D E) as C. pose proof (Rle_0_sqr (delta 0%nat - shift q a b)) as S. unfold Rsqr in S.
  assert (0 <= (qd q + a * a * qe q) * ((delta 0%nat - shift q a b) * (delta 0%nat - shift q a b))) by (apply Rmult_le_pos; lra). lra.
Qed.
Lemma cost_reached l a b : posq l -> exists delta, rmis l a b delta = cost l a b.
Proof.
  unfold cost. intro P. induction P as [|q l [D E] P [delta IH]]; [exists (fun _ => 0); reflexivity|].
  exists (fun i => match i with O => shift q a b | S i => delta i end). cbn [map rmis]. rewrite lsum_cons, (profile q a b _ D E).
  change (fun i => delta i) with delta. rewrite IH. ring.
Qed.
Lemma best_iff l a b : posq l -> (best (map datum_of l) a b <-> forall a' b', cost l a b <= cost l a' b').
Proof.
  intro P. split.
  - intros [delta H] a' b'. destruct (cost_reached l a' b' P) as [d' E]. specialize (H a' b' d'). rewrite !misfit_real in H. cbn [fleb] in H. destruct (Rleb_spec (rmis l a b delta) (rmis l a' b' d')) as [L|]; [|discriminate].
    pose proof (cost_below l a b P delta). lra.
  - intro H. destruct (cost_reached l a b P) as [delta E]. exists delta. intros a' b' d'. rewrite !misfit_real. cbn [fleb]. destruct (Rleb_spec (rmis l a b delta) (rmis l a' b' d')) as [L|L]; [reflexivity|].
    exfalso. apply L. rewrite E. eapply Rle_trans; [apply H|now apply cost_below].
Qed.
Lemma cost_nonneg l a b : posq l -> 0 <= cost l a b.
Proof. unfold cost. intro P. induction P as [|q l [D E] P IH]; cbn [map]; [cbn; lra|]. rewrite lsum_cons. pose proof (cost1_nonneg q a b D E). lra. Qed.
Lemma cost_zero l a b : posq l -> (cost l a b = 0 <-> forall q, In q l -> qy q = a * qx q + b).
Proof.
  unfold cost. intro P. induction P as [|q l [D E] P IH]; cbn [map]; [split; [intros _ q []|reflexivity]|]. rewrite lsum_cons.
  pose proof (cost1_nonneg q a b D E) as N. pose proof (cost_nonneg l a b P) as N'. unfold cost in N'.
  assert (Z : cost1 q a b = 0 <-> qy q = a * qx q + b).
  { unfold cost1. assert (C := den_pos q a D E). split.
    - intro H. assert (K : resid q a b * resid q a b * (qe q * qd q) = 0) by (apply Rmult_integral in H as [H|H]; [exact H|exfalso; apply (Rinv_neq_0_compat (qd q + a * a * qe q)); lra]).
      apply Rmult_integral in K as [K|K]; [|exfalso; assert (0 < qe q * qd q) by (apply Rmult_lt_0_compat; assumption); lra]. apply Rmult_integral in K as [K|K]; unfold resid in K; lra.
    - intro H. assert (resid q a b = 0) as -> by (unfold resid; lra). unfold Rdiv. ring. }
  split.
  - intros H q' [<-|I]; [apply Z; lra|]. apply IH; [lra|exact I].
  - intro H. rewrite (proj2 Z), (proj2 IH); [lra| |]; intros; apply H; [now right|now left].
Qed.
(** The lines through all points *)
Lemma exact_best l a b : posq l -> (forall q, In q l -> qy q = a * qx q + b) -> (forall a' b', best (map datum_of l) a' b' <-> forall q, In q l -> qy q = a' * qx q + b').
Proof.
  intros P H a' b'. rewrite best_iff by exact P. rewrite <- (cost_zero l a' b' P). apply (cost_zero l a b P) in H. split.
  - intro M. specialize (M a b). pose proof (cost_nonneg l a' b' P). lra.
  - intros E a1 b1. rewrite E. now apply cost_nonneg.
Qed.

(** ** A regression that finds them *)
Definition val (v : fl) : R := match v with Fin r => r | _ => 0 end.
Definition through (l : list datum) (start : fl * fl) : (R * R) * (R * R) :=
  match l with
  | [] => ((0, 0), (0, 0))
  | p :: r => let x := val (d_x p) in let y := val (d_y p) in
    match find (fun q => negb (Reqb (val (d_x q)) x)) r with
    | Some q => let a := (val (d_y q) - y) / (val (d_x q) - x) in ((a, y - a * x), (0, 0))
    | None => ((0, y), (0, 0))
    end
  end.
Lemma through_finds : finds_exact through.
Proof.
  intros l start a b Pr H. destruct (proper_real l Pr) as [qs [-> P]]. rewrite misfit_real in H.
  assert (C : cost qs a b = 0) by (injection H as H; pose proof (cost_below qs a b P (fun _ => 0)); pose proof (cost_nonneg qs a b P); lra).
  rewrite (cost_zero qs a b P) in C. apply (proj2 (exact_best qs a b P C _ _)). destruct qs as [|p r]; [intros q []|]. cbn [map through datum_of d_x d_y val].
  destruct (find _ (map datum_of r)) as [q|] eqn:F; cbn [fst snd].
  - apply find_some in F as [I N]. apply in_map_iff in I as [q0 [<- I]]. cbn [datum_of d_x d_y val] in *. destruct (Reqb_spec (qx q0) (qx p)) as [|N']; [discriminate|].
    assert (A : (qy q0 - qy p) / (qx q0 - qx p) = a) by (rewrite (C q0), (C p) by (try (now left); now right); field; lra). rewrite A. intros q' I'. rewrite (C q' I'), (C p) by now left. ring.
  - intros q [<-|I]; [lra|]. assert (X := find_none _ _ F (datum_of q) (in_map _ _ _ I)). cbn [datum_of d_x val] in X. destruct (Reqb_spec (qx q) (qx p)) as [E|]; [|discriminate].
    rewrite (C q), (C p), E by (try (now left); now right). ring.
Qed.

(** ** Rows of widths *)
Definition quad_of (s es v ev : R) : quad :=
  mk_q (log10 s) (log10 v) (/ (434 / 1000 * es / s * (434 / 1000 * es / s))) (/ (434 / 1000 * ev / v * (434 / 1000 * ev / v))).
Lemma row_quad s es v ev : 0 < s -> 0 < es -> 0 < v -> 0 < ev -> odr_datum (log_point (component s es v ev)) = datum_of (quad_of s es v ev) /\ 0 < qd (quad_of s es v ev) /\ 0 < qe (quad_of s es v ev).
Proof.
  intros S ES V EV. assert (A : 0 < 434 / 1000 * es / s) by (apply Rdiv_lt_0_compat; lra). assert (B : 0 < 434 / 1000 * ev / v) by (apply Rdiv_lt_0_compat; lra).
  split; [|cbn [qd qe quad_of]; split; apply Rinv_0_lt_compat; now apply Rmult_lt_0_compat].
  unfold odr_datum, log_point, component, datum_of, quad_of. cbn [w_spat w_spec w_spat_err w_spec_err p_x p_y p_ex p_ey qx qy qd qe fmul fdiv flog10].
  destruct (Rltb_spec 0 s); [|lra]. destruct (Rltb_spec 0 v); [|lra]. destruct (Reqb_spec s 0); [lra|]. destruct (Reqb_spec v 0); [lra|]. cbn [pow_m2].
  destruct (Reqb_spec (434 / 1000 * es / s) 0); [lra|]. destruct (Reqb_spec (434 / 1000 * ev / v) 0); [lra|]. reflexivity.
Qed.
(** Positive rows as points; [f] changes the rows and [g] the points *)
Lemma rows_quads (f : width_row -> width_row) (g : quad -> quad) rows :
  (forall s es v ev, 0 < s -> 0 < es -> 0 < v -> 0 < ev -> odr_datum (log_point (f (component s es v ev))) = datum_of (g (quad_of s es v ev)) /\ 0 < qd (g (quad_of s es v ev)) /\ 0 < qe (g (quad_of s es v ev))) ->
  Forall positive rows -> exists qs, posq qs /\ map odr_datum (map log_point rows) = map datum_of qs /\ posq (map g qs) /\ map odr_datum (map log_point (map f rows)) = map datum_of (map g qs).
Proof.
  intros G H. induction H as [|r rows [s [es [v [ev [S [ES [V [EV ->]]]]]]]] H [qs [P [E [P' E']]]]]; [exists []; split; [constructor|split; [reflexivity|split; [constructor|reflexivity]]]|].
  destruct (row_quad s es v ev S ES V EV) as [R1 R2]. destruct (G s es v ev S ES V EV) as [G1 G2]. exists (quad_of s es v ev :: qs). cbn [map].
  split; [constructor; assumption|]. split; [now rewrite R1, E|]. split; [constructor; assumption|]. now rewrite G1, E'.
Qed.
Lemma log10_mult x y : 0 < x -> 0 < y -> log10 (x * y) = log10 x + log10 y.
Proof. intros X Y. unfold log10. rewrite ln_mult by assumption. lra. Qed.
Lemma ln10_pos : 0 < ln 10.
Proof. rewrite <- ln_1. apply ln_increasing; lra. Qed.
Lemma log10_power x a : log10 (Rpower x a) = a * log10 x.
Proof. unfold log10, Rpower. rewrite ln_exp. pose proof ln10_pos. field. lra. Qed.
Lemma log10_inj x y : 0 < x -> 0 < y -> log10 x = log10 y -> x = y.
Proof.
  intros X Y H. apply ln_inv; try assumption. unfold log10 in H. pose proof ln10_pos as L. apply (Rmult_eq_reg_r (/ ln 10)); [exact H|]. apply Rinv_neq_0_compat. lra.
Qed.
Lemma power10_log x : 0 < x -> Rpower 10 (log10 x) = x.
Proof. intro X. apply log10_inj; [apply exp_pos|exact X|]. rewrite log10_power. assert (log10 10 = 1) as -> by (unfold log10; pose proof ln10_pos; field; lra). ring. Qed.
