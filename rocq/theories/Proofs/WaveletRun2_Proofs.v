(** Proofs about Model/WaveletRun.v: straight lines through points, and how they move. *)
From Coq Require Import Reals List ZArith Arith Bool Lia Lra.
From Verif Require Import Lib.PyBase Lib.Fl Lib.RSum Spec.Segmented Spec.BreakFit Model.Units Model.DeltaVar Model.BaseStat Model.Wavelet Model.FitState Model.DeltaVarRun Model.LmSeg Model.BreakFit Model.WaveletRun
  Proofs.Ols_Proofs Proofs.BreakFit_Proofs.
Import ListNotations.
Local Open Scope R_scope.

(** Rows (x, y, weight) *)
Definition row := (R * R * R)%type.
Definition xs_of (d : list row) : list R := map (fun r => fst (fst r)) d.
Definition ys_of (d : list row) : list R := map (fun r => snd (fst r)) d.
Definition ws_of (d : list row) : list R := map snd d.
Definition wopt (weighted : bool) (d : list row) : option (list R) := if weighted then Some (ws_of d) else None.
Definition cols_of (d : list row) : list (list R) := [repeat 1 (length d); xs_of d].
Definition wt (weighted : bool) (r : row) : R := if weighted then snd r else 1.
Definition SS (weighted : bool) (d : list row) (p0 p1 : R) : R := lsum (map (fun r => wt weighted r * (snd (fst r) - (p0 + p1 * fst (fst r))) ^ 2) d).

Lemma nth_row (f : row -> R) d i : (i < length d)%nat -> nth i (map f d) 0 = f (nth i d (0, 0, 0)).
Proof. intros H. rewrite (nth_indep (map f d) 0 (f (0, 0, 0))) by now rewrite map_length. apply map_nth. Qed.
Lemma squares_SS weighted d p0 p1 : squares (ys_of d) (wopt weighted d) (cols_of d) [p0; p1] = SS weighted d p0 p1.
Proof.
  unfold squares, SS. unfold ys_of at 1. rewrite map_length. rewrite (lsum_nth _ 0), map_length. apply rsum_ext. intros i Hi.
  rewrite (nth_row (fun r => wt weighted r * (snd (fst r) - (p0 + p1 * fst (fst r))) ^ 2)) by exact Hi. unfold predicted, cols_of. cbn [combine map fst snd].
  rewrite !lsum_cons. change (lsum []) with 0. cbn [fst snd]. rewrite (nth_repeat_lt (length d) i Hi). unfold ys_of, xs_of.
  rewrite (nth_row (fun r => snd (fst r))), (nth_row (fun r => fst (fst r))) by exact Hi.
  replace (weight (wopt weighted d) i) with (wt weighted (nth i d (0, 0, 0))); [ring|].
  unfold wopt, wt, weight, ws_of. destruct weighted; [|reflexivity]. now rewrite (nth_row snd).
Qed.

Lemma SS_mid weighted d p0 p1 q0 q1 : SS weighted d ((p0 + q0) / 2) ((p1 + q1) / 2) =
  (SS weighted d p0 p1 + SS weighted d q0 q1) / 2 - lsum (map (fun r => wt weighted r * ((p0 + p1 * fst (fst r)) - (q0 + q1 * fst (fst r))) ^ 2) d) / 4.
Proof.
  unfold SS. induction d as [|r d IH]; cbn [map]; [change (lsum []) with 0; lra|]. rewrite !lsum_cons, IH. field.
Qed.
Definition positive_weights (weighted : bool) (d : list row) : Prop := forall r, In r d -> 0 < wt weighted r.
Definition spread_rows (d : list row) : Prop := exists u v, In u d /\ In v d /\ fst (fst u) <> fst (fst v).
Lemma lsum_zero (f : row -> R) d : (forall r, In r d -> 0 <= f r) -> lsum (map f d) <= 0 -> forall r, In r d -> f r = 0.
Proof.
  induction d as [|a d IH]; intros N S r Hr; [destruct Hr|]. cbn [map] in S. rewrite lsum_cons in S.
  assert (P : 0 <= lsum (map f d)) by (apply lsum_nonneg; intros v Hv; apply in_map_iff in Hv; destruct Hv as [x [<- Hx]]; apply N; now right).
  pose proof (N a (or_introl eq_refl)). destruct Hr as [<-|Hr]; [lra|]. apply IH; auto; [intros; apply N; now right|lra].
Qed.
Lemma best_unique weighted d p0 p1 q0 q1 : positive_weights weighted d -> spread_rows d ->
  (forall a b, SS weighted d p0 p1 <= SS weighted d a b) -> (forall a b, SS weighted d q0 q1 <= SS weighted d a b) -> p0 = q0 /\ p1 = q1.
Proof.
  intros W (u&v&Hu&Hv&D) P Q. pose proof (P ((p0 + q0) / 2) ((p1 + q1) / 2)) as M. pose proof (P q0 q1). pose proof (Q p0 p1). rewrite SS_mid in M.
  assert (Z : forall r, In r d -> wt weighted r * ((p0 + p1 * fst (fst r)) - (q0 + q1 * fst (fst r))) ^ 2 = 0).
  { apply lsum_zero; [|lra]. intros r Hr. apply Rmult_le_pos; [left; now apply W|apply pow2_ge_0]. }
  assert (E : forall r, In r d -> p0 + p1 * fst (fst r) = q0 + q1 * fst (fst r)).
  { intros r Hr. specialize (Z r Hr). specialize (W r Hr). apply Rmult_integral in Z. destruct Z as [Z|Z]; [lra|]. apply Rsqr_0_uniq in Z || idtac. assert (S : Rsqr (p0 + p1 * fst (fst r) - (q0 + q1 * fst (fst r))) = 0) by (unfold Rsqr; lra). apply Rsqr_0_uniq in S. lra. }
  pose proof (E u Hu) as Eu. pose proof (E v Hv) as Ev. assert (F : (p1 - q1) * (fst (fst u) - fst (fst v)) = 0) by lra. apply Rmult_integral in F. destruct F as [F|F]; [|lra].
  assert (p1 = q1) by lra. subst q1. split; lra.
Qed.

(** The solver on such rows *)
Lemma weights_good weighted d : positive_weights weighted d -> good_weights (ys_of d) (wopt weighted d).
Proof.
  intros W. unfold wopt, good_weights. destruct weighted; [|exact I]. split; [unfold ws_of, ys_of; now rewrite !map_length|]. intros v Hv. apply in_map_iff in Hv. destruct Hv as [r [<- Hr]]. exact (W r Hr).
Qed.
Lemma solver_best ols weighted d : regression ols -> positive_weights weighted d ->
  exists p0 p1 er, f_params (ols (ys_of d) (wopt weighted d) (cols_of d)) = [Fin p0; Fin p1] /\ LmSeg.index (f_bse (ols (ys_of d) (wopt weighted d) (cols_of d))) 1 = Ok er /\ forall a b, SS weighted d p0 p1 <= SS weighted d a b.
Proof.
  intros REG W. destruct (REG (ys_of d) (wopt weighted d) (weights_good _ _ W)) as [WF LS].
  destruct (LS (cols_of d)) as (p&Lp&EP&_&B); [intros c [<-|[<-|[]]]; unfold xs_of, ys_of; rewrite ?repeat_length, ?map_length; reflexivity|].
  destruct p as [|p0 [|p1 [|? ?]]]; try discriminate Lp. destruct (WF (cols_of d)) as (_&L2&_).
  destruct (f_bse (ols (ys_of d) (wopt weighted d) (cols_of d))) as [|e0 [|e1 l]]; try discriminate L2. exists p0, p1, e1. split; [exact EP|]. split; [reflexivity|].
  intros a b. rewrite <- !squares_SS. now apply B.
Qed.

(** Moving all points by c + k x *)
Definition tilt (c k : R) (d : list row) : list row := map (fun r => (fst (fst r), snd (fst r) + (c + k * fst (fst r)), snd r)) d.
Lemma SS_tilt weighted c k d a b : SS weighted (tilt c k d) (a + c) (b + k) = SS weighted d a b.
Proof.
  unfold SS, tilt. rewrite map_map. apply f_equal. apply map_ext. intros r. cbn [fst snd]. replace (wt weighted (fst (fst r), snd (fst r) + (c + k * fst (fst r)), snd r)) with (wt weighted r) by (unfold wt; destruct weighted; reflexivity). ring.
Qed.
Lemma tilt_weights weighted c k d : positive_weights weighted d -> positive_weights weighted (tilt c k d).
Proof. intros W r Hr. apply in_map_iff in Hr. destruct Hr as [q [<- Hq]]. specialize (W q Hq). unfold wt in *. destruct weighted; exact W. Qed.
Lemma tilt_spread c k d : spread_rows d -> spread_rows (tilt c k d).
Proof. intros (u&v&Hu&Hv&D). unfold tilt. do 2 eexists. split; [exact (in_map _ _ _ Hu)|]. split; [exact (in_map _ _ _ Hv)|exact D]. Qed.
Lemma solver_tilt ols weighted d c k : regression ols -> positive_weights weighted d -> spread_rows d ->
  exists p0 p1 er er', f_params (ols (ys_of d) (wopt weighted d) (cols_of d)) = [Fin p0; Fin p1] /\ LmSeg.index (f_bse (ols (ys_of d) (wopt weighted d) (cols_of d))) 1 = Ok er /\ f_params (ols (ys_of (tilt c k d)) (wopt weighted (tilt c k d)) (cols_of (tilt c k d))) = [Fin (p0 + c); Fin (p1 + k)] /\ LmSeg.index (f_bse (ols (ys_of (tilt c k d)) (wopt weighted (tilt c k d)) (cols_of (tilt c k d)))) 1 = Ok er'.
Proof.
  intros REG W S. destruct (solver_best ols weighted d REG W) as (p0&p1&er&E1&E2&B). destruct (solver_best ols weighted (tilt c k d) REG (tilt_weights _ c k _ W)) as (q0&q1&er'&F1&F2&B').
  assert (B2 : forall a b, SS weighted (tilt c k d) (p0 + c) (p1 + k) <= SS weighted (tilt c k d) a b).
  { intros a b. rewrite SS_tilt. replace a with (a - c + c) by ring. replace b with (b - k + k) by ring. rewrite SS_tilt. apply B. }
  destruct (best_unique weighted (tilt c k d) q0 q1 (p0 + c) (p1 + k) (tilt_weights _ c k _ W) (tilt_spread c k d S) B' B2) as [-> ->]. exists p0, p1, er, er'. auto.
Qed.
(** Points on a line *)
Lemma solver_exact ols weighted d a b : regression ols -> positive_weights weighted d -> spread_rows d -> (forall r, In r d -> snd (fst r) = a + b * fst (fst r)) ->
  exists er, f_params (ols (ys_of d) (wopt weighted d) (cols_of d)) = [Fin a; Fin b] /\ LmSeg.index (f_bse (ols (ys_of d) (wopt weighted d) (cols_of d))) 1 = Ok er.
Proof.
  intros REG W S H. destruct (solver_best ols weighted d REG W) as (p0&p1&er&E1&E2&B).
  assert (Z : SS weighted d a b = 0).
  { unfold SS. rewrite (map_ext_in _ (fun _ => 0)); [clear; induction d as [|r d IH]; cbn [map]; [reflexivity|rewrite lsum_cons, IH; lra]|]. intros r Hr. rewrite (H r Hr). ring. }
  assert (B2 : forall u v, SS weighted d a b <= SS weighted d u v).
  { intros u v. rewrite Z. unfold SS. apply lsum_nonneg. intros x Hx. apply in_map_iff in Hx. destruct Hx as [r [<- Hr]]. apply Rmult_le_pos; [left; now apply W|apply pow2_ge_0]. }
  destruct (best_unique weighted d p0 p1 a b W S B B2) as [-> ->]. exists er. auto.
Qed.

(** ** From points to rows *)
Definition clean_row (r : point) : row := (fst (fst r), match snd (fst r) with Fin y => y | _ => 0 end, match snd r with Fin w => w | _ => 0 end).
Definition rows_of (weighted : bool) (pts : list point) : list row := map clean_row (filter (used weighted) pts).
Lemma const_false (l : list R) u v : In u l -> In v l -> u <> v -> const_col l = false.
Proof.
  intros Hu Hv D. destruct l as [|a l]; [reflexivity|]. cbn [const_col]. destruct (forallb (Reqb a) l) eqn:F; [|apply andb_false_r]. exfalso. apply D.
  rewrite forallb_forall in F. assert (A : forall z, In z (a :: l) -> a = z). { intros z [<-|Hz]; [reflexivity|]. specialize (F z Hz). destruct (Reqb_spec a z); [assumption|discriminate]. }
  now rewrite <- (A u Hu), <- (A v Hv).
Qed.
Lemma used_ys weighted pts : fins (map (fun r : point => snd (fst r)) (filter (used weighted) pts)) = ys_of (rows_of weighted pts).
Proof.
  unfold ys_of, rows_of. rewrite map_map. induction pts as [|r pts IH]; [reflexivity|]. cbn [filter]. destruct (used weighted r) eqn:U; [|exact IH]. cbn [map]. unfold used in U. apply andb_prop in U. destruct U as [U _].
  destruct (snd (fst r)) eqn:E; try discriminate U. rewrite fins_cons_Fin, IH. unfold clean_row at 2. cbn [fst snd]. now rewrite E.
Qed.
Lemma used_ws pts : fins (map (snd : point -> fl) (filter (used true) pts)) = ws_of (rows_of true pts).
Proof.
  unfold ws_of, rows_of. rewrite map_map. induction pts as [|r pts IH]; [reflexivity|]. cbn [filter]. destruct (used true r) eqn:U; [|exact IH]. cbn [map]. unfold used in U. apply andb_prop in U. destruct U as [_ U]. cbn [negb orb] in U.
  destruct (snd r) eqn:E; try discriminate U. rewrite fins_cons_Fin, IH. unfold clean_row at 2. cbn [snd]. now rewrite E.
Qed.
Lemma used_xs weighted pts : map (fun r : point => fst (fst r)) (filter (used weighted) pts) = xs_of (rows_of weighted pts).
Proof. unfold xs_of, rows_of. rewrite map_map. reflexivity. Qed.
Lemma line_rows ols weighted pts : spread_rows (rows_of weighted pts) ->
  straight_line ols weighted pts = Ok (ols (ys_of (rows_of weighted pts)) (wopt weighted (rows_of weighted pts)) (cols_of (rows_of weighted pts))).
Proof.
  intros (u&v&Hu&Hv&D). unfold straight_line. destruct (filter (used weighted) pts) as [|r0 rs] eqn:EF; [unfold rows_of in Hu; rewrite EF in Hu; destruct Hu|].
  rewrite <- EF. rewrite used_ys, used_xs. rewrite (const_false _ (fst (fst u)) (fst (fst v))); [| | |exact D].
  - apply f_equal. unfold cols_of. f_equal; [|f_equal; unfold xs_of; now rewrite map_length]. unfold wopt. destruct weighted; [now rewrite used_ws|reflexivity].
  - unfold rows_of in Hu. apply in_map_iff in Hu. destruct Hu as [r [<- Hr]]. apply filter_In in Hr. cbn [clean_row fst]. apply (in_map (fun r : point => fst (fst r)) _ _ (proj1 Hr)).
  - unfold rows_of in Hv. apply in_map_iff in Hv. destruct Hv as [r [<- Hr]]. apply filter_In in Hr. cbn [clean_row fst]. apply (in_map (fun r : point => fst (fst r)) _ _ (proj1 Hr)).
Qed.
