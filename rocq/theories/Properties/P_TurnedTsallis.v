(** C309: Tsallis statistics of images seen from another side. *)
From Coq Require Import Reals List Bool ZArith Arith Lra Lia.
From Verif Require Import Lib.PyBase Lib.Fl Spec.Lag Spec.Turned Spec.TurnedTsallis Model.Units Model.Tsallis Model.TsallisRun Proofs.Tsallis5_Proofs Proofs.TsallisRun2_Proofs Proofs.TurnedTsallis_Proofs.
Import ListNotations.
Local Open Scope R_scope.

(** The array at one lag of an image seen from another side is the array seen from that side. *)
Theorem C309_array : forall periodic v n0 n1 img lag, shape n0 n1 img -> (1 <= lag)%nat ->
  lag_difference periodic (columns_seen v n0 n1) (seen_rows v n0 n1 img) lag = seen_rows v n0 n1 (lag_difference periodic n1 img lag).
Proof. exact difference_seen. Qed.
Print Assumptions C309_array.
(** A run with accepted lags, on any objects: the same exception, or the arrays seen from that side and the same
    distributions, parameters and chi-squares. *)
Theorem C309_run : forall s v n0 n1 img curve_fit old_dist old_dist' old_row old_row' o o' periodic num_bins sigma_clip,
  shape n0 n1 img -> o_lags o' = o_lags o -> set_lags s (Nat.min n0 n1) (Some (o_lags o)) = Ok (o_lags o) ->
  same_tsallis v n0 n1 (run s (columns_seen v n0 n1) (seen_rows v n0 n1 img) curve_fit old_dist' old_row' o' periodic num_bins sigma_clip)
    (run s n1 img curve_fit old_dist old_row o periodic num_bins sigma_clip).
Proof. exact run_seen. Qed.
Print Assumptions C309_run.
(** A 2 x 2 image with one bright pixel, which looks different mirrored, and a run that returns *)
Example C309_case : shape 2 2 point2 /\ seen_rows LeftRight 2 2 point2 <> point2 /\ set_lags plate (Nat.min 2 2) (Some (mk_q [1; 3 / 2] pix)) = Ok (mk_q [1; 3 / 2] pix) /\
  forall old_dist old_row, exists o, run plate 2 point2 const_fit old_dist old_row (mk_t (mk_q [1; 3 / 2] pix) None None) true None (Some 1) = (o, None).
Proof.
  split; [split; [reflexivity|]; intros r [<-|[<-|[]]]; reflexivity|]. split; [intros K; inversion K; lra|]. split; [apply (lags_ok [1; 3 / 2]); repeat constructor; lra|].
  intros od orow. destruct plate_run as (arr & dist & v & _ & R). eexists. apply (R od orow [1; 3 / 2]); [repeat constructor; lra|reflexivity].
Qed.
