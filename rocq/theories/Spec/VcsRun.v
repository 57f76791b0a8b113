(** Specification vocabulary for VCS objects. *)
From Coq Require Import Reals List Arith.
From Verif Require Import Lib.PyBase Lib.Fl Model.Psds Model.Units Model.DeltaVar Model.LmSeg Model.VcsFit Model.VcsRun.
Import ListNotations.
Local Open Scope R_scope.

(** The limits of a fit: what was given, in 1/pix; by default just below the lowest frequency
    1/n and above the highest. *)
Definition low_limit (to_freq : quantity -> result R) (n : nat) (given : option quantity) (low : R) : Prop :=
  match given with Some q => to_freq q = Ok low | None => low = 98 / 100 / INR n end.
Definition high_limit (to_freq : quantity -> result R) (n : nat) (given : option quantity) (high : R) : Prop :=
  match given with Some q => to_freq q = Ok high | None => exists m, In m (vcs_freqs n) /\ (forall f, In f (vcs_freqs n) -> f <= m) /\ high = m * (101 / 100) end.
(** The points of a fit: every frequency k/n for 1 <= k < n/2 within the limits, with its power. *)
Definition points_of (n : nat) (ps : list fl) (low high : R) (pts : list (R * fl)) : Prop :=
  pts = map (fun k => (INR k / INR n, nth k ps NaN))
            (filter (fun k => if Rlt_dec low (INR k / INR n) then if Rle_dec (INR k / INR n) high then true else false else false) (seq 1 (n / 2 - 1))).
(** A start as the fit takes it: log10 of the break unless it was given so. *)
Definition as_start (log_break : bool) (b : R) : fl := if log_break then Fin b else flog10 (Fin b).
(** What an object shows. *)
Definition shown (o : vobj) : result (list fl) * result (list fl) * result R * result fl := (slope o, slope_err o, brk o, brk_err o).
(** The frequencies of a fit. *)
Definition fitted_freqs (n : nat) (low high : R) : list R :=
  map (fun k => INR k / INR n) (filter (fun k => if Rlt_dec low (INR k / INR n) then if Rle_dec (INR k / INR n) high then true else false else false) (seq 1 (n / 2 - 1))).
(** A spectrum follows a law at the frequencies of a fit. *)
Definition follows (n : nat) (ps : list fl) (low high : R) (law : R -> R) : Prop :=
  forall k, (1 <= k < n / 2)%nat -> low < INR k / INR n <= high -> nth k ps NaN = Fin (law (INR k / INR n)).
(** Knots of a spline lie within the range of the points. *)
Definition knots_inside (knots : list R -> list fl -> result (list R)) : Prop :=
  forall x y ks k, knots x y = Ok ks -> In k ks -> exists v, In v x /\ k <= v.
