(** Vocabulary for fits of a line with errors on both axes *)
From Coq Require Import String Reals List.
From Verif Require Import Lib.PyBase Lib.Fl Lib.RSum Model.EllipPlaw Model.PcaFit Model.Odr.
Import ListNotations.
Local Open Scope R_scope.

(** What orthogonal distance regression makes small: the weighted squares of the distances in y
    of points moved by [delta] in x, and of these moves *)
Fixpoint misfit (l : list datum) (a b : R) (delta : nat -> R) : fl :=
  match l with
  | [] => Fin 0
  | p :: l => fadd (fadd (fmul (d_we p) (fsqr (fsub (fit_func (a, b) (fadd (d_x p) (Fin (delta 0%nat)))) (d_y p)))) (fmul (d_wd p) (Fin (delta 0%nat * delta 0%nat))))
                   (misfit l a b (fun i => delta (S i)))
  end.
(** No line with any moves is closer *)
Definition best (l : list datum) (a b : R) : Prop := exists delta, forall a' b' delta', fleb (misfit l a b delta) (misfit l a' b' delta') = true.
(** Numbers with positive weights *)
Definition proper (l : list datum) : Prop := Forall (fun p => exists x y wd we, 0 < wd /\ 0 < we /\ p = mk_dat (Fin x) (Fin y) (Fin wd) (Fin we)) l.
(** A regression that finds a best line whenever a line passes through all points *)
Definition finds_exact (odr_run : list datum -> fl * fl -> (R * R) * (R * R)) : Prop :=
  forall l start a b, proper l -> misfit l a b (fun _ => 0) = Fin 0 -> best l (fst (fst (odr_run l start))) (snd (fst (odr_run l start))).

(** The widths of a component: a size and a line width with their errors, all positive *)
Definition component (s es v ev : R) : width_row := mk_row (Fin s) (Fin es) (Fin v) (Fin ev).
Definition positive (r : width_row) : Prop := exists s es v ev, 0 < s /\ 0 < es /\ 0 < v /\ 0 < ev /\ r = component s es v ev.
(** Line width = A * size ^ alpha *)
Definition on_law (A alpha : R) (r : width_row) : Prop := exists s es v ev, r = component s es v ev /\ v = A * Rpower s alpha.
(** The law of a best line of the logarithms *)
Definition best_law (rows : list width_row) (A alpha : R) : Prop := 0 < A /\ best (map odr_datum (map log_point rows)) alpha (log10 A).
(** Sizes, line widths or all errors in another unit *)
Definition times (k : R) (v : fl) : fl := fmul (Fin k) v.
Definition size_unit (k : R) (r : width_row) : width_row := mk_row (times k (w_spat r)) (times k (w_spat_err r)) (w_spec r) (w_spec_err r).
Definition width_unit (k : R) (r : width_row) : width_row := mk_row (w_spat r) (w_spat_err r) (times k (w_spec r)) (times k (w_spec_err r)).
Definition error_unit (k : R) (r : width_row) : width_row := mk_row (w_spat r) (times k (w_spat_err r)) (w_spec r) (times k (w_spec_err r)).
(** Sizes and line widths exchanged *)
Definition exchanged (r : width_row) : width_row := mk_row (w_spec r) (w_spec_err r) (w_spat r) (w_spat_err r).
(** Points of numbers, as in FitUtils.logprob, and their effective misfit to a line *)
Definition real_point (p : R * R * (R * R)) : point := let '(x, y, (ex, ey)) := p in mk_pt (Fin x) (Fin y) (Fin ex) (Fin ey).
Definition errors_positive (pts : list (R * R * (R * R))) : Prop := forall x y ex ey, In (x, y, (ex, ey)) pts -> 0 < ex /\ 0 < ey.
(** The misfit of a line with the best moves *)
Definition least (l : list datum) (a b v : R) : Prop := (exists delta, misfit l a b delta = Fin v) /\ forall delta, fleb (Fin v) (misfit l a b delta) = true.
(** The same error on both axes for all points *)
Definition common_error (e : R) (pts : list (R * R * (R * R))) : Prop := forall x y ex ey, In (x, y, (ex, ey)) pts -> ex = e /\ ey = e.
