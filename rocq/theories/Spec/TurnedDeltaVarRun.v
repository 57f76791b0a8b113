(** Specification vocabulary for DeltaVariance objects of images seen from another side. *)
From Coq Require Import String Reals List ZArith Arith Bool.
From Verif Require Import Lib.PyBase Lib.Fl Model.Units Model.DeltaVar Model.FitState Model.DeltaVarRun Spec.Turned Spec.TurnedDeltaVar.
Local Open Scope R_scope.

(** An image with its weights *)
Record weighted_image := mk_wi { wi_n0 : nat; wi_n1 : nat; wi_data : nat -> nat -> fl; wi_weights : nat -> nat -> R }.
Definition seen_image (v : view) (i : weighted_image) : weighted_image :=
  mk_wi (rows_seen v (wi_n0 i) (wi_n1 i)) (columns_seen v (wi_n0 i) (wi_n1 i)) (seen v (wi_n0 i) (wi_n1 i) (wi_data i)) (seen v (wi_n0 i) (wi_n1 i) (wi_weights i)).
(** What the options of compute_deltavar and the lag decide: the two kernels, the smallest fraction of the weight, and whether blanks are kept *)
Record means := mk_means { m_core : copts -> R -> Z -> Z -> R; m_annulus : copts -> R -> Z -> Z -> R; m_frac : copts -> R; m_preserve : copts -> bool }.
Definition even_means (m : means) : Prop := forall c lag, even_kernel (m_core m c lag) /\ even_kernel (m_annulus m c lag).
Definition seen_means (v : view) (m : means) : means :=
  mk_means (fun c lag => seen_kernel v (m_core m c lag)) (fun c lag => seen_kernel v (m_annulus m c lag)) (m_frac m) (m_preserve m).
(** An object made from the image: its values at each lag are the delta variance of the image, its side is the smaller one, and
    its units and fits are the given ones.  The largest weight is [wmax]. *)
Definition made_from (i : weighted_image) (wmax : R) (m : means) (s : stat) (line : list point -> bool -> fl * fl) (seg : list point -> R -> bool -> result seg_outcome) (e : dv_env) : Prop :=
  v_stat e = s /\ v_side e = Nat.min (wi_n0 i) (wi_n1 i) /\ v_line e = line /\ v_seg e = seg /\
  forall c lag, v_value e c lag =
    deltavar_lag (on_grid (wi_n1 i) (m_core m c lag)) (on_grid (wi_n1 i) (m_annulus m c lag)) (row_by_row (wi_n0 i) (wi_n1 i) (wi_data i)) (row_by_row (wi_n0 i) (wi_n1 i) (wi_weights i)) wmax (m_frac m c) (m_preserve m c) lag.
(** The same lags, curve with errors, range of the fit, slopes and break *)
Definition same_outcome (o o' : dvo) : Prop := d_lags o' = d_lags o /\ d_curve o' = d_curve o /\ d_range o' = d_range o /\ d_fit o' = d_fit o.
