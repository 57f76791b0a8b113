(** Model of turbustat/statistics/dendrograms/dendro_stats.py: a Dendrogram_Stats object through a
    history of calls, each of which may raise and leaves the attributes it had set before, and the
    distance of the numbers of features. *)
From Coq Require Import Reals List Arith Bool.
From Verif Require Import Lib.PyBase Lib.RSum Lib.Fl Lib.Arr Lib.Hist Model.StatsUtils Model.Psds Model.EllipPlaw Model.Distances Model.Dendro.
Import ListNotations.
Local Open Scope R_scope.

(** What is not modelled here: Dendrogram.compute of the data with periodic_bounds and a min_delta
    (the other parameters stay), the pruning and the structures of dendrograms [D], and the
    least-squares fit (slope and its error) to points (log delta, log number).  [n_keys]: do the
    dendro_params have min_value and min_npix; [n_param]: their min_delta. *)
Record dendro_env (D : Type) := mk_denv { n_build : bool -> R -> D; n_prune : R -> D -> D; n_num : D -> nat; n_vmax : D -> list R;
  n_keys : bool; n_param : option R; n_ols : list (fl * fl) -> result (fl * fl) }.
Arguments mk_denv {D}. Arguments n_build {D}. Arguments n_prune {D}. Arguments n_num {D}. Arguments n_vmax {D}.
Arguments n_keys {D}. Arguments n_param {D}. Arguments n_ols {D}.

(** Attributes; None: not set.  An entry None of [d_num] is memory of np.empty that was not filled.
    [d_fitted] are the points of the fit before their logarithms are taken. *)
Record dendro_obj := mk_dobj { d_deltas : list R; d_num : option (list (option nat)); d_values : option (list (list R));
  d_hists : option (list (list R * list R)); d_break : option R; d_fitted : option (list (R * nat)); d_slope : option (fl * fl) }.
(** dendro_stats.py:61-84 with the thresholds as an array *)
Definition new_dendro (deltas : list R) : dendro_obj := mk_dobj deltas None None None None None None.
Definition outcome := (dendro_obj * option exn)%type.
Definition also (r : outcome) (k : dendro_obj -> outcome) : outcome := match r with (o, None) => k o | _ => r end.

Section Calls.
Context {D : Type} (e : dendro_env D).

(** dendro_stats.py:93-107, the setter of min_deltas; lists, which become two dimensional (C164),
    are left out *)
Definition set_deltas (o : dendro_obj) (value : deltas_arg) : outcome :=
  match set_min_deltas (n_param e) value with
  | Ok (A1 l) => (mk_dobj l (d_num o) (d_values o) (d_hists o) (d_break o) (d_fitted o) (d_slope o), None)
  | Ok (A2 _) => (o, Some OtherError)
  | Err x => (o, Some x)
  end.

Definition set_counts (o : dendro_obj) (num : list (option nat)) (values : list (list R)) : dendro_obj :=
  mk_dobj (d_deltas o) (Some num) (Some values) (d_hists o) (d_break o) (d_fitted o) (d_slope o).
(** dendro_stats.py:131-194 [compute_dendro] *)
Definition do_compute (o : dendro_obj) (periodic : bool) (obj : option D) : outcome :=
  let o := set_counts o (repeat None (length (d_deltas o))) [] in
  match compute_dendro (n_build e periodic) (n_prune e) (n_num e) (n_vmax e) (d_deltas o) obj with
  | Err x => (o, Some x)
  | Ok (out, _) =>
      match obj with
      | None => if n_keys e then (set_counts o (map (fun p => Some (fst p)) out) (map snd out), None) else (o, Some KeyError)
      | Some _ => (set_counts o (map (fun p => Some (fst p)) out) (map snd out), None)
      end
  end.

(** All numbers, if all are set *)
Fixpoint all_set (l : list (option nat)) : option (list nat) :=
  match l with [] => Some [] | Some n :: r => match all_set r with Some l => Some (n :: l) | None => None end | None :: _ => None end.
(** dendro_stats.py:252-297 [fit_numfeat].  Numbers that were never set are not modelled. *)
Definition do_fit (o : dendro_obj) (size : nat) : outcome :=
  match d_num o with
  | None => (o, Some AttributeError)
  | Some nums =>
      if Nat.eqb (length nums) 1 then (o, Some ValueError)
      else if negb (Nat.eqb (length nums) (length (d_deltas o))) then (o, Some IndexError)
      else match all_set nums with
           | None => (o, Some OtherError)
           | Some nums =>
               let pts := filter (fun p => Nat.ltb 1 (snd p)) (combine (d_deltas o) nums) in
               match std_window (map (fun p => INR (snd p)) pts) size with
               | Err x => (o, Some x)
               | Ok b =>
                   let o := mk_dobj (d_deltas o) (d_num o) (d_values o) (d_hists o) (Some (fst (nth b pts (0, 0%nat)))) (d_fitted o) (d_slope o) in
                   if Nat.ltb (length (skipn b pts)) 2 then (o, Some ValueError)
                   else
                     let o := mk_dobj (d_deltas o) (d_num o) (d_values o) (d_hists o) (d_break o) (Some (skipn b pts)) (d_slope o) in
                     match n_ols e (map (fun p => (flog10 (Fin (fst p)), flog10 (Fin (INR (snd p))))) (skipn b pts)) with
                     | Err x => (o, Some x)
                     | Ok sl => (mk_dobj (d_deltas o) (d_num o) (d_values o) (d_hists o) (d_break o) (d_fitted o) (Some sl), None)
                     end
               end
           end
  end.

(** dendro_stats.py:211-241 [make_hists] *)
Definition do_hists (o : dendro_obj) (min_number : nat) (bins : option bins_arg) : outcome :=
  match d_values o with
  | None => (o, Some AttributeError)
  | Some values =>
      match make_hists min_number bins values with
      | Err x => (o, Some x)
      | Ok h => (mk_dobj (d_deltas o) (d_num o) (d_values o) (Some h) (d_break o) (d_fitted o) (d_slope o), None)
      end
  end.

(** Arguments of run that are not about plots *)
Record run_args := mk_dargs { g_periodic : bool; g_obj : option D; g_size : nat; g_hists : bool; g_min_number : nat; g_bins : option bins_arg }.
(** dendro_stats.py:406-452 [run] without the plots *)
Definition do_run (o : dendro_obj) (a : run_args) : outcome :=
  also (do_compute o (g_periodic a) (g_obj a)) (fun o =>
  also (do_fit o (g_size a)) (fun o =>
  if g_hists a then do_hists o (g_min_number a) (g_bins a) else (o, None))).
End Calls.
Arguments mk_dargs {D}. Arguments g_periodic {D}. Arguments g_obj {D}. Arguments g_size {D}. Arguments g_hists {D}. Arguments g_min_number {D}. Arguments g_bins {D}.

(** dendro_stats.py:636-639 [numfeature_stat]; an object without a fit has no tail_slope *)
Definition num_distance (o1 o2 : dendro_obj) : result fl :=
  match d_slope o1, d_slope o2 with
  | Some (s1, e1), Some (s2, e2) => Ok (tail_distance s1 e1 s2 e2)
  | _, _ => Err AttributeError
  end.
