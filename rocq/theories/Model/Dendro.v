(** Model of turbustat/statistics/dendrograms/{dendro_stats,mecdf}.py.  The dendrogram
    itself (astrodendro) is an argument. *)
From Coq Require Import Reals List Bool ZArith Arith.
From Verif Require Import Lib.PyBase Lib.RSum Lib.Fl Lib.Arr Lib.Hist Spec.Blank Model.StatsUtils.
Import ListNotations.
Local Open Scope R_scope.

(** The value given for min_deltas, and the stored array: one or two dimensional. *)
Inductive deltas_arg := DNone | DArray (l : list R) | DList (l : list R) | DScalar (r : R).
Inductive nd := A1 (l : list R) | A2 (rows : list (list R)).
Definition nd_len (a : nd) : nat := match a with A1 l => length l | A2 rows => length rows end.

(** (np.diff(value) > 0).all() *)
Fixpoint diffs_pos (l : list R) : bool :=
  match l with a :: ((b :: _) as r) => Rltb a b && diffs_pos r | _ => true end.

(** dendro_stats.py:93-107: the min_deltas setter; [param] is dendro_params["min_delta"],
    if there.  np.diff of None or of a scalar raises ValueError. *)
Definition set_min_deltas (param : option R) (value : deltas_arg) : result nd :=
  match value, param with
  | DNone, Some d => Ok (A1 [d])
  | DNone, None => Err ValueError
  | DScalar _, _ => Err ValueError
  | DArray l, _ => if diffs_pos l then Ok (A1 l) else Err ValueError
  | DList l, _ => if diffs_pos l then Ok (A2 [l]) else Err ValueError
  end.

(** dendro_stats.py:109-129 [autoset_min_deltas].  Without a min_value it is -inf, ptp is
    inf, and the differences of the resulting array are not positive (they are NaN), except
    when there is at most one value (not modelled, OtherError); the data have no
    infinities; np.nanmax of no values raises ValueError. *)
Definition autoset_min_deltas (min_value min_delta : option R) (data : list fl) (num : nat) : result nd :=
  let d := match min_delta with Some d => d | None => 1 / 10 ^ 5 end in
  match min_value with
  | None => if Nat.leb num 1 then Err OtherError else Err ValueError
  | Some m =>
      match fins (filter (fun v => fltb (Fin m) v) data) with
      | [] => Err ValueError
      | x :: r => let ptp := lmax x r - m in set_min_deltas (Some d) (DArray (firstn num (linspace d ptp (num + 1))))
      end
  end.

(** dendro_stats.py:131-194 [compute_dendro].  [D] are dendrogram objects: [build d] is
    Dendrogram.compute with min_delta = d, [prune] acts in place, so the last object is the
    state of the object afterwards. *)
Section Compute.
Context {D : Type} (build : R -> D) (prune : R -> D -> D) (num : D -> nat) (vmax : D -> list R).
Fixpoint prune_steps (d : D) (deltas : list R) : list (nat * list R) * D :=
  match deltas with
  | [] => ([], d)
  | delta :: r => let d' := prune delta d in let '(out, last) := prune_steps d' r in ((num d', vmax d') :: out, last)
  end.
Definition compute_dendro (deltas : list R) (obj : option D) : result (list (nat * list R) * D) :=
  match deltas with
  | [] => Err IndexError
  | d0 :: r =>
      let d := match obj with None => build d0 | Some d => d end in
      let '(out, last) := prune_steps d r in Ok ((num d, vmax d) :: out, last)
  end.
End Compute.

(** np.histogram(value, bins): counts and edges *)
Definition np_histogram (value : list R) (bins : bins_arg) : result (list R * list R) :=
  edges <- bin_edges value bins ;; Ok (counts value edges, edges).

(** dendro_stats.py:211-241 [make_hists]: bin centres and counts.  [bins] is the keyword,
    which is removed by the first histogram. *)
Fixpoint make_hists (min_number : nat) (bins : option bins_arg) (values : list (list R)) : result (list (list R * list R)) :=
  match values with
  | [] => Ok []
  | value :: r =>
      if Nat.ltb (length value) min_number then rest <- make_hists min_number bins r ;; Ok (([], []) :: rest)
      else
        let b := match bins with None => NumBins (Nat.sqrt (length value)) | Some b => b end in
        he <- np_histogram value b ;;
        rest <- make_hists min_number None r ;;
        Ok ((mid (snd he), fst he) :: rest)
  end.

(** np.argmax of numbers: the first largest value *)
Fixpoint argmax_from (best : R) (pos i : nat) (l : list R) : nat :=
  match l with [] => pos | x :: r => if Rltb best x then argmax_from x i (S i) r else argmax_from best pos (S i) r end.
Definition argmax (l : list R) : result nat := match l with [] => Err ValueError | x :: r => Ok (argmax_from x 0 1 r) end.

(** dendro_stats.py:909-940 [std_window], size >= 1.  An index beyond [stds] raises
    IndexError; for size 1 all windows are empty, their deviations NaN and the
    position 0. *)
Definition std_window (y : list R) (size : nat) : result nat :=
  let half := ((size - 1) / 2)%nat in
  let shape := length y in
  if Nat.ltb (shape + 1) size then Err ValueError
  else if Nat.ltb (shape + 1 - size) (shape - 2 * half) then Err IndexError
  else if Nat.eqb half 0 then (if Nat.eqb shape 0 then Err ValueError else Ok 0%nat)
  else
    pos <- argmax (map (fun k => sqrt (rvar (firstn (2 * half) (skipn k y)))) (seq 0 (shape - 2 * half))) ;;
    Ok (pos + half)%nat.

(** dendro_stats.py:266-284 [fit_numfeat]: the (min_delta, number) pairs used for the fit *)
Definition fit_numfeat (deltas : list R) (numfeatures : list nat) (size : nat) : result (list (R * nat)) :=
  if Nat.eqb (length numfeatures) 1 then Err ValueError
  else
    let pts := filter (fun p => Nat.ltb 1 (snd p)) (combine deltas numfeatures) in
    break_pos <- std_window (map (fun p => INR (snd p)) pts) size ;;
    if Nat.ltb (length (skipn break_pos pts)) 2 then Err ValueError else Ok (skipn break_pos pts).

(** dendro_stats.py:592-609: np.argwhere(numfeatures > min_features), its .any() and its
    last entry *)
Definition argwhere_gt (numfeatures : list nat) (m : nat) : list nat :=
  filter (fun i => Nat.ltb m (nth i numfeatures 0%nat)) (seq 0 (length numfeatures)).
Definition one_cutoff (numfeatures : list nat) (m : nat) : result nat :=
  let w := argwhere_gt numfeatures m in
  if existsb (fun i => negb (Nat.eqb i 0)) w then Ok (last w 0%nat) else Err ValueError.
Definition cutoff (num1 num2 : list nat) (min_features : nat) : result nat :=
  c1 <- one_cutoff num1 min_features ;; c2 <- one_cutoff num2 min_features ;; Ok (Nat.min c1 c2).

(** dendro_stats.py:546-589: which thresholds the two dendrograms of a comparison use.
    A dataset, or an object with its own thresholds that may have a fitted slope.  Objects
    are run again with their own thresholds; comparing arrays of different lengths gives a
    bool without [.all]. *)
Inductive dataset := Raw | Object (deltas : list R) (has_slope : bool).
Fixpoint all_eq (a b : list R) : bool :=
  match a, b with x :: r, y :: s => Reqb x y && all_eq r s | _, _ => true end.
Definition used_deltas (ds : dataset) (min_deltas : list R) : result (list R * bool) :=
  match ds with
  | Raw => Ok (min_deltas, true)
  | Object d slope => if Nat.eqb (length d) (length min_deltas) then Ok (d, negb (slope && all_eq d min_deltas)) else Err AttributeError
  end.

(** dendro_stats.py:539-540, 555-589: keyword dictionaries are sets of keys here.  'make_hists' and
    'verbose' are removed from dendro_kwargs (in place), never from dendro2_kwargs; run
    with a doubled keyword raises TypeError. *)
Inductive kw := KMakeHists | KVerbose | KOther (n : nat).
Definition is_reserved (k : kw) : bool := match k with KOther _ => false | _ => true end.
Definition pop_reserved (l : list kw) : list kw := filter (fun k => negb (is_reserved k)) l.
Definition run_kwargs (l : list kw) : result unit := if existsb is_reserved l then Err TypeError else Ok tt.
(** [dendro2_kwargs] = None means the same dictionary; the result is the dictionary of the
    caller afterwards *)
Definition distance_kwargs (run1 run2 : bool) (dendro_kwargs : list kw) (dendro2_kwargs : option (list kw)) : result (list kw) :=
  let k1 := if run1 then pop_reserved dendro_kwargs else dendro_kwargs in
  _ <- (if run1 then run_kwargs k1 else Ok tt) ;;
  let k1' := if run2 then pop_reserved k1 else k1 in
  _ <- (if run2 then run_kwargs (match dendro2_kwargs with None => k1' | Some l => l end) else Ok tt) ;;
  Ok k1'.

(** The nbins attribute *)
Inductive nbins_state := NBest | NInt (n : nat) | NArr (l : list nat).

Fixpoint each {A B} (f : A -> result B) (l : list A) : result (list B) :=
  match l with [] => Ok [] | a :: r => b <- f a ;; bs <- each f r ;; Ok (b :: bs) end.

(** np.histogram(stand_data, bins=edges, density=True)[0], padded with NaN and divided by
    its np.nansum (dendro_stats.py:749-763) *)
Definition hist_row (data : list fl) (edges : list R) (maxb : nat) : result (list fl) :=
  he <- histogram_fl data (Edges edges) ;;
  let row := fst he ++ repeat NaN (maxb + 1 - length edges) in
  Ok (map (fun v => fdiv v (nansum row)) row).

(** mecdf.py:16-40, one row: np.cumsum(row / np.sum(row)) *)
Definition mecdf_row (row : list fl) : list fl :=
  let r := map (fun v => fdiv v (fsum row)) row in
  tab1 (length r) (fun k => fsum (firstn (S k) r)).

(** dendro_stats.py:893-906 [hellinger_stat]: np.mean of the distances of the rows *)
Definition hellinger_stat (rows1 rows2 : list (list fl)) : fl :=
  fdiv (fsum (map2 (fun a b => hellinger a b 1) rows1 rows2)) (Fin (INR (length rows1))).

(** dendro_stats.py:718-769 [histogram_stat]: the new nbins, both arrays of histograms and
    the distance.  On a second call nbins is an array: comparing it with "best" or using its
    rows as numbers of bins raises (which exception depends on the numpy version; arrays of
    one element, which some versions accept, are not modelled); edges that are not numbers
    (constant data) are not modelled (OtherError).  [num1], [num2] are numfeatures,
    [vals1], [vals2] the peak values. *)
Definition histogram_stat (num1 num2 : list nat) (vals1 vals2 : list (list R)) (cut : nat) (nbins : nbins_state) :
  result (list nat * list (list fl) * list (list fl) * fl) :=
  nb <- (match nbins with
         | NBest => Ok (map (fun p => Z.to_nat (Int_part (sqrt (INR (fst p + snd p) / 2)))) (combine (firstn cut num1) (firstn cut num2)))
         | NInt n => Ok (repeat n (length (firstn cut num1)))
         | NArr _ => Err OtherError
         end) ;;
  let maxb := list_max nb in
  rows <- each (fun t : (list R * list R) * nat =>
            let '((data1, data2), nbin) := t in
            let s1 := standardize (map Fin data1) in
            let s2 := standardize (map Fin data2) in
            b <- common_histogram_bins 1 1 s1 s2 (Some (nbin + 1)%nat) false None None ;;
            match b with
            | None => Err OtherError
            | Some (edges, _) => h1 <- hist_row s1 edges maxb ;; h2 <- hist_row s2 edges maxb ;; Ok (h1, h2)
            end)
          (combine (combine (firstn cut vals1) (firstn cut vals2)) nb) ;;
  let h1 := map fst rows in
  let h2 := map snd rows in
  Ok (nb, h1, h2, hellinger_stat h1 h2).
