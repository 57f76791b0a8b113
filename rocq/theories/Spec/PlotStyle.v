(** The styles of the comparison plots, as documented. *)
From Coq Require Import Reals String List Arith Bool.
From Verif Require Import Lib.PyBase Model.Kwargs Model.PlotStyle.
Import ListNotations.
Local Open Scope string_scope.
Local Open Scope list_scope.

(** The place of the program's own dictionary number [n] *)
Definition own (n : nat) : nat := 26 + n.
(** The program has no other dictionaries than its own [n]: what it gives to a method or sets *)
Definition its_own (n : nat) (a : act) : Prop :=
  match a with
  | Compare c => (forall r, c_1 c = Some r \/ c_2 c = Some r -> exists k, k < n /\ r = own k)
  | Assign r _ => exists k, k < n /\ r = own k
  end.

(** The documented style: the first data set blue, diamonds, "1"; the second green, circles,
    "2", but for what the dictionary [d] says *)
Definition or_default (d : dict) (k : string) (v : string) : pv := match get d k with Some x => x | None => VStr v end.
Definition key_of_symbol (m : metric) : string := match m with MSCF | MPDF => "marker" | _ => "symbol" end.
Definition has_symbols (m : metric) : bool := match m with MPCA | MMoments => false | _ => true end.
Definition first_style (m : metric) (d : dict) : drawn :=
  mk_drawn m false (or_default d "color" "b") (if has_symbols m then Some (or_default d (key_of_symbol m) "D") else None)
           (or_default d "label" "1").
Definition second_style (m : metric) (d : dict) : drawn :=
  mk_drawn m true (or_default d "color" "g") (if has_symbols m then Some (or_default d (key_of_symbol m) "o") else None)
           (or_default d "label" "2").
(** The plots of a method with the dictionaries [d1] and [d2]; Dendrogram_Distance makes two *)
Definition documented (m : metric) (d1 d2 : dict) : list drawn :=
  match m with
  | MDendro => [first_style MDendHist d1; second_style MDendHist d2; first_style MDendNum d1; second_style MDendNum d2]
  | _ => [first_style m d1; second_style m d2]
  end.

(** The options of the plotting methods the dictionaries are handed to; where the plot is made
    by distance_metric itself every key is allowed *)
Definition plot_options (m : metric) : option (list string) :=
  match m with
  | MPSpec | MVCA | MMVC => Some ["color"; "symbol"; "label"; "fit_color"; "show_residual"; "save_name"; "show_2D"; "fillin_errs"]
  | MVCS | MDelVar | MWavelet => Some ["color"; "symbol"; "label"; "fit_color"; "show_residual"; "save_name"]
  | _ => None
  end.
(** The keys of [d] are options of the plot, but for xunit, which is ignored *)
Definition options_of (m : metric) (d : dict) : Prop :=
  match plot_options m with
  | Some l => forall kv, In kv d -> fst kv = "xunit" \/ In (fst kv) l
  | None => True
  end.
(** The dictionary a keyword refers to: {} when it is left out *)
Definition dict_given (h : list dict) (r : option nat) : dict := match r with Some r => nth r h [] | None => [] end.
(** The dictionary sets everything a plot of [m] uses, and no xunit *)
Definition complete (m : metric) (d : dict) : Prop :=
  has d "color" = true /\ has d "label" = true /\
  match m with
  | MMoments => True
  | MSCF | MPDF => has d "marker" = true
  | _ => has d "symbol" = true /\ has d "xunit" = false
  end.

(** The step plots with the dictionary at [r], or sets it *)
Definition touches (r : nat) (a : act) : Prop :=
  match a with Compare c => c_verbose c = true /\ (c_1 c = Some r \/ c_2 c = Some r) | Assign r' _ => r' = r end.
(** The step does not set the dictionary at [r] and does not use it for the other data set
    than the first ([false]) or the second ([true]) *)
Definition side (b : bool) (c : call) : option nat := if b then c_2 c else c_1 c.
Definition only_side (b : bool) (r : nat) (a : act) : Prop :=
  match a with Compare c => side (negb b) c <> Some r | Assign r' _ => r' <> r end.
(** The step is not a comparison of SCF surfaces or PDFs *)
Definition adds_marker (m : metric) : Prop := m = MSCF \/ m = MPDF.
Definition no_marker (a : act) : Prop := match a with Compare c => ~ adds_marker (c_metric c) | Assign _ _ => True end.
