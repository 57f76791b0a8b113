(** The documented options of the 2D power spectrum statistics, and what it means that an
    option given by the user reaches the step that uses it. *)
From Coq Require Import Reals String List Arith Bool.
From Verif Require Import Lib.PyBase Model.FitUtils Model.Kwargs.
Import ListNotations.
Local Open Scope string_scope.
Local Open Scope list_scope.

(** The value of option [k] among the options the user gave, or its default [v] *)
Definition chosen (opts : dict) (k : string) (v : pv) : pv := match get opts k with Some v' => v' | None => v end.
(** The dictionary the user gave for the option [k] ({} when left out) *)
Definition options_in (h : list dict) (opts : dict) (k : string) : dict :=
  match get opts k with Some (VDict r) => nth r h [] | _ => [] end.
(** A list of options with their defaults *)
Definition table := list (string * pv).

(** What the documentation of `run` says about the steps, option by option *)
Definition fit_from_run : table := [("fit_unbinned", VBool false); ("low_cut", VNone); ("high_cut", VNone)].
Definition fit_from_dict : table :=
  [("brk", VNone); ("log_break", VBool false); ("min_fits_pts", VNum 10); ("weighted_fit", VBool false); ("bootstrap", VBool false);
   ("bootstrap_kwargs", VDict 0); ("verbose", VBool false)].
Definition fit2D_from_run : table := [("low_cut", VNone); ("high_cut", VNone)].
Definition fit2D_from_dict : table :=
  [("fit_method", VStr "LevMarq"); ("p0", VObj 1); ("bootstrap", VBool true); ("niters", VNum 100); ("use_azimmask", VBool false);
   ("radial_weighting", VBool false); ("fix_ellip_params", VBool false)].
Definition compute_from_run : table :=
  [("beam_correct", VBool false); ("apodize_kernel", VNone); ("alpha", VNum (2/10)); ("beta", VNum 0); ("use_pyfftw", VBool false);
   ("threads", VNum 1)].
Definition radial_from_dict : table :=
  [("logspacing", VBool false); ("max_bin", VNone); ("nbins", VNone); ("binsize", VNum 1); ("min_bin", VNone);
   ("return_freqs", VBool true); ("theta_0", VNone); ("delta_theta", VNone); ("boot_iter", VNone); ("mean_func", VObj 2)].
(** The remaining options of run: for the plot, or the dictionaries themselves *)
Definition run_only : list string :=
  ["verbose"; "pyfftw_kwargs"; "radial_pspec_kwargs"; "fit_kwargs"; "fit_2D"; "fit_2D_kwargs"; "xunit"; "save_name"; "use_wavenumber"].
Definition names (t : table) : list string := map fst t.
Definition run_options : list string := names compute_from_run ++ names fit_from_run ++ run_only.
(** Every key of the dictionary is one of the names *)
Definition keys_in (d : dict) (l : list string) : Prop := forall kv, In kv d -> In (fst kv) l.

(** The call [e] got, for every option of the table, what [opts] asks for *)
Definition gets (e : event) (t : table) (opts : dict) : Prop :=
  forall k v, In (k, v) t -> get (e_args e) k = Some (chosen opts k v).
(** The calls of function [f] for data set [o] made between two moments *)
Definition new_calls (w w' : world) (o : nat) (f : string) (l : list event) : Prop :=
  exists evs, steps w' = steps w ++ evs /\
    filter (fun e => Nat.eqb (e_of e) o && String.eqb (e_fun e) f) evs = l.

(** ** The options of the distance constructors *)

(** The limit documented for data set [i] (0 or 1): none, one Quantity for both, or one value
    for each *)
Definition limit_for (l : FitUtils.limit) (i : nat) : option pv :=
  match l with
  | FitUtils.LNone => Some VNone
  | FitUtils.LScalarQ v => Some (VQty v)
  | FitUtils.LArrayQ [a; b] | FitUtils.LSeq [a; b] => Some (VQty (match i with 0 => a | _ => b end))
  | _ => None
  end.
(** The break documented for data set [i]: none, one value for both, or one for each *)
Definition break_for (b : brks) (i : nat) : option pv :=
  match b with
  | BNone => Some VNone
  | BScalarQ v => Some (VQty v)
  | BNumber v => Some (VNum v)
  | BArray l | BList l => nth_error l i
  end.
(** The dictionary of data set [i]: the second one, unless it is None *)
Definition dict_for (h : list dict) (kw kw2 : pv) (i : nat) : dict :=
  match i, kw2 with
  | S _, VDict r => nth r h []
  | _, _ => match kw with VDict r => nth r h [] | _ => [] end
  end.
(** Data set [o] was run once, with these limits, this break and these options of the radial
    spectrum, and without the 2D fit *)
Definition configured (w w' : world) (o : nat) (low high brk : pv) (radial : dict) : Prop :=
  (exists c, new_calls w w' o "fit_pspec" [c] /\ get (e_args c) "low_cut" = Some low /\ get (e_args c) "high_cut" = Some high /\
             get (e_args c) "brk" = Some brk) /\
  (exists c, new_calls w w' o "pspec" [c] /\ gets c radial_from_dict radial) /\
  new_calls w w' o "fit_2Dpspec" [].
(** Every dictionary a value of a dictionary refers to exists *)
Definition closed (h : list dict) : Prop := forall d k r, In d h -> get d k = Some (VDict r) -> r < length h.

(** The options of run that have to be dictionaries are *)
Definition dict_options : list string := ["pyfftw_kwargs"; "radial_pspec_kwargs"; "fit_kwargs"; "fit_2D_kwargs"].
Definition dicts_given (opts : dict) : Prop := forall n, In n dict_options -> exists r, chosen opts n (VDict 0) = VDict r.
(** Limits of a documented form *)
Definition limits_fine (low high : FitUtils.limit) : Prop := (exists v, limit_for low 0 = Some v) /\ (exists v, limit_for high 0 = Some v).
(** A break for each data set, other than by one Quantity *)
Definition break_fine (b : brks) : Prop := (forall q, b <> BScalarQ q) /\ forall i, i < 2 -> exists v, break_for b i = Some v.

(** Options run should accept: documented names, each given once, dictionaries where
    dictionaries are due, and in each of them only documented names.  The keywords for pyfftw
    are those of another library; they must not repeat an option of run. *)
Definition documented (h : list dict) (e x : dict) : Prop :=
  keys_in (e ++ x) run_options /\ (forall kv, In kv e -> get x (fst kv) = None) /\
  dicts_given (e ++ x) /\
  (forall n, In n (["self"; "image"; "a"] ++ names compute_from_run) -> get (options_in h (e ++ x) "pyfftw_kwargs") n = None) /\
  keys_in (options_in h (e ++ x) "radial_pspec_kwargs") (names radial_from_dict) /\
  keys_in (options_in h (e ++ x) "fit_kwargs") (names fit_from_dict) /\
  keys_in (options_in h (e ++ x) "fit_2D_kwargs") (names fit2D_from_dict).
(** A value that is an existing dictionary *)
Definition known (h : list dict) (v : pv) : Prop := exists r, v = VDict r /\ r < length h.
(** The moment a constructor is called: the default {} is empty, dictionaries refer to existing ones *)
Definition ready (w : world) : Prop := (exists rest, heap w = [] :: rest) /\ closed (heap w).
(** What is documented for data set [i] of a distance: raw data and objects that were not fitted
    are run once, with the limits and the break of the data set and the radial options [radial];
    an object that was fitted is used as it is. *)
Definition as_documented (w w' : world) (i : nat) (d : given) (low high : limit) (b : brks) (radial : dict) : Prop :=
  if needs_run d
  then exists lo hi bv, limit_for low i = Some lo /\ limit_for high i = Some hi /\ break_for b i = Some bv /\ configured w w' (S i) lo hi bv radial
  else forall evs, steps w' = steps w ++ evs -> forall c, In c evs -> e_of c <> S i.

(** ** VCS *)
Definition vcs_fit_table : table :=
  [("breaks", VNone); ("log_break", VBool true); ("low_cut", VNone); ("high_cut", VNone); ("fit_verbose", VBool false); ("bootstrap", VBool false)].
Definition vcs_transform_table : table := [("use_pyfftw", VBool false); ("threads", VNum 1)].
Definition vcs_run_only : list string := ["verbose"; "save_name"; "xunit"; "use_pyfftw"; "threads"; "pyfftw_kwargs"].
