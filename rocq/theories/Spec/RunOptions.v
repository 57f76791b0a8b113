(** The documented options of `run` of the delta variance and the wavelet transform, by the step
    they are for. *)
From Coq Require Import Reals String List Arith Bool.
From Verif Require Import Lib.PyBase Model.FitUtils Model.Kwargs Model.RunOptions Spec.Kwargs.
Import ListNotations.
Local Open Scope string_scope.
Local Open Scope list_scope.

(** Options for the transform, with their defaults *)
Definition transform_table (k : kind) : table :=
  match k with
  | DELTA => [("allow_huge", VBool false); ("boundary", VStr "wrap"); ("nan_treatment", VStr "fill"); ("preserve_nan", VBool false);
              ("use_pyfftw", VBool false); ("threads", VNum 1); ("pyfftw_kwargs", VDict 0); ("show_progress", VBool true)]
  | WAVELET => [("scale_normalization", VBool true); ("convolve_kwargs", VDict 0); ("use_pyfftw", VBool false); ("threads", VNum 1);
                ("pyfftw_kwargs", VDict 0); ("show_progress", VBool true)]
  end.
(** Options for the fit: of run itself, and in fit_kwargs *)
Definition fit_table (k : kind) : table :=
  [("xlow", VNone); ("xhigh", VNone); ("brk", VNone)] ++ match k with DELTA => [("verbose", VBool false)] | WAVELET => [] end.
Definition fit_dict_table (k : kind) : table :=
  [("bootstrap", VBool false); ("bootstrap_kwargs", VDict 0)] ++ match k with DELTA => [] | WAVELET => [("min_fits_pts", VNum 3); ("weighted_fit", VBool false)] end.
(** Options for the segmented fit, in fit_kwargs *)
Definition segmented_table : table :=
  [("tol", VNum (1/1000)); ("iter_max", VNum 100); ("h_step", VNum 2); ("epsil_0", VNum 10); ("constant", VBool true); ("missing", VStr "drop")].
(** The other options of run *)
Definition other_options (k : kind) : list string :=
  ["xunit"; "save_name"; "fit_kwargs"] ++ match k with DELTA => [] | WAVELET => ["verbose"; "color"; "symbol"; "fit_color"; "label"; "show_residual"] end.
Definition options_of (k : kind) : list string := names (transform_table k) ++ names (fit_table k) ++ other_options k.


(** Options run should accept: documented names, each given once, with dictionaries for fit_kwargs,
    bootstrap_kwargs and convolve_kwargs; in fit_kwargs documented names only; nothing in
    convolve_kwargs or bootstrap_kwargs that the code gives itself *)
Definition documented (h : list dict) (k : kind) (e x : dict) : Prop :=
  keys_in (e ++ x) (options_of k) /\ (forall kv, In kv e -> get x (fst kv) = None) /\
  (exists r, chosen (e ++ x) "fit_kwargs" (VDict 0) = VDict r) /\
  keys_in (options_in h (e ++ x) "fit_kwargs") (names (fit_dict_table k) ++ names segmented_table) /\
  (exists r, chosen (options_in h (e ++ x) "fit_kwargs") "bootstrap_kwargs" (VDict 0) = VDict r /\ get (nth r h []) "fit_model" = None) /\
  (k = WAVELET -> exists r, chosen (e ++ x) "convolve_kwargs" (VDict 0) = VDict r /\
     forall n, In n ["array"; "kernel"; "normalize_kernel"; "fftn"; "ifftn"; "nan_treatment"; "preserve_nan"] -> get (nth r h []) n = None).

(** Data set [o] was run once, with these options *)
Definition ran_with (w w' : world) (k : kind) (o : nat) (opts : dict) : Prop :=
  (exists c, new_calls w w' o (compute_name k) [c] /\ gets c (transform_table k) opts) /\
  (exists c, new_calls w w' o (fit_name k) [c] /\ gets c (fit_table k) opts /\ gets c (fit_dict_table k) (options_in (heap w) opts "fit_kwargs")).
Definition not_run (w w' : world) (k : kind) (o : nat) : Prop := new_calls w w' o (compute_name k) [] /\ new_calls w w' o (fit_name k) [].

(** ** The distances *)

(** Data set [i] (0 or 1) was run once with these options when it had to be, and otherwise used as it is *)
Definition as_asked (w w' : world) (k : kind) (i : nat) (again : bool) (opts : dict) : Prop :=
  if again then ran_with w w' k (S i) opts else forall evs, steps w' = steps w ++ evs -> forall c, In c evs -> e_of c <> S i.
(** Data, objects without a slope and objects computed at other lags have to be run *)
Definition to_run (d : dataset) : bool := match d with Obj true true => false | _ => true end.
Definition both_data_or_objects (d1 d2 : dataset) : Prop := match d1, d2 with Data, Data | Obj _ _, Obj _ _ => True | _, _ => False end.
