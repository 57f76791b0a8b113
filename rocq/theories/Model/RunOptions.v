(** Model of how keyword arguments travel from the user through `run` and through the distance
    constructors of the delta variance and the wavelet transform to the steps that use them:
    delta_variance/delta_variance.py, wavelets/wavelet_transform.py, convolve_wrapper.py.
    Calls, dictionaries and binding are those of Kwargs.v.  Errors that depend on the data are not
    modelled here (DeltaVarRun.v, Units.v); the progress bar and the printed summary are not. *)
From Coq Require Import Reals String List Arith Bool.
From Verif Require Import Lib.PyBase Model.FitUtils Model.Kwargs.
Import ListNotations.
Local Open Scope string_scope.
Local Open Scope list_scope.

Inductive kind := DELTA | WAVELET.

(** delta_variance.py:606-612 and wavelet_transform.py:546-551 *)
Definition run_sig (k : kind) : signature := method
  match k with
  | DELTA => [("show_progress", d_bool true); ("verbose", d_bool false); ("xunit", Some (VObj 3)); ("nan_treatment", Some (VStr "fill"));
              ("preserve_nan", d_bool false); ("allow_huge", d_bool false); ("boundary", Some (VStr "wrap")); ("use_pyfftw", d_bool false);
              ("threads", d_num 1); ("pyfftw_kwargs", d_dict); ("xlow", d_none); ("xhigh", d_none); ("brk", d_none); ("fit_kwargs", d_dict);
              ("save_name", d_none)]
  | WAVELET => [("show_progress", d_bool true); ("verbose", d_bool false); ("xunit", Some (VObj 3)); ("convolve_kwargs", d_dict);
                ("use_pyfftw", d_bool false); ("threads", d_num 1); ("pyfftw_kwargs", d_dict); ("scale_normalization", d_bool true);
                ("xlow", d_none); ("xhigh", d_none); ("brk", d_none); ("fit_kwargs", d_dict); ("save_name", d_none)]
  end (match k with DELTA => false | WAVELET => true end).
(** delta_variance.py:137-143 and wavelet_transform.py:112-114 *)
Definition compute_sig (k : kind) : signature := method
  match k with
  | DELTA => [("allow_huge", d_bool false); ("boundary", Some (VStr "wrap")); ("min_weight_frac", d_num (1/100)); ("nan_treatment", Some (VStr "fill"));
              ("preserve_nan", d_bool false); ("use_pyfftw", d_bool false); ("threads", d_num 1); ("pyfftw_kwargs", d_dict); ("show_progress", d_bool true);
              ("keep_convolve_arrays", d_bool false)]
  | WAVELET => [("show_progress", d_bool true); ("scale_normalization", d_bool true); ("keep_convolved_arrays", d_bool false); ("convolve_kwargs", d_dict);
                ("use_pyfftw", d_bool false); ("threads", d_num 1); ("pyfftw_kwargs", d_dict)]
  end false.
(** delta_variance.py:293-295 and wavelet_transform.py:226-228 *)
Definition fit_sig (k : kind) : signature := method
  match k with
  | DELTA => [("xlow", d_none); ("xhigh", d_none); ("brk", d_none); ("verbose", d_bool false); ("bootstrap", d_bool false); ("bootstrap_kwargs", d_dict)]
  | WAVELET => [("xlow", d_none); ("xhigh", d_none); ("brk", d_none); ("min_fits_pts", d_num 3); ("weighted_fit", d_bool false);
                ("bootstrap", d_bool false); ("bootstrap_kwargs", d_dict)]
  end true.
(** delta_variance.py:494-496 and wavelet_transform.py:434-436 *)
Definition plot_sig (k : kind) : signature := method
  [("save_name", d_none); ("xunit", Some (VObj 3)); ("color", Some (VStr "r")); ("symbol", Some (VStr "o")); ("fit_color", Some (VStr "k"));
   ("label", d_none); ("show_residual", d_bool true)] false.
(** lm_seg.py:72-73 *)
Definition lm_seg_sig : signature := method
  [("tol", d_num (1/1000)); ("iter_max", d_num 100); ("h_step", d_num 2); ("epsil_0", d_num 10); ("constant", d_bool true); ("verbose", d_bool true);
   ("missing", Some (VStr "drop"))] true.
(** astropy's convolve_fft, as far as its names are not given here *)
Definition convolve_sig : signature := mk_sig [("array", None); ("kernel", None)] true.

Definition compute_name (k : kind) : string := match k with DELTA => "compute_deltavar" | WAVELET => "compute_transform" end.
Definition fit_name (k : kind) : string := match k with DELTA => "fit_plaw" | WAVELET => "fit_transform" end.

(** One call of convolve_fft (each lag or scale makes the same): convolve_wrapper.py:44-62 with
    delta_variance.py:201-240, whose threads and pyfftw_kwargs are not used; wavelet_transform.py:143-154, 178-182.
    The FFT functions are those of pyfftw ([VObj 10]) or numpy ([VObj 11]); [pyfftw]: it is installed. *)
Definition fft_of (pyfftw : bool) (h : list dict) (use : pv) : pv := if truthy h use && pyfftw then VObj 10 else VObj 11.
Definition convolve (pyfftw : bool) (k : kind) (o : nat) (a : dict) : task unit :=
  match k with
  | DELTA => fun w =>
      (_ <~ step o "convolve_fft" convolve_sig
         [("array", VObj 0); ("kernel", VObj 0); ("normalize_kernel", VBool true); ("fftn", fft_of pyfftw (heap w) (arg a "use_pyfftw"));
          ("ifftn", fft_of pyfftw (heap w) (arg a "use_pyfftw")); ("boundary", arg a "boundary"); ("fill_value", match arg a "nan_treatment" with VStr s => if String.eqb s "fill" then VNum 0 else VObj 12 | _ => VObj 12 end);
          ("allow_huge", arg a "allow_huge"); ("nan_treatment", arg a "nan_treatment")] [] ; ret tt) w
  | WAVELET => fun w =>
      (ck <~ mapping (arg a "convolve_kwargs") ;
       _ <~ step o "convolve_fft" convolve_sig
         [("array", VObj 0); ("kernel", VObj 0); ("normalize_kernel", VBool false); ("fftn", fft_of pyfftw (heap w) (arg a "use_pyfftw"));
          ("ifftn", fft_of pyfftw (heap w) (arg a "use_pyfftw")); ("nan_treatment", VStr "fill"); ("preserve_nan", VBool true)] ck ; ret tt) w
  end.
(** delta_variance.py:350-362, 377-378, 418-419 and wavelet_transform.py:293-307, 328-330, 366-368:
    the segmented fit if a break was given, and one bootstrap if asked for *)
Definition set_key (k : string) (v : pv) (d : dict) : dict := (k, v) :: without k d.
Definition fit_body (k : kind) (o : nat) (a more : dict) : task unit :=
  _ <~ match arg a "brk" with
       | VNone => ret tt
       | _ =>
           let kw := set_key "cov_type" (VStr "HC3") (match k with DELTA => set_key "verbose" (arg a "verbose") more | WAVELET => more end) in
           _ <~ step o "fit_model" lm_seg_sig [self] kw ; ret tt
       end ;
  fun w => if truthy (heap w) (arg a "bootstrap")
           then (bk <~ mapping (arg a "bootstrap_kwargs") ; _ <~ step o "residual_bootstrap" bootstrap_sig [("fit_model", VObj 0)] bk ; ret tt) w
           else (w, Ok tt).
(** delta_variance.py:650-665 and wavelet_transform.py:591-609 *)
Definition compute_args (k : kind) (a : dict) : dict :=
  match k with
  | DELTA => [("allow_huge", arg a "allow_huge"); ("boundary", arg a "boundary"); ("nan_treatment", arg a "nan_treatment"); ("preserve_nan", arg a "preserve_nan");
              ("use_pyfftw", arg a "use_pyfftw"); ("threads", arg a "threads"); ("pyfftw_kwargs", arg a "pyfftw_kwargs"); ("show_progress", arg a "show_progress")]
  | WAVELET => [("scale_normalization", arg a "scale_normalization"); ("convolve_kwargs", arg a "convolve_kwargs"); ("use_pyfftw", arg a "use_pyfftw");
                ("threads", arg a "threads"); ("pyfftw_kwargs", arg a "pyfftw_kwargs"); ("show_progress", arg a "show_progress")]
  end.
Definition fit_args (k : kind) (a : dict) : dict :=
  [("xlow", arg a "xlow"); ("xhigh", arg a "xhigh"); ("brk", arg a "brk")] ++ match k with DELTA => [("verbose", arg a "verbose")] | WAVELET => [] end.
Definition run (pyfftw : bool) (k : kind) (o : nat) (explicit extra : dict) : task unit :=
  am <~ lift (bind_args (run_sig k) (self :: explicit) extra) ;
  let a := fst am in
  cm <~ step o (compute_name k) (compute_sig k) (self :: compute_args k a) [] ;
  _ <~ convolve pyfftw k o (fst cm) ;
  fk <~ mapping (arg a "fit_kwargs") ;
  fm <~ step o (fit_name k) (fit_sig k) (self :: fit_args k a) fk ;
  _ <~ fit_body k o (fst fm) (snd fm) ;
  fun w => if truthy (heap w) (arg a "verbose")
           then (_ <~ step o "plot" (plot_sig k) [self; ("save_name", arg a "save_name"); ("xunit", arg a "xunit")] (snd am) ; ret tt) w
           else (w, Ok tt).

(** ** DeltaVariance_Distance *)

(** A data set: data with a header, or a DeltaVariance object, with or without the attribute
    _slope, whose lags are the common lags or as many others *)
Inductive dataset := Data | Obj (fitted same_lags : bool).
(** delta_variance.py:788-806: data set 1 *)
Definition delta_first (pyfftw : bool) (d : dataset) (weights diam lags : pv) (kw : pv) : task unit :=
  match d with
  | Data => _ <~ object_of 1 "DeltaVariance" [("weights", weights); ("diam_ratio", diam); ("lags", lags)] Raw ; kd <~ mapping kw ; run pyfftw DELTA 1 [] kd
  | Obj fitted same =>
      if negb same then kd <~ mapping kw ; run pyfftw DELTA 1 [] kd
      else if negb fitted then kd <~ mapping kw ; run pyfftw DELTA 1 [] kd else ret tt
  end.
(** delta_variance.py:811-826: data set 2; an object without a slope whose lags are the common
    ones is run with delvar_kwargs *)
Definition delta_second (pyfftw : bool) (d : dataset) (weights diam lags : pv) (kw kw2 : pv) : task unit :=
  match d with
  | Data => _ <~ object_of 2 "DeltaVariance" [("weights", weights); ("diam_ratio", diam); ("lags", lags)] Raw ; kd <~ mapping kw2 ; run pyfftw DELTA 2 [] kd
  | Obj fitted same =>
      if negb same then kd <~ mapping kw2 ; run pyfftw DELTA 2 [] kd
      else if negb fitted then kd <~ mapping kw ; run pyfftw DELTA 2 [] kd else ret tt
  end.
(** delta_variance.py:711-826 [__init__]: line 723 asks again whether dataset1 is an object.
    Data taken for an object have no _wcs (or no data); an object is no input_data.  Without
    common lags the local name lags2 has no value yet when line 781 reads it.  [lags1], [lags2]:
    the lags of 764-779. *)
Definition delta_distance (pyfftw : bool) (d1 d2 : dataset) (weights1 weights2 diam lags1 lags2 : pv) (use_common_lags : bool) (kw kw2 : pv) : task unit :=
  match d1, d2 with
  | Data, Obj _ _ => raise TypeError
  | _, _ =>
      if use_common_lags then
        match d1, d2 with
        | Obj _ _, Data => raise AttributeError
        | _, _ =>
            _ <~ delta_first pyfftw d1 weights1 diam lags1 kw ;
            delta_second pyfftw d2 weights2 diam lags2 kw (match kw2 with VNone => kw | _ => kw2 end)
        end
      else raise UnboundLocalError
  end.

(** ** Wavelet_Distance *)

(** wavelet_transform.py:649-662, 667-679 *)
Definition wavelet_one (pyfftw : bool) (i : nat) (d : given) (scales : pv) (lo hi : list (option R)) (kw : pv) : task unit :=
  _ <~ object_of (S i) "Wavelet" [("scales", scales)] d ;
  if needs_run d then kd <~ mapping kw ; run pyfftw WAVELET (S i) [("xlow", limit_at lo i); ("xhigh", limit_at hi i)] kd else ret tt.
(** wavelet_transform.py:642-679 [__init__]; num is in C187 *)
Definition wavelet_distance (pyfftw : bool) (d1 d2 : given) (scales : pv) (low high : limit) (kw kw2 : pv) : task unit :=
  lh <~ lift (check_fit_limits low high) ;
  _ <~ wavelet_one pyfftw 0 d1 scales (fst lh) (snd lh) kw ;
  wavelet_one pyfftw 1 d2 scales (fst lh) (snd lh) (match kw2 with VNone => kw | _ => kw2 end).
