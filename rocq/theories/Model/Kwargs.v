(** Model of how keyword arguments travel from the user through `run` and through the
    distance constructors of the 2D power spectrum statistics and of VCS to the steps that
    use them: pspec_bispec/pspec.py, vca_vcs/vca.py, vca_vcs/vcs.py, mvc/mvc.py,
    base_pspec2.py, psds.py, rfft_to_fft.py.

    What the steps compute from their arguments is modelled in Psds.v, PspecFit.v, Mvc.v and
    FitState.v; here a step that has been called is recorded with the arguments it got.
    Dictionaries live in a heap, so that changes to a dictionary of the caller show.
    The verbose branches (summary and plot) are not modelled. *)
From Coq Require Import Reals String List Arith Bool.
From Verif Require Import Lib.PyBase Model.FitUtils.
Import ListNotations.
Local Open Scope string_scope.
Local Open Scope list_scope.

(** Values of arguments: None, True/False, a number, a string, a Quantity, a dictionary (its
    place in the heap), anything else *)
Inductive pv := VNone | VBool (b : bool) | VNum (r : R) | VStr (s : string) | VQty (r : R) | VDict (r : nat) | VObj (n : nat).

(** A dictionary: its keys and values; the first pair of a key counts *)
Definition dict := list (string * pv).
Fixpoint get (d : dict) (k : string) : option pv :=
  match d with
  | [] => None
  | (k', v) :: r => if String.eqb k k' then Some v else get r k
  end.
Definition has (d : dict) (k : string) : bool := match get d k with Some _ => true | None => false end.
(** d.pop(k, None) as far as d goes *)
Definition without (k : string) (d : dict) : dict := filter (fun kv => negb (String.eqb k (fst kv))) d.

(** A step that was called: for which of the data sets, which function, its arguments, and
    the keywords its ** parameter collected *)
Record event := ev { e_of : nat; e_fun : string; e_args : dict; e_more : dict }.

(** The dictionaries and the steps called so far *)
Record world := mk_w { heap : list dict; steps : list event }.
Definition task (A : Type) := world -> world * result A.
Definition raise {A} (e : exn) : task A := fun w => (w, Err e).
Definition ret {A} (a : A) : task A := fun w => (w, Ok a).
Definition thent {A B} (m : task A) (k : A -> task B) : task B :=
  fun w => match m w with (w', Ok a) => k a w' | (w', Err e) => (w', Err e) end.
Notation "x <~ m ; k" := (thent m (fun x => k)) (at level 60, right associativity).
Definition lift {A} (r : result A) : task A := fun w => (w, r).

Definition look (h : list dict) (r : nat) : dict := nth r h [].
Fixpoint put (h : list dict) (r : nat) (d : dict) : list dict :=
  match h, r with
  | [], _ => []
  | _ :: t, 0 => d :: t
  | x :: t, S r => x :: put t r d
  end.
Definition fresh (d : dict) : task pv := fun w => (mk_w (heap w ++ [d]) (steps w), Ok (VDict (length (heap w)))).
(** The dictionary behind a value used as **value: TypeError when it is no mapping *)
Definition mapping (v : pv) : task dict :=
  fun w => match v with VDict r => (w, Ok (look (heap w) r)) | _ => (w, Err TypeError) end.

(** ** Python's binding of keyword arguments

    A signature: parameters with their defaults (None: no default) and whether there is a **
    parameter. *)
Record signature := mk_sig { s_params : list (string * option pv); s_more : bool }.
Definition takes (s : signature) (k : string) : bool := existsb (fun p => String.eqb k (fst p)) (s_params s).
(** f(k1=v1, ..., **extra): a keyword given twice, one that f does not take, or a missing
    argument raises TypeError *)
Definition bind_args (s : signature) (explicit extra : dict) : result (dict * dict) :=
  let all := explicit ++ extra in
  if existsb (fun kv => has extra (fst kv)) explicit then Err TypeError
  else if negb (s_more s) && existsb (fun kv => negb (takes s (fst kv))) all then Err TypeError
  else if existsb (fun p => match snd p with None => negb (has all (fst p)) | Some _ => false end) (s_params s) then Err TypeError
  else Ok (map (fun p => (fst p, match get all (fst p), snd p with
                                 | Some v, _ => v
                                 | None, Some d => d
                                 | None, None => VNone
                                 end)) (s_params s),
           filter (fun kv => negb (takes s (fst kv))) all).
Definition step (o : nat) (f : string) (s : signature) (explicit extra : dict) : task (dict * dict) :=
  fun w => match bind_args s explicit extra with
           | Ok (a, m) => (mk_w (heap w) (steps w ++ [ev o f a m]), Ok (a, m))
           | Err e => (w, Err e)
           end.
(** The value of a parameter after binding *)
Definition arg (a : dict) (k : string) : pv := match get a k with Some v => v | None => VNone end.
Definition self : string * pv := ("self", VObj 0).
Definition method (l : list (string * option pv)) (more : bool) : signature := mk_sig (("self", None) :: l) more.

(** Truth of a value in an if; a number is true when it is not zero, other objects are true *)
Definition truthy (h : list dict) (v : pv) : bool :=
  match v with
  | VNone => false
  | VBool b => b
  | VNum r => if Req_EM_T r 0 then false else true
  | VStr s => negb (String.eqb s "")
  | VDict r => match look h r with [] => false | _ => true end
  | VQty r => if Req_EM_T r 0 then false else true
  | VObj _ => true
  end.

(** ** Signatures *)
Definition d_none : option pv := Some VNone.
Definition d_bool (b : bool) : option pv := Some (VBool b).
Definition d_num (r : R) : option pv := Some (VNum r).
(** The default {} of a parameter: one dictionary, kept at place 0 of the heap *)
Definition d_dict : option pv := Some (VDict 0).

(** base_pspec2.py:109-113 *)
Definition fit_pspec_sig : signature := method
  [("fit_unbinned", d_bool false); ("brk", d_none); ("log_break", d_bool false); ("low_cut", d_none); ("high_cut", d_none);
   ("min_fits_pts", d_num 10); ("weighted_fit", d_bool false); ("bootstrap", d_bool false); ("bootstrap_kwargs", d_dict);
   ("verbose", d_bool false)] false.
(** base_pspec2.py:368-371; the default p0=() is an object *)
Definition fit_2Dpspec_sig : signature := method
  [("fit_method", Some (VStr "LevMarq")); ("p0", Some (VObj 1)); ("low_cut", d_none); ("high_cut", d_none);
   ("bootstrap", d_bool true); ("niters", d_num 100); ("use_azimmask", d_bool false); ("radial_weighting", d_bool false);
   ("fix_ellip_params", d_bool false)] false.
(** base_pspec2.py:77 *)
Definition radial_sig : signature := method [("logspacing", d_bool false); ("max_bin", d_none)] true.
(** psds.py:11-14; the default mean_func=np.nanmean is an object *)
Definition pspec_sig : signature := mk_sig
  [("psd2", None); ("nbins", d_none); ("return_stddev", d_bool false); ("binsize", d_num 1); ("logspacing", d_bool true);
   ("max_bin", d_none); ("min_bin", d_none); ("return_freqs", d_bool true); ("theta_0", d_none); ("delta_theta", d_none);
   ("boot_iter", d_none); ("mean_func", Some (VObj 2))] false.
(** pspec.py:69-71, vca.py:74-76, mvc.py:119-121 *)
Definition compute_sig : signature := method
  [("beam_correct", d_bool false); ("apodize_kernel", d_none); ("alpha", d_num (3/10)); ("beta", d_num 0);
   ("use_pyfftw", d_bool false); ("threads", d_num 1)] true.
(** rfft_to_fft.py:21-22 *)
Definition rfft_sig : signature := mk_sig
  [("image", None); ("keep_rfft", d_bool false); ("use_pyfftw", d_bool false); ("threads", d_num 1)] true.
(** pyfftw.interfaces.numpy_fft.rfftn(a, ...): its optional keywords are collected as given *)
Definition rfftn_sig : signature := mk_sig [("a", None)] true.
(** pspec.py:121-129, vca.py:126-134, mvc.py:227-234: the same keywords in another order; the
    default xunit=u.pix**-1 is an object *)
Definition run_sig : signature := method
  [("verbose", d_bool false); ("beam_correct", d_bool false); ("apodize_kernel", d_none); ("alpha", d_num (2/10));
   ("beta", d_num 0); ("use_pyfftw", d_bool false); ("threads", d_num 1); ("pyfftw_kwargs", d_dict);
   ("low_cut", d_none); ("high_cut", d_none); ("radial_pspec_kwargs", d_dict); ("fit_kwargs", d_dict);
   ("fit_unbinned", d_bool false); ("fit_2D", d_bool true); ("fit_2D_kwargs", d_dict); ("xunit", Some (VObj 3));
   ("save_name", d_none); ("use_wavenumber", d_bool false)] false.

(** ** The steps of run *)

(** The statistics with a 2D power spectrum *)
Inductive stat := PSPEC | VCA | MVC.

(** d.get(k) of a value that is no dictionary raises AttributeError; `if d.get(k) is not
    None: d.pop(k)` changes the dictionary itself *)
Definition drop_given (v : pv) (k : string) : task unit :=
  fun w => match v with
           | VDict r => match get (look (heap w) r) k with
                        | None | Some VNone => (w, Ok tt)
                        | Some _ => (mk_w (put (heap w) r (without k (look (heap w) r))) (steps w), Ok tt)
                        end
           | _ => (w, Err AttributeError)
           end.

Section Run.
(** pyfftw is installed (rfft_to_fft.py:10-17, PYFFTW_FLAG) *)
Variable installed : bool.

(** rfft_to_fft.py:21-76: the keywords handed to pyfftw.  keep_rfft=False is given by vcs.py:79 only. *)
Definition rfft_to_fft (o : nat) (explicit more : dict) : task unit :=
  am <~ step o "rfft_to_fft" rfft_sig (("image", VObj 0) :: explicit) more ;
  fun w => if truthy (heap w) (arg (fst am) "use_pyfftw") && installed
           then (_ <~ step o "rfftn" rfftn_sig [("a", VObj 0)] (snd am) ; ret tt) w
           else (w, Ok tt).

(** pspec.py:69-118, vca.py:74-124, mvc.py:119-198 [compute_pspec]: `pyfftw_kwargs` of the
    method is a new dictionary, which never holds 'threads'.  MVC transforms two arrays. *)
Definition compute_pspec (k : stat) (o : nat) (explicit extra : dict) : task unit :=
  am <~ step o "compute_pspec" compute_sig (self :: explicit) extra ;
  let args := [("use_pyfftw", arg (fst am) "use_pyfftw"); ("threads", arg (fst am) "threads")] in
  _ <~ rfft_to_fft o args (snd am) ;
  match k with MVC => rfft_to_fft o args (snd am) | _ => ret tt end.

(** base_pspec2.py:77-98 [compute_radial_pspec] *)
Definition compute_radial_pspec (o : nat) (extra : dict) : task unit :=
  am <~ step o "compute_radial_pspec" radial_sig [self] extra ;
  _ <~ step o "pspec" pspec_sig
         [("psd2", VObj 0); ("return_stddev", VBool true); ("logspacing", arg (fst am) "logspacing"); ("max_bin", arg (fst am) "max_bin")]
         (snd am) ;
  ret tt.

(** pspec.py:178-202, vca.py:190-212, mvc.py:280-297, after the arguments are bound.  Only
    the first two drop fit_unbinned. *)
Definition run_body (k : stat) (o : nat) (a : dict) : task unit :=
  _ <~ drop_given (arg a "pyfftw_kwargs") "threads" ;
  _ <~ match k with MVC => ret tt | _ => drop_given (arg a "fit_kwargs") "fit_unbinned" end ;
  pk <~ mapping (arg a "pyfftw_kwargs") ;
  _ <~ compute_pspec k o
         [("apodize_kernel", arg a "apodize_kernel"); ("alpha", arg a "alpha"); ("beta", arg a "beta");
          ("beam_correct", arg a "beam_correct"); ("use_pyfftw", arg a "use_pyfftw"); ("threads", arg a "threads")] pk ;
  rk <~ mapping (arg a "radial_pspec_kwargs") ;
  _ <~ compute_radial_pspec o rk ;
  fk <~ mapping (arg a "fit_kwargs") ;
  _ <~ step o "fit_pspec" fit_pspec_sig
         [self; ("fit_unbinned", arg a "fit_unbinned"); ("low_cut", arg a "low_cut"); ("high_cut", arg a "high_cut")] fk ;
  fun w =>
    if truthy (heap w) (arg a "fit_2D")
    then (gk <~ mapping (arg a "fit_2D_kwargs") ;
          _ <~ step o "fit_2Dpspec" fit_2Dpspec_sig [self; ("low_cut", arg a "low_cut"); ("high_cut", arg a "high_cut")] gk ;
          ret tt) w
    else (w, Ok tt).
(** obj.run(k1=v1, ..., **extra) *)
Definition run (k : stat) (o : nat) (explicit extra : dict) : task unit :=
  a <~ lift (bind_args run_sig (self :: explicit) extra) ;
  run_body k o (fst a).

(** ** The distance constructors *)

(** A data set: raw data, or an object of the statistic with or without the attribute _slope;
    [width]: the channel width of a VCA object *)
Inductive given := Raw | Object (fitted : bool) (width : pv).
Definition needs_run (d : given) : bool := match d with Raw => true | Object f _ => negb f end.
(** The object of a data set: a call of the constructor for raw data, the object itself
    otherwise.  The data are not recorded. *)
Definition object_of (o : nat) (cls : string) (options : dict) (d : given) : task unit :=
  match d with
  | Raw => fun w => (mk_w (heap w) (steps w ++ [ev o cls options []]), Ok tt)
  | Object _ _ => ret tt
  end.

(** breaks: None, a scalar Quantity, an array Quantity or an array, a list, a bare number *)
Inductive brks := BNone | BScalarQ (v : R) | BArray (l : list pv) | BList (l : list pv) | BNumber (v : R).
(** pspec.py:264-265, vca.py:270-271, mvc.py:385-386, vcs.py:426-427: a scalar Quantity is a
    numpy array, so it is not put in a list *)
Definition two_breaks (b : brks) : brks :=
  match b with
  | BNone => BList [VNone; VNone]
  | BNumber v => BList [VNum v; VNum v]
  | other => other
  end.
(** breaks[i]; indexing a scalar Quantity raises TypeError *)
Definition break_at (b : brks) (i : nat) : task pv :=
  match b with
  | BArray l | BList l => match nth_error l i with Some v => ret v | None => raise IndexError end
  | _ => raise TypeError
  end.
Definition limit_at (l : list (option R)) (i : nat) : pv := match nth i l None with Some v => VQty v | None => VNone end.

(** pspec.py:271-294 for data1, 297-324 for data2: [i] is 0 or 1 *)
Definition pspec_one (i : nat) (d : given) (weights : pv) (lo hi : list (option R)) (b : brks) (kw : pv) : task unit :=
  _ <~ object_of (S i) "PowerSpectrum" [("weights", weights)] d ;
  if needs_run d then
    kd <~ (match kw with VDict _ => mapping kw | _ => raise AttributeError end) ;
    let this := without "fit_2D" (without "high_cut" (without "low_cut" kd)) in
    _ <~ match get this "fit_kwargs" with
         | None => ret tt
         | Some (VDict r) => fun w => (mk_w (put (heap w) r (without "brk" (look (heap w) r))) (steps w), Ok tt)
         | Some _ => raise AttributeError
         end ;
    bv <~ break_at b i ;
    fk <~ fresh [("brk", bv)] ;
    run PSPEC (S i) [("low_cut", limit_at lo i); ("high_cut", limit_at hi i); ("fit_kwargs", fk); ("fit_2D", VBool false)] this
  else ret tt.
(** pspec.py:257-327 [PSpec_Distance.__init__] *)
Definition pspec_distance (d1 d2 : given) (weights1 weights2 : pv) (breaks : brks) (low high : limit) (kw kw2 : pv) : task unit :=
  lh <~ lift (check_fit_limits low high) ;
  let b := two_breaks breaks in
  let kw2' := match kw2 with VNone => kw | _ => kw2 end in
  _ <~ pspec_one 0 d1 weights1 (fst lh) (snd lh) b kw ;
  pspec_one 1 d2 weights2 (fst lh) (snd lh) b kw2'.

(** vca.py:276-293, 295-313 and mvc.py:393-408, 410-424.  The arrays (and weights) of an MVC
    object are not recorded. *)
Definition radial_one (k : stat) (cls : string) (options : dict) (i : nat) (d : given) (lo hi : list (option R)) (b : brks) (kw : pv) : task unit :=
  _ <~ object_of (S i) cls options d ;
  if needs_run d then
    bv <~ break_at b i ;
    fk <~ fresh [("brk", bv)] ;
    run k (S i) [("fit_kwargs", fk); ("low_cut", limit_at lo i); ("high_cut", limit_at hi i); ("radial_pspec_kwargs", kw); ("fit_2D", VBool false)] []
  else ret tt.
(** vca.py:263-313 [VCA_Distance.__init__]: both runs get radial_pspec_kwargs *)
Definition vca_distance (d1 d2 : given) (channel_width : pv) (breaks : brks) (low high : limit) (kw kw2 : pv) : task unit :=
  lh <~ lift (check_fit_limits low high) ;
  let b := two_breaks breaks in
  _ <~ radial_one VCA "VCA" [("channel_width", channel_width)] 0 d1 (fst lh) (snd lh) b kw ;
  radial_one VCA "VCA" [("channel_width", channel_width)] 1 d2 (fst lh) (snd lh) b kw.
(** mvc.py:345-424 [MVC_Distance.__init__] *)
Definition mvc_distance (d1 d2 : given) (breaks : brks) (low high : limit) (kw kw2 : pv) : task unit :=
  lh <~ lift (check_fit_limits low high) ;
  let b := two_breaks breaks in
  let kw2' := match kw2 with VNone => kw | _ => kw2 end in
  _ <~ radial_one MVC "MVC" [] 0 d1 (fst lh) (snd lh) b kw ;
  radial_one MVC "MVC" [] 1 d2 (fst lh) (snd lh) b kw2'.

(** ** VCS *)

(** vcs.py:51, 91-93, 348-350 *)
Definition vcs_compute_sig : signature := method [("use_pyfftw", d_bool false); ("threads", d_num 1)] true.
Definition vcs_fit_sig : signature := method
  [("breaks", d_none); ("log_break", d_bool true); ("low_cut", d_none); ("high_cut", d_none); ("fit_verbose", d_bool false);
   ("bootstrap", d_bool false)] true.
Definition vcs_run_sig : signature := method
  [("verbose", d_bool false); ("save_name", d_none); ("xunit", Some (VObj 3)); ("use_pyfftw", d_bool false); ("threads", d_num 1);
   ("pyfftw_kwargs", d_dict)] true.
(** fitting_utils.py:316-318 *)
Definition bootstrap_sig : signature := mk_sig
  [("fit_model", None); ("nboot", d_num 1000); ("seed", d_num 38574895); ("return_samps", d_bool false); ("debug", d_bool false)] true.
(** vcs.py:348-379 [run] with vcs.py:51-82 [compute_pspec] and the bootstrap of vcs.py:211-213 *)
Definition vcs_run (o : nat) (explicit extra : dict) : task unit :=
  am <~ lift (bind_args vcs_run_sig (self :: explicit) extra) ;
  let a := fst am in
  _ <~ drop_given (arg a "pyfftw_kwargs") "threads" ;
  pk <~ mapping (arg a "pyfftw_kwargs") ;
  cm <~ step o "compute_pspec" vcs_compute_sig [self; ("use_pyfftw", arg a "use_pyfftw"); ("threads", arg a "threads")] pk ;
  _ <~ rfft_to_fft o [("use_pyfftw", arg (fst cm) "use_pyfftw"); ("keep_rfft", VBool false); ("threads", arg (fst cm) "threads")] (snd cm) ;
  fm <~ step o "fit_pspec" vcs_fit_sig [self] (snd am) ;
  fun w => if truthy (heap w) (arg (fst fm) "bootstrap")
           then (_ <~ step o "residual_bootstrap" bootstrap_sig [("fit_model", VObj 0)] (snd fm) ; ret tt) w
           else (w, Ok tt).
(** vcs.py:422-458 [VCS_Distance.__init__] *)
Definition vcs_one (i : nat) (d : given) (b : brks) (kw : pv) : task unit :=
  _ <~ object_of (S i) "VCS" [] d ;
  if needs_run d then bv <~ break_at b i ; kd <~ mapping kw ; vcs_run (S i) [("breaks", bv)] kd else ret tt.
Definition vcs_distance (d1 d2 : given) (breaks : brks) (kw kw2 : pv) : task unit :=
  let b := two_breaks breaks in
  let kw2' := match kw2 with VNone => kw | _ => kw2 end in
  _ <~ vcs_one 0 d1 b kw ;
  vcs_one 1 d2 b kw2'.
End Run.
