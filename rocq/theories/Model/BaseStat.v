(** Model of the state of a statistic object: turbustat/statistics/base_statistic.py and the
    setters of lags, scales and radii. *)
From Coq Require Import String Ascii Reals List ZArith Bool.
From Verif Require Import Lib.PyBase Lib.Fl Model.Units Model.DeltaVar.
Import ListNotations.
Local Open Scope R_scope.

(** ** distance, header, data *)

(** A numpy array: shape and values. *)
Record ndarray := mk_arr { a_shape : list nat; a_vals : list fl }.
(** Values that can be assigned. *)
Inductive pyval :=
| PNone
| PQuantity (q : quantity) (isscalar : bool)
| PHeader (pixel_size : R)
| PArray (a : ndarray)
| POther.

(** Attributes _header, _distance, _data of an object and its class flags.  The outer
    option is hasattr, the inner one None. *)
Record obj := mk_obj { o_need_header : bool; o_no_data : bool;
  o_header : option (option R); o_distance : option quantity; o_data : option (option ndarray) }.

(** base_statistic.py:38-48 *)
Definition set_header (o : obj) (v : pyval) : obj * option exn :=
  if negb (o_need_header o) then (mk_obj (o_need_header o) (o_no_data o) (Some None) (o_distance o) (o_data o), None)
  else match v with
       | PHeader h => (mk_obj (o_need_header o) (o_no_data o) (Some (Some h)) (o_distance o) (o_data o), None)
       | _ => (o, Some TypeError)
       end.
(** base_statistic.py:93-102; squeeze drops the axes of length one *)
Definition squeeze (a : ndarray) : ndarray := mk_arr (filter (fun n => negb (Nat.eqb n 1)) (a_shape a)) (a_vals a).
Definition set_data (o : obj) (v : pyval) : obj * option exn :=
  if o_no_data o then (mk_obj (o_need_header o) (o_no_data o) (o_header o) (o_distance o) (Some None), None)
  else match v with
       | PArray a => (mk_obj (o_need_header o) (o_no_data o) (o_header o) (o_distance o) (Some (Some (squeeze a))), None)
       | _ => (o, Some TypeError)
       end.
(** base_statistic.py:208-225 *)
Definition set_distance (o : obj) (v : pyval) : obj * option exn :=
  match v with
  | PQuantity q isscalar =>
      if negb (is_equivalent (q_unit q) pc) then (o, Some UnitConversionError)
      else if negb isscalar then (o, Some TypeError)
      else (mk_obj (o_need_header o) (o_no_data o) (o_header o) (Some q) (o_data o), None)
  | _ => (o, Some TypeError)
  end.
Inductive assignment := AHeader (v : pyval) | AData (v : pyval) | ADistance (v : pyval).
Definition assign (o : obj) (a : assignment) : obj * option exn :=
  match a with AHeader v => set_header o v | AData v => set_data o v | ADistance v => set_distance o v end.
Fixpoint assign_all (o : obj) (l : list assignment) : obj :=
  match l with [] => o | a :: l => assign_all (fst (assign o a)) l end.

(** ** Lags, scales, radii *)

(** What is assigned: something that is no Quantity, or a Quantity *)
Inductive lag_value := NotQuantity | LagQuantity (q : quantity).

(** delta_variance.py:99-119, wavelet_transform.py:82-110, tsallis.py:57-83: the three are
    alike.  [side] is min(self.data.shape). *)
Definition set_lags (s : stat) (side : nat) (old : option quantity) (v : lag_value) : option quantity * option exn :=
  match v with
  | NotQuantity => (old, Some TypeError)
  | LagQuantity q =>
      match to_pixel s q with
      | Err e => (old, Some e)
      | Ok p => if lags_ok side (q_vals p) then (Some q, None) else (old, Some ValueError)
      end
  end.
(** highstatmoments.py:72-94: the truth value of a comparison of a scalar *)
Definition set_radius (s : stat) (side : nat) (old : option quantity) (v : lag_value) : option quantity * option exn :=
  match v with
  | NotQuantity => (old, Some TypeError)
  | LagQuantity q =>
      match to_pixel s q with
      | Err e => (old, Some e)
      | Ok p =>
          match q_vals p with
          | [r] => if Rltb r 2 then (old, Some ValueError)
                   else if Rltb (INR side / 2) r then (old, Some ValueError)
                   else (Some q, None)
          | _ => (old, Some ValueError)
          end
      end
  end.
(** genus.py:184-201: plain numbers of pixels; None stands for [None] *)
Definition set_smoothing (enable : bool) (side : nat) (old : option (list R)) (values : list R) : option (list R) * option exn :=
  if enable then
    if existsb (fun v => Rltb v 1) values then (old, Some ValueError)
    else if existsb (fun v => Rltb (1 / 2 * INR side) v) values then (old, Some ValueError)
    else (Some values, None)
  else (None, None).

(** A history of assignments *)
Fixpoint set_all {A V} (set : option A -> V -> option A * option exn) (old : option A) (l : list V) : option A :=
  match l with [] => old | v :: l => set_all set (fst (set old v)) l end.

(** What the computation uses as lags in pixels:
    delta_variance.py:184 (self.lags.value) *)
Definition deltavar_used_lags (s : stat) (lags : quantity) : result (list R) := Ok (q_vals lags).
(** wavelet_transform.py:169 *)
Definition wavelet_used_scales (s : stat) (scales : quantity) : result (list R) := p <- to_pixel s scales ;; Ok (q_vals p).
(** tsallis.py:114 *)
Definition tsallis_used_lags (s : stat) (lags : quantity) : result (list Z) := p <- to_pixel s lags ;; Ok (map Int_part (q_vals p)).
(** delta_variance.py:76-88: the constructor; [None] is the default lags *)
Definition deltavar_init_lags (s : stat) (side nlags : nat) (lags : option (list R + quantity)) : result quantity :=
  q <- match lags with
       | None => Ok (mk_q (logspace 3 (INR side / 2) nlags) pix)
       | Some (inl l) => Ok (mk_q l pix)
       | Some (inr q) => to_pixel s q
       end ;;
  match set_lags s side None (LagQuantity q) with (Some q, None) => Ok q | (_, Some e) => Err e | (None, None) => Err OtherError end.

(** ** Saving and loading *)

(** Objects live in a heap; an address is an index.  An object is its attributes. *)
Inductive attr_val := ANone | AData_ (a : list fl) | AResult (r : list fl).
Definition attrs := list (string * attr_val).
Definition heap := list attrs.
Definition deref (h : heap) (a : nat) : attrs := nth a h [].
Fixpoint set_attr (o : attrs) (name : string) (v : attr_val) : attrs :=
  match o with
  | [] => [(name, v)]
  | (n, w) :: r => if String.eqb n name then (name, v) :: r else (n, w) :: set_attr r name v
  end.
Fixpoint get_attr (o : attrs) (name : string) : option attr_val :=
  match o with [] => None | (n, w) :: r => if String.eqb n name then Some w else get_attr r name end.
Fixpoint update (h : heap) (a : nat) (o : attrs) : heap :=
  match h, a with [], _ => [] | _ :: r, O => o :: r | x :: r, S a => x :: update r a o end.
(** copy.deepcopy *)
Definition deepcopy (h : heap) (a : nat) : heap * nat := (h ++ [deref h a], length h).
Definition setattr (h : heap) (a : nat) (name : string) (v : attr_val) : heap := update h a (set_attr (deref h a) name v).

(** str.endswith(".pkl") *)
Fixpoint endswith_pkl (s : string) : bool :=
  if String.eqb s ".pkl" then true else match s with EmptyString => false | String _ r => endswith_pkl r end.
(** base_statistic.py:141-142 *)
Definition pkl_name (name : string) : string := if endswith_pkl name then name else (name ++ ".pkl")%string.

(** Files, as pickled objects *)
Definition files := list (string * attrs).
Fixpoint read_file (f : files) (name : string) : option attrs :=
  match f with [] => None | (n, o) :: r => if String.eqb n name then Some o else read_file r name end.

(** base_statistic.py:128-151 *)
Definition save_results (h : heap) (f : files) (self : nat) (output_name : string) (keep_data : bool) : heap * files :=
  let name := pkl_name output_name in
  let '(h, self_copy) := deepcopy h self in
  let h := if negb keep_data then setattr h self_copy "_data" ANone else h in
  (h, (name, deref h self_copy) :: f).
(** mvc.py:200-225, the override of MVC *)
Definition save_results_mvc (h : heap) (f : files) (self : nat) (output_name : string) (keep_data : bool) : heap * files :=
  let name := pkl_name output_name in
  let '(h, self_copy) := deepcopy h self in
  let h := if negb keep_data
           then setattr (setattr (setattr h self_copy "_centroid" ANone) self_copy "_moment0" ANone) self_copy "_linewidth" ANone
           else h in
  (h, (name, deref h self_copy) :: f).
(** base_statistic.py:153-178: a missing file raises FileNotFoundError *)
Definition load_results (h : heap) (f : files) (name : string) : result (heap * nat) :=
  match read_file f name with None => Err OtherError | Some o => Ok (h ++ [o], length h) end.
Fixpoint save_all (h : heap) (f : files) (l : list (nat * string * bool)) : heap * files :=
  match l with
  | [] => (h, f)
  | (self, name, keep) :: l => let '(h, f) := save_results h f self name keep in save_all h f l
  end.
