(** Model of turbustat/statistics/scf/scf.py: the argument roll_lags with its units, and
    compute_surface as the loop that fills the surface, also when it stops half way. *)
From Coq Require Import String Reals List Arith Bool.
From Verif Require Import Lib.PyBase Lib.Arr Lib.Fl Model.Units Model.Psds Model.Scf Model.ScfSpectrum Model.ScfPairs.
Import ListNotations.
Local Open Scope R_scope.

(** ** The lags given *)

(** The argument roll_lags: not given; a list or tuple; a numpy array; a Quantity.  Arrays have
    one dimension. *)
Inductive lags_arg := NoLags | ListLags (l : list R) | ArrayLags (l : list R) | QuantityLags (q : quantity).

(** scf.py:107-121, the setter: the conversion is tried, the lags are kept as they are.  An
    AttributeError of the conversion (no distance) is not caught. *)
Definition set_lags (s : stat) (q : quantity) : result quantity := _ <- to_pixel s q ;; Ok q.
(** scf.py:66-89; [init_lags] (ScfSpectrum.v) builds the default or leaves the last out.  A list has no attribute size.  The second conversion at 89 succeeds as the
    first did. *)
Definition scf_lags (s : stat) (size : nat) (a : lags_arg) : result quantity :=
  match a with
  | NoLags => set_lags s (mk_q (init_lags None size) pix)
  | ListLags _ => Err AttributeError
  | ArrayLags l => set_lags s (mk_q (init_lags (Some l) size) pix)
  | QuantityLags q => set_lags s (mk_q (init_lags (Some (q_vals q)) size) (q_unit q))
  end.
(** scf.py:57-96 followed by :151-243 on a new object *)
Definition lags_surface (s : stat) (nz ny nx : nat) (cube : nat -> nat -> nat -> fl) (size : nat) (a : lags_arg) (boundary : string)
    : result (list (list fl)) :=
  q <- scf_lags s size a ;; p <- to_pixel s q ;; compute_surface nz ny nx cube (q_vals p) boundary.

(** ** The loop that fills the surface *)

(** self._scf_surface[j, i] = v, for indices inside *)
Definition write (s : list (list fl)) (j i : nat) (v : fl) : list (list fl) := upd s j (upd (nth j s []) i v).
(** enumerate(product(dx, dy)) with unravel_index: (i, x_shift), (j, y_shift) *)
Definition lag_pairs (lags : list R) : list ((nat * R) * (nat * R)) :=
  list_prod (combine (seq 0 (length lags)) lags) (combine (seq 0 (length lags)) lags).
(** scf.py:177-241; the surface as it is when the loop ends or raises *)
Fixpoint fill_loop (value : R -> R -> result fl) (size : nat) (pairs : list ((nat * R) * (nat * R))) (s : list (list fl))
    : list (list fl) * option exn :=
  match pairs with
  | [] => (s, None)
  | ((i, x_shift), (j, y_shift)) :: rest =>
      let zero := Reqb x_shift 0 && Reqb y_shift 0 in
      let inside := Nat.ltb j size && Nat.ltb i size in
      if zero && negb inside then (s, Some IndexError)
      else
        let s := if zero then write s j i (Fin 1) else s in
        match value x_shift y_shift with
        | Err e => (s, Some e)
        | Ok v => if inside then fill_loop value size rest (write s j i v) else (s, Some IndexError)
        end
  end.
Definition zeros (size : nat) : list (list fl) := tab2 size size (fun _ _ => Fin 0).
(** scf.py:151-243 on an object, for a boundary named by a literal: the object afterwards, and
    the exception if one is raised *)
Definition surface_call (i : scf_inst) (boundary : string) : scf_inst * option exn :=
  let o := i_obj i in
  if negb (String.eqb boundary "continuous" || String.eqb boundary "cut") then (i, Some ValueError)
  else
    let '(s, e) := fill_loop (scf_value (s_nz o) (s_ny o) (s_nx o) (s_cube o) boundary) (i_size i) (lag_pairs (s_roll_lags o)) (zeros (i_size i)) in
    (mk_inst (set_surface o s) (i_size i) (i_pixel i), e).
