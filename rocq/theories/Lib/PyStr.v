(** str objects of Python, with their identity. *)
From Coq Require Import String Bool.

(** A str object: its characters, and whether it is the interned object that the literals of
    the modules share. *)
Record py_str := mk_str { str_value : string; str_interned : bool }.
(** [s is "lit"], which compares identities *)
Definition is_literal (s : py_str) (lit : string) : bool := str_interned s && String.eqb (str_value s) lit.
