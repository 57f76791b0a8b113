(** Model of turbustat/io: input_base.py, try_load_beamwidth.py, sim_tools.py. *)
From Coq Require Import String Reals List Bool.
From Verif Require Import Lib.PyBase Lib.Fl.
Import ListNotations.
Local Open Scope R_scope.

(** ** input_data *)

(** Arrays live in a store; a reference is an index. *)
Definition store := list (list fl).
Definition read (st : store) (r : nat) : list fl := nth r st [].
Fixpoint write (st : store) (r : nat) (v : list fl) : store :=
  match st, r with [], _ => [] | _ :: s, O => v :: s | x :: s, S r => x :: write s r v end.

Inductive item := IArray (r : nat) | IHeader (h : nat) | IOther.
(** What can be passed: a SpectralCube, a Projection or Slice, a FITS image HDU, a tuple or
    list of items, a numpy array, or anything else. *)
Inductive source :=
| SpectralCube (r h : nat) | LowerDim (r h : nat) | ImageHDU (r h : nat) | Sequence (l : list item) | Array (r : nat) | Unsupported.

(** input_base.py:51-55 *)
Definition make_copy (st : store) (r : nat) (need_copy : bool) : store * nat :=
  if need_copy then (st ++ [read st r], length st) else (st, r).

(** input_base.py:57-94 (spectral_cube installed): the new store, the data, and the header
    unless no_header *)
Definition input_data (st : store) (data : source) (no_header need_copy : bool) : result (store * item * option item) :=
  out <- match data with
         | SpectralCube r h | LowerDim r h | ImageHDU r h =>
             let '(st, r) := make_copy st r need_copy in Ok (st, [IArray r; IHeader h])
         | Sequence l => if negb (Nat.eqb (length l) 2) then Err TypeError else Ok (st, l)
         | Array r => if negb no_header then Err TypeError
                      else let '(st, r) := make_copy st r need_copy in Ok (st, [IArray r])
         | Unsupported => Err TypeError
         end ;;
  match snd out with
  | d :: rest => if no_header then Ok (fst out, d, None)
                 else match rest with h :: _ => Ok (fst out, d, Some h) | [] => Err OtherError end
  | [] => Err IndexError
  end.

(** ** Beam *)

(** try_load_beamwidth.py:15-64 without radio_beam: values in degrees.  A header is a
    partial function from keys. *)
Definition find_beam_properties (hdr : option (string -> option R)) : result (R * R * R) :=
  match hdr with
  | None => Err TypeError
  | Some h =>
      bmaj <- match h "BMAJ"%string with Some v => Ok v | None => Err ValueError end ;;
      let bmin := match h "BMIN"%string with Some v => v | None => bmaj end in
      let bpa := match h "BPA"%string with Some v => v | None => 0 end in
      Ok (bmaj, bmin, bpa)
  end.
(** try_load_beamwidth.py:67-77 *)
Definition find_beam_width (hdr : option (string -> option R)) : result R :=
  b <- find_beam_properties hdr ;; Ok (fst (fst b)).

(** ** Headers *)

(** sim_tools.py:120-121, 69-70: CRPIX1 and CRPIX2 *)
Definition image_crpix (imshape : nat * nat) : R * R := (INR (fst imshape) / 2, INR (snd imshape) / 2).
Definition cube_crpix (imshape : nat * nat * nat) : R * R := let '(a, b, c) := imshape in (INR b / 2, INR c / 2).
