(** Specification vocabulary: arrays of the caller and what a statistic keeps of them. *)
From Coq Require Import Reals List Bool.
From Verif Require Import Lib.PyBase Lib.Fl Model.InputData Model.Construct.
Import ListNotations.
Local Open Scope R_scope.

(** Every array that existed before still has its values. *)
Definition unchanged (st st' : store) : Prop :=
  forall r, (r < length st)%nat -> read st' r = read st r.

(** Every array of the caller except [w]. *)
Definition unchanged_but (w : nat) (st st' : store) : Prop :=
  forall r, (r < length st)%nat -> r <> w -> read st' r = read st r.

(** An array exists. *)
Definition source_exists (st : store) (s : source) : Prop :=
  match s with
  | SpectralCube r _ | LowerDim r _ | ImageHDU r _ | Array r => (r < length st)%nat
  | Sequence l => forall r, In (IArray r) l -> (r < length st)%nat
  | Unsupported => True
  end.

(** Blanks replaced by zeros. *)
Definition blanks_to_zero (l : list fl) : list fl := map (fun v => match v with NaN => Fin 0 | _ => v end) l.

(** The array and the header that data given by the caller carry. *)
Definition array_of (s : source) : option nat :=
  match s with
  | SpectralCube r _ | LowerDim r _ | ImageHDU r _ | Array r => Some r
  | Sequence [IArray r; _] => Some r
  | _ => None
  end.
Definition header_of (s : source) : option nat :=
  match s with
  | SpectralCube _ h | LowerDim _ h | ImageHDU _ h => Some h
  | Sequence [_; IHeader h] => Some h
  | _ => None
  end.

(** The product of two pixels, zero if one of them is blank. *)
Definition weighted (v w : fl) : fl :=
  match v, w with Fin a, Fin b => Fin (a * b) | _, _ => Fin 0 end.

(** What data and a header given separately are accepted, and what is then used:
    a header that is given is used and must be a header; without one the data must carry
    theirs, and a plain array is refused with a ValueError. *)
Definition header_rule (src : source) (quantity : bool) (header : option item) : result (nat * nat) :=
  match header with
  | Some (IHeader h) => match array_of src with Some r => Ok (r, h) | None => Err TypeError end
  | Some _ => Err TypeError
  | None =>
      match src, quantity with
      | Array _, false => Err ValueError
      | _, _ => match array_of src, header_of src with Some r, Some h => Ok (r, h) | _, _ => Err TypeError end
      end
  end.

(** The data argument of a construction. *)
Definition source_of (c : construction) : source :=
  match c with
  | CPowerSpectrum s _ _ _ | CVca s _ _ | CVcs s _ _ | CWavelet s _ _ | CBispectrum s | CMvc s _ _ _
  | CDeltaVariance s _ _ _ | CTsallis s _ _ | CScf s _ _ | CDendrogram s _ _ | CStatMoments s _ _ _
  | CGenus s | CPca s | CPdf s _ _ => s
  end.
(** The header argument of those that read data and header together. *)
Definition header_arg (c : construction) : option (bool * option item) :=
  match c with
  | CPowerSpectrum _ q h _ | CVca _ q h | CVcs _ q h | CWavelet _ q h | CDeltaVariance _ q h _
  | CTsallis _ q h | CScf _ q h | CDendrogram _ q h | CStatMoments _ q h _ => Some (q, h)
  | _ => None
  end.
(** What becomes of blank pixels: replaced by zeros, or left blank. *)
Inductive blanks := Zeroed | Kept.
Definition treatment (c : construction) : option blanks :=
  match c with
  | CPowerSpectrum _ _ _ _ | CVca _ _ _ | CVcs _ _ _ | CWavelet _ _ _ | CBispectrum _ => Some Zeroed
  | CDeltaVariance _ _ _ _ | CTsallis _ _ _ | CScf _ _ _ | CDendrogram _ _ _ | CStatMoments _ _ _ _
  | CGenus _ | CPca _ => Some Kept
  | CMvc _ _ _ _ | CPdf _ _ _ => None
  end.
Definition treat (t : blanks) (l : list fl) : list fl := match t with Zeroed => blanks_to_zero l | Kept => l end.

(** A pixel of one of the three maps of MVC: zero if it is blank in all three. *)
Fixpoint cleaned (centroid moment0 linewidth l : list fl) : list fl :=
  match centroid, moment0, linewidth, l with
  | c :: cs, m :: ms, w :: ws, v :: vs =>
      (match c, m, w with NaN, NaN, NaN => Fin 0 | _, _, _ => v end) :: cleaned cs ms ws vs
  | _, _, _, _ => []
  end.

(** A history of load_beam calls, a failing call included, and the beam each call gives. *)
Fixpoint beam_after (header : option nat) (from_header : nat -> option nat) (beam : option nat) (calls : list beam_arg) : option nat :=
  match calls with
  | [] => beam
  | a :: calls => beam_after header from_header (match load_beam header from_header beam a with Ok b => b | Err _ => beam end) calls
  end.
Definition beam_found (header : option nat) (from_header : nat -> option nat) (a : beam_arg) : option nat :=
  match a with
  | ABeam b => Some b
  | NoBeam => match header with Some h => from_header h | None => None end
  | NotABeam => None
  end.
Fixpoint last_some (x : option nat) (l : list (option nat)) : option nat :=
  match l with [] => x | Some b :: l => last_some (Some b) l | None :: l => last_some x l end.

(** The values PDF uses: those that are finite and above min_val; with weights, only where the
    weight is finite too, times the weight. *)
Definition used (min_val v : fl) : bool := is_fin v && fltb min_val v.
Fixpoint pdf_values (min_val : fl) (l w : list fl) : list fl :=
  match l, w with
  | v :: l, x :: w => if used min_val v && is_fin x then fmul v x :: pdf_values min_val l w else pdf_values min_val l w
  | _, _ => []
  end.
