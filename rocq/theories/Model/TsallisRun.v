(** Model of the Tsallis objects of turbustat/statistics/tsallis/tsallis.py through assignments of
    lags and calls of make_tsallis, fit_tsallis and run that may raise.  The standard errors are
    stored and filled together with the parameters and are left out. *)
From Coq Require Import Reals List Bool ZArith Arith.
From Verif Require Import Lib.PyBase Lib.Fl Model.Units Model.Tsallis.
Import ListNotations.
Local Open Scope R_scope.

(** A lag array with its distribution; the parameters with the chi-square *)
Definition entry := (list (list fl) * (list R * list fl))%type.
Definition row := ((R * R * R) * fl)%type.
(** Attributes _lags, _lag_arrays and _lag_distribs, _tsallis_params and _tsallis_chisq; None
    before they are set *)
Record tobj := mk_t { o_lags : quantity; o_dists : option (list entry); o_rows : option (list row) }.
Definition outcome := (tobj * option exn)%type.

(** A loop over l that stops at an exception: what was done before it *)
Fixpoint upto {A B} (f : A -> result B) (l : list A) : list B * option exn :=
  match l with
  | [] => ([], None)
  | a :: r => match f a with Err e => ([], Some e) | Ok b => let '(bs, e) := upto f r in (b :: bs, e) end
  end.

Section Object.
Variable s : stat.
(** the image, with its number of columns and its smaller side *)
Variables (cols side : nat) (img : list (list fl)).
Variable curve_fit : list (R * R) -> R * R * R -> nat -> result (R * R * R).
(** What np.empty leaves in memory *)
Variable old_dist : nat -> entry.
Variable old_row : nat -> row.

(** tsallis.py:37-50 [__init__] *)
Definition new (lags : option (option quantity)) : result tobj := q <- init_lags s side lags ;; Ok (mk_t q None None).
(** tsallis.py:59-85: the lags setter *)
Definition assign (o : tobj) (v : option quantity) : outcome :=
  match set_lags s side v with Err e => (o, Some e) | Ok q => (mk_t q (o_dists o) (o_rows o), None) end.
(** tsallis.py:85-144 [make_tsallis]: the arrays are allocated first, then filled lag by lag *)
Definition do_make (o : tobj) (periodic : bool) (num_bins : option nat) : outcome :=
  let nb := match num_bins with None => default_bins img | Some n => n end in
  let len := length (q_vals (o_lags o)) in
  let '(done, e) := match to_pixel s (o_lags o) with
                    | Err e => ([], Some e)
                    | Ok p => upto (fun r => distribution nb (lag_difference periodic cols img (Z.to_nat (Int_part r)))) (q_vals p)
                    end in
  (mk_t (o_lags o) (Some (done ++ map old_dist (seq (length done) (len - length done)))) (o_rows o), e).
(** tsallis.py:180-206: the loop of fit_tsallis over the distributions; a row beyond the last one
    raises IndexError *)
Fixpoint fill (sigma_clip : option R) (rows : list row) (i : nat) (dists : list entry) : list row * option exn :=
  match dists with
  | [] => (rows, None)
  | d :: r =>
      match fit_one curve_fit sigma_clip (snd d) with
      | Err e => (rows, Some e)
      | Ok v => if Nat.ltb i (length rows) then fill sigma_clip (firstn i rows ++ v :: skipn (S i) rows) (S i) r else (rows, Some IndexError)
      end
  end.
(** tsallis.py:161-198 [fit_tsallis] *)
Definition do_fit (o : tobj) (sigma_clip : option R) : outcome :=
  match o_dists o with
  | None => (o, Some OtherError)
  | Some dists =>
      let '(rows, e) := fill sigma_clip (map old_row (seq 0 (length (q_vals (o_lags o))))) 0 dists in
      (mk_t (o_lags o) (o_dists o) (Some rows), e)
  end.
(** tsallis.py:322-353 [run] *)
Definition run (o : tobj) (periodic : bool) (num_bins : option nat) (sigma_clip : option R) : outcome :=
  match do_make o periodic num_bins with (o, Some e) => (o, Some e) | (o, None) => do_fit o sigma_clip end.

(** tsallis.py:221-234 [tsallis_table]: columns of different lengths raise ValueError *)
Definition table (o : tobj) : result (list (R * row)) :=
  match o_rows o with
  | None => Err AttributeError
  | Some rows => if Nat.eqb (length (q_vals (o_lags o))) (length rows) then Ok (combine (q_vals (o_lags o)) rows) else Err ValueError
  end.

Inductive call := Lags (v : option quantity) | Make (periodic : bool) (num_bins : option nat) | Fit (sigma_clip : option R) | Run (periodic : bool) (num_bins : option nat) (sigma_clip : option R).
Definition do_call (o : tobj) (c : call) : outcome :=
  match c with Lags v => assign o v | Make p n => do_make o p n | Fit c => do_fit o c | Run p n c => run o p n c end.
Definition history (o : tobj) (l : list call) : tobj := fold_left (fun o c => fst (do_call o c)) l o.
End Object.
