(** Model of turbustat/simulator/gen_field.py.  The random angles are an
    argument.  Arrays are functions of their indices together with a shape;
    reals are exact. *)
From Coq Require Import Reals List ZArith Arith Bool.
From Coquelicot Require Import Complex.
From Coq Require Import List.
From Verif Require Import Lib.PyBase Lib.RSum Lib.Fl Lib.PySlice Lib.Arr Lib.DFT Lib.DFT2 Model.StatsUtils Model.Psds.
Import ListNotations.
Local Open Scope R_scope.

(** np.fft.rfftfreq(n)[k] *)
Definition rfftfreq (n k : nat) : R := INR k / INR n.

(** gen_field.py:47, 204: Np1 *)
Definition np1 (imsize : nat) : nat := if Nat.odd imsize then ((imsize - 1) / 2)%nat else (imsize / 2)%nat.

(** ** Assignments to parts of an array *)

(** [output[dst] = np.conj(output[src])] for the pixels of two slices of the
    same shape, in order; [output[i] = output[i].real + 0j]. *)
Inductive stmt (I : Type) :=
| ConjTo (dst src : list I)
| RealAt (i : I).
Arguments ConjTo {I} dst src.
Arguments RealAt {I} i.

(** The right-hand side is read before anything is written.  Slices of
    different sizes are numpy's ValueError. *)
Definition exec {I} (eqb : I -> I -> bool) (s : stmt I) (o : I -> C) : result (I -> C) :=
  match s with
  | ConjTo dst src =>
      if Nat.eqb (length dst) (length src) then
        Ok (fun i => match find (fun p => eqb (fst p) i) (combine dst src) with
                     | Some p => Cconj (o (snd p))
                     | None => o i
                     end)
      else Err ValueError
  | RealAt k => Ok (fun i => if eqb k i then RtoC (fst (o i)) else o i)
  end.

Fixpoint run {I} (eqb : I -> I -> bool) (l : list (stmt I)) (o : I -> C) : result (I -> C) :=
  match l with
  | [] => Ok o
  | s :: r => o' <- exec eqb s o ;; run eqb r o'
  end.

Definition eqb2 (p q : nat * nat) : bool := Nat.eqb (fst p) (fst q) && Nat.eqb (snd p) (snd q).
Definition eqb3 (p q : nat * nat * nat) : bool := eqb2 (fst p) (fst q) && Nat.eqb (snd p) (snd q).

(** Pixels of [a[rows, c]] and of [a[rows, cols, c]], in C order. *)
Definition column (rows : list nat) (c : nat) : list (nat * nat) := map (fun r => (r, c)) rows.
Definition plane (rows cols : list nat) (c : nat) : list (nat * nat * nat) := map (fun p => (fst p, snd p, c)) (list_prod rows cols).

(** ** make_extended *)

(** Square root of a complex number, principal branch (np.sqrt) *)
Definition csqrt (z : C) : C :=
  (sqrt ((Cmod z + fst z) / 2), (if Rltb (snd z) 0 then -1 else 1) * sqrt ((Cmod z - fst z) / 2)).

(** gen_field.py:184-197: the (elliptical) radius of frequency (yy, xx) *)
Definition rr_of (ellip theta yy xx : R) : R :=
  if Rltb ellip 1 then
    let costheta := cos theta in
    let sintheta := sin theta in
    let xprime := ellip * (xx * costheta - yy * sintheta) in
    let yprime := xx * sintheta + yy * costheta in
    sqrt (xprime ^ 2 + yprime ^ 2)
  else sqrt (xx ^ 2 + yy ^ 2).

(** gen_field.py:209-212: the phases and the number they are divided by *)
Definition phases (angles : nat -> nat -> R) (i j : nat) : C := cis (angles i j).
Definition phase_norm (imsize : nat) (angles : nat -> nat -> R) : C :=
  let w := S (np1 imsize) in
  csqrt (Cmult (RtoC (/ INR (imsize * w))) (csum imsize (fun i => csum w (fun j => Cmult (phases angles i j) (phases angles i j))))).

(** gen_field.py:200, 214-216: the zero frequency (rr = NaN) is set to 0.  A zero
    [phase_norm] makes every entry NaN, hence 0. *)
Definition raw_output (imsize : nat) (powerlaw theta ellip : R) (angles : nat -> nat -> R) (p : nat * nat) : C :=
  let rr := rr_of ellip theta (fftfreq imsize (fst p)) (rfftfreq imsize (snd p)) in
  if Reqb rr 0 then RtoC 0
  else if Reqb (Cmod (phase_norm imsize angles)) 0 then RtoC 0
  else Cmult (RtoC (Rpower rr (- powerlaw / 2))) (Cdiv (phases angles (fst p) (snd p)) (phase_norm imsize angles)).

(** gen_field.py:218-232: the symmetry; column -1 of the Np1 + 1 columns is Np1 *)
Definition sym2 (imsize : nat) : list (stmt (nat * nat)) :=
  let Np1 := np1 imsize in
  let z := Z.of_nat in
  let up n := slice_idx (Some 1%Z) (Some (z n)) 1 imsize in
  let down := slice_idx (Some (z imsize)) (Some (z Np1)) (-1) imsize in
  (if Nat.even imsize then
    [ConjTo (column (up Np1) 0) (column down 0);
     ConjTo (column (up Np1) Np1) (column down Np1);
     RealAt (Np1, 0%nat);
     RealAt (Np1, Np1)]
  else
    [ConjTo (column (up (Np1 + 1)%nat) 0) (column down 0);
     ConjTo (column (up (Np1 + 1)%nat) Np1) (column down Np1)])
  ++ [RealAt (0%nat, Np1); RealAt (0%nat, 0%nat)].

(** The RFFT map (full_fft=False), of shape (imsize, Np1 + 1).
    gen_field.py:176-232; np.fft.fftfreq(0) divides by zero. *)
Definition extended_rfft (imsize : nat) (powerlaw theta ellip : R) (angles : nat -> nat -> R) : result (nat * nat -> C) :=
  if Rltb 1 ellip || Rleb ellip 0 then Err ValueError
  else if Nat.eqb imsize 0 then Err ZeroDivisionError
  else run eqb2 (sym2 imsize) (raw_output imsize powerlaw theta ellip angles).

(** gen_field.py:239-251: the full map before the shift.  [symm] is
    [power_map_symm] after its rows from 1 on have been reversed. *)
Definition full_map (imsize : nat) (output : nat * nat -> C) : result (list (list C)) :=
  let w := S (np1 imsize) in
  let cols := slice_idx (Some (if Nat.even imsize then -2 else -1)%Z) (Some 0%Z) (-1) w in
  let symm0 r j := Cconj (output (r, nth j cols 0%nat)) in
  let dst := slice_idx (Some 1%Z) None 1 imsize in
  let src := slice_idx None (Some 0%Z) (-1) imsize in
  let symm r j := match find (fun p => Nat.eqb (fst p) r) (combine dst src) with
                  | Some p => symm0 (snd p) j
                  | None => symm0 r j
                  end in
  let full := tab1 imsize (fun r => tab1 w (fun j => output (r, j)) ++ tab1 (length cols) (symm r)) in
  if Nat.eqb (w + length cols) imsize then Ok full else Err ValueError.

(** gen_field.py:234-253: return_fft=True, full_fft=True *)
Definition extended_fft (imsize : nat) (powerlaw theta ellip : R) (angles : nat -> nat -> R) : result (list (list C)) :=
  output <- extended_rfft imsize powerlaw theta ellip angles ;;
  full <- full_map imsize output ;;
  Ok (fftshift2 full).

(** np.fft.irfft of w coefficients, on the default 2 (w - 1) points: the
    coefficients between the first and the last stand for their conjugates
    too, the imaginary parts of the first and last are not used. *)
Definition c2r (w : nat) (X : nat -> C) (j : nat) : R :=
  let m := (2 * (w - 1))%nat in
  / INR m * rsum w (fun k => (if Nat.eqb k 0 || Nat.eqb k (w - 1) then 1 else 2) * fst (Cmult (X k) (Cconj (tw m j k)))).

(** np.fft.irfft2 of an (n, w) map: complex over the first axis, then real over
    the last; an error when there is no point. *)
Definition irfft2 (n w : nat) (X : nat * nat -> C) : result (list (list R)) :=
  if Nat.eqb (2 * (w - 1)) 0 then Err ValueError
  else Ok (tab2 n (2 * (w - 1)) (fun y x => c2r w (fun kx => idft1 n (fun ky => X (ky, kx)) y) x)).

(** gen_field.py:255-257: the image (return_fft=False) *)
Definition make_extended (imsize : nat) (powerlaw theta ellip : R) (angles : nat -> nat -> R) : result (list (list R)) :=
  output <- extended_rfft imsize powerlaw theta ellip angles ;;
  irfft2 imsize (S (np1 imsize)) output.

(** ** make_3dfield *)

(** gen_field.py:34-56 *)
Definition raw3 (imsize : nat) (powerlaw : R) (angles : nat -> nat -> nat -> R) (p : nat * nat * nat) : C :=
  let yy := fftfreq imsize (fst (fst p)) in
  let xx := fftfreq imsize (snd (fst p)) in
  let zz := rfftfreq imsize (snd p) in
  let rr := sqrt (xx ^ 2 + yy ^ 2 + zz ^ 2) in
  if Reqb rr 0 then RtoC 0
  else Cmult (RtoC (Rpower rr (- powerlaw / 2))) (cis (angles (fst (fst p)) (snd (fst p)) (snd p))).

(** gen_field.py:58-123, statement by statement *)
Definition sym3 (imsize : nat) : list (stmt (nat * nat * nat)) :=
  let Np1 := np1 imsize in
  let z := Z.of_nat in
  let up n := slice_idx (Some 1%Z) (Some (z n)) 1 imsize in
  let down := slice_idx (Some (z imsize)) (Some (z Np1)) (-1) imsize in
  let L := Np1 in
  (if Nat.even imsize then
    let u := up Np1 in
    [ConjTo (plane u u 0) (plane down down 0);
     ConjTo (plane u u L) (plane down down L);
     ConjTo (plane u down 0) (plane down u 0);
     ConjTo (plane u down L) (plane down u L);
     ConjTo (plane u down 0) (plane down u 0);
     ConjTo (plane u down L) (plane down u L);
     ConjTo (plane u [Np1] 0) (plane down [Np1] 0);
     ConjTo (plane u [Np1] L) (plane down [Np1] L);
     ConjTo (plane [Np1] u 0) (plane [Np1] down 0);
     ConjTo (plane [Np1] u L) (plane [Np1] down L);
     ConjTo (plane u [0%nat] 0) (plane down [0%nat] 0);
     ConjTo (plane u [0%nat] L) (plane down [0%nat] L);
     ConjTo (plane [0%nat] u 0) (plane [0%nat] down 0);
     ConjTo (plane [0%nat] u L) (plane [0%nat] down L);
     RealAt (Np1, 0%nat, 0%nat); RealAt (Np1, 0%nat, L);
     RealAt (0%nat, Np1, 0%nat); RealAt (0%nat, Np1, L);
     RealAt (Np1, Np1, 0%nat); RealAt (Np1, Np1, L)]
  else
    let u := up (Np1 + 1)%nat in
    [ConjTo (plane u u 0) (plane down down 0);
     ConjTo (plane u u L) (plane down down L);
     ConjTo (plane u down 0) (plane down u 0);
     ConjTo (plane u down L) (plane down u L);
     ConjTo (plane u down 0) (plane down u 0);
     ConjTo (plane u down L) (plane down u L);
     ConjTo (plane u [0%nat] 0) (plane down [0%nat] 0);
     ConjTo (plane u [0%nat] L) (plane down [0%nat] L);
     ConjTo (plane [0%nat] u 0) (plane [0%nat] down 0);
     ConjTo (plane [0%nat] u L) (plane [0%nat] down L)])
  ++ [RealAt (0%nat, 0%nat, 0%nat); RealAt (0%nat, 0%nat, L)].

Definition output3 (imsize : nat) (powerlaw : R) (angles : nat -> nat -> nat -> R) : result (nat * nat * nat -> C) :=
  if Nat.eqb imsize 0 then Err ZeroDivisionError
  else run eqb3 (sym3 imsize) (raw3 imsize powerlaw angles).

(** np.fft.irfftn of an (n, n, w) map *)
Definition irfftn_at (n w : nat) (X : nat * nat * nat -> C) (a b c : nat) : R :=
  c2r w (fun k2 => idft2 n n (fun k0 k1 => X (k0, k1, k2)) a b) c.

(** gen_field.py:125-128: the map and its normalisation: every value is divided
    by sqrt(sum of squares) / sqrt(size) / amp; a vanishing sum gives NaN and
    amp = 0 gives zeros (x / inf). *)
Definition make_3dfield (imsize : nat) (powerlaw amp : R) (angles : nat -> nat -> nat -> R) : result (list (list (list fl))) :=
  output <- output3 imsize powerlaw angles ;;
  let w := S (np1 imsize) in
  let m := (2 * (w - 1))%nat in
  if Nat.eqb m 0 then Err ValueError
  else
    let newmap := irfftn_at imsize w output in
    let total := rsum imsize (fun i => rsum imsize (fun j => rsum m (fun k => newmap i j k ^ 2))) in
    let size := (imsize * imsize * m)%nat in
    let scale := fdiv (Fin (sqrt total / sqrt (INR size))) (Fin amp) in
    Ok (tab3 imsize imsize m (fun i j k => fdiv (Fin (newmap i j k)) scale)).

(** gen_field.py:130-132 (return_fft=True): np.fft.rfftn of the map, whose last
    axis has m // 2 + 1 entries, in the order of np.fft; [real_of] of the values *)
Definition rfft3 (imsize : nat) (newmap : list (list (list fl))) : list (list (list C)) :=
  let m := (2 * np1 imsize)%nat in
  let v a b c := match nth c (nth b (nth a newmap []) []) NaN with Fin r => RtoC r | _ => RtoC 0 end in
  tab3 imsize imsize (m / 2 + 1) (fun a b c => dft3 imsize imsize m v a b c).
