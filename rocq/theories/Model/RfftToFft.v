(** Model of turbustat/statistics/rfft_to_fft.py *)
From Coq Require Import Reals List ZArith Arith.
From Coquelicot Require Import Complex.
From Verif Require Import Lib.PyBase Lib.PySlice Lib.Arr Lib.DFT Lib.Fl.
Import ListNotations.

(** A real input array: its shape and its entries.  [RealOther d] stands for an
    array with d dimensions, d not 2 or 3. *)
Inductive real_array :=
| Real2 (ny nx : nat) (a : nat -> nat -> R)
| Real3 (nz ny nx : nat) (a : nat -> nat -> nat -> R)
| RealOther (ndim : nat).

(** The returned array of moduli. *)
Inductive abs_array :=
| Abs2 (rows : list (list R))
| Abs3 (planes : list (list (list R))).

(** [np.abs(np.fft.rfftn(image))], rfft_to_fft.py:53-61: the modulus of the DFT
    over all axes, restricted to the first n//2+1 frequencies of the last
    axis.  (pyfftw's rfftn, lines 58-62, computes the same.) *)
Definition rfft2_abs (ny nx : nat) (a : nat -> nat -> R) : list (list R) :=
  tab2 ny (nx / 2 + 1) (fun ky kx => Cmod (dft2 ny nx (fun y x => RtoC (a y x)) ky kx)).
Definition rfft3_abs (nz ny nx : nat) (a : nat -> nat -> nat -> R) : list (list (list R)) :=
  tab3 nz ny (nx / 2 + 1) (fun kz ky kx => Cmod (dft3 nz ny nx (fun z y x => RtoC (a z y x)) kz ky kx)).

(** rfft_to_fft.py:66-74, the 2D branch, for the half-spectrum [fft_abs] of an
    image with [last_dim] columns. *)
Definition expand2 (last_dim : nat) (fft_abs : list (list R)) : list (list R) :=
  let fftstar_abs :=
    if Nat.eqb (last_dim mod 2) 0
    then map (slice (Some (-2)%Z) (Some 0%Z) (-1)) fft_abs
    else map (slice (Some (-1)%Z) (Some 0%Z) (-1)) fft_abs in
  let fftstar_abs :=
    assign_slice (Some 1%Z) None 1 fftstar_abs (slice None (Some 0%Z) (-1) fftstar_abs) in
  map2 (@app R) fft_abs fftstar_abs.

(** rfft_to_fft.py:76-85, the 3D branch. *)
Definition expand3 (last_dim : nat) (fft_abs : list (list (list R))) : list (list (list R)) :=
  let fftstar_abs :=
    if Nat.eqb (last_dim mod 2) 0
    then map (map (slice (Some (-2)%Z) (Some 0%Z) (-1))) fft_abs
    else map (map (slice (Some (-1)%Z) (Some 0%Z) (-1))) fft_abs in
  let fftstar_abs :=
    assign_slice (Some 1%Z) None 1 fftstar_abs (slice None (Some 0%Z) (-1) fftstar_abs) in
  let fftstar_abs :=
    map (fun plane => assign_slice (Some 1%Z) None 1 plane (slice None (Some 0%Z) (-1) plane)) fftstar_abs in
  map2 (map2 (@app R)) fft_abs fftstar_abs.

(** rfft_to_fft.py:21-85 *)
Definition rfft_to_fft (image : real_array) (keep_rfft : bool) : result abs_array :=
  match image with
  | RealOther _ => Err TypeError
  | Real2 ny nx a =>
      let fft_abs := rfft2_abs ny nx a in
      if keep_rfft then Ok (Abs2 fft_abs) else Ok (Abs2 (expand2 nx fft_abs))
  | Real3 nz ny nx a =>
      let fft_abs := rfft3_abs nz ny nx a in
      if keep_rfft then Ok (Abs3 fft_abs) else Ok (Abs3 (expand3 nx fft_abs))
  end.
