(** Model of [moment_masking] of turbustat/moments/make_moments.py. *)
From Coq Require Import Reals List Bool Arith.
From Verif Require Import Lib.PyBase Lib.RSum Lib.Fl Model.MakeMoments.
Import ListNotations.
Local Open Scope R_scope.

Section Masking.
  Variables (nz ny nx : nat).
  Definition field := nat -> nat -> nat -> fl.

  (** What astropy's [convolve] sees at an offset: 0 outside the cube (boundary='fill'), nothing where the value is blank
      (nan_treatment='interpolate').  Infinite values are left out here (taken as blank). *)
  Definition sample (data : field) (size z y x i j k : nat) : option R :=
    if (size <=? z + i)%nat && (z + i <? size + nz)%nat && (size <=? y + j)%nat && (y + j <? size + ny)%nat && (size <=? x + k)%nat && (x + k <? size + nx)%nat
    then match data (z + i - size)%nat (y + j - size)%nat (x + k - size)%nat with Fin v => Some v | _ => None end
    else Some 0.
  Definition over_kernel (size : nat) (f : nat -> nat -> nat -> R) : R :=
    rsum (2 * size + 1) (fun i => rsum (2 * size + 1) (fun j => rsum (2 * size + 1) (fun k => gauss_kern size None None i j k * f i j k))).
  (** make_moments.py:461, for a kernel_size above 0: the weighted mean of the values that are not blank; a voxel with none stays
      as it is *)
  Definition smooth (data : field) (size : nat) : field := fun z y x =>
    let top := over_kernel size (fun i j k => match sample data size z y x i j k with Some v => v | None => 0 end) in
    let bottom := over_kernel size (fun i j k => match sample data size z y x i j k with Some _ => 1 | None => 0 end) in
    if Reqb bottom 0 then data z y x else Fin (top / bottom).
  (** make_moments.py:469 *)
  Definition above (data : field) (clip scale : R) (z y x : nat) : bool := fltb (Fin (clip * scale)) (data z y x).

  (** make_moments.py:473: neighbours along an axis; all 27 of a 3 x 3 x 3 structure *)
  Definition beside (n a : nat) : list nat := filter (fun b => (b <? n)%nat && (a <=? b + 1)%nat && (b <=? a + 1)%nat) (seq 0 n).
  Definition dilate (mask : nat -> nat -> nat -> bool) (z y x : nat) : bool :=
    existsb (fun z' => existsb (fun y' => existsb (fun x' => mask z' y' x') (beside nx x)) (beside ny y)) (beside nz z).
  Fixpoint dilated (times : nat) (mask : nat -> nat -> nat -> bool) : nat -> nat -> nat -> bool :=
    match times with O => mask | S t => dilate (dilated t mask) end.
  (** make_moments.py:474-475: scipy repeats the dilation [iterations] times and, for 0, until nothing changes any more; nz + ny + nx
      times are enough for that *)
  Definition binary_dilation (iterations : nat) (mask : nat -> nat -> nat -> bool) : nat -> nat -> nat -> bool :=
    dilated (match iterations with O => nz + ny + nx | S _ => iterations end)%nat mask.

  (** make_moments.py:453-477.  [flag] is the global name signal_id_flag: None when the module does not define it; ImportError is OtherError here.  [noise] is
      signal_id's Noise(cube).scale. *)
  Definition moment_masking (flag : option bool) (noise : field -> R) (data : field) (kernel_size : nat) (clip : R) (dilations : nat)
    : result (nat -> nat -> nat -> bool) :=
    match flag with
    | None => Err NameError
    | Some false => Err OtherError
    | Some true =>
        let s := smooth data kernel_size in
        Ok (binary_dilation dilations (above s clip (noise s)))
    end.
End Masking.
(** make_moments.py:23-28: the lines that would define signal_id_flag are comments *)
Definition signal_id_flag : option bool := None.
