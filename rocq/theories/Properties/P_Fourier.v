(** Properties C01-C04: Fourier expansion and shifts. *)
From Coq Require Import Reals List ZArith Lia Lra Permutation.
From Coquelicot Require Import Complex.
From Verif Require Import Lib.PyBase Lib.Arr Lib.DFT Lib.Fl
  Model.RfftToFft Model.StatsUtils
  Proofs.RfftToFft_Proofs Proofs.StatsUtils_Proofs.
Import ListNotations.

(** C01.  The expanded half spectrum is the modulus of the full 2D DFT. *)
Theorem C01_rfft_to_fft_2d : forall (ny nx : nat) (image : nat -> nat -> R),
  (1 <= ny)%nat -> (1 <= nx)%nat ->
  rfft_to_fft (Real2 ny nx image) false =
  Ok (Abs2 (tab2 ny nx (fun ky kx => Cmod (dft2 ny nx (fun y x => RtoC (image y x)) ky kx)))).
Proof. exact rfft_2d. Qed.
Print Assumptions C01_rfft_to_fft_2d.

(** C01, keep_rfft: the first nx//2+1 columns of the same array. *)
Theorem C01_rfft_keep : forall (ny nx : nat) (image : nat -> nat -> R),
  rfft_to_fft (Real2 ny nx image) true =
  Ok (Abs2 (tab2 ny (nx / 2 + 1) (fun ky kx => Cmod (dft2 ny nx (fun y x => RtoC (image y x)) ky kx)))).
Proof. exact rfft_2d_keep. Qed.
Print Assumptions C01_rfft_keep.

(** A 1 x 2 image with a non-trivial spectrum. *)
Example C01_example :
  rfft_to_fft (Real2 1 2 (fun _ x => INR (S x))) false = Ok (Abs2 [[3; 1]%R]).
Proof. exact rfft_example. Qed.

(** C02.  The 3D expansion; and the dimension check. *)
Theorem C02_rfft_to_fft_3d : forall (nz ny nx : nat) (cube : nat -> nat -> nat -> R),
  (1 <= nz)%nat -> (1 <= ny)%nat -> (1 <= nx)%nat ->
  rfft_to_fft (Real3 nz ny nx cube) false =
  Ok (Abs3 (tab3 nz ny nx (fun kz ky kx =>
        Cmod (dft3 nz ny nx (fun z y x => RtoC (cube z y x)) kz ky kx)))).
Proof. exact rfft_3d. Qed.
Print Assumptions C02_rfft_to_fft_3d.

Theorem C02_rfft_other_dims : forall ndim keep, rfft_to_fft (RealOther ndim) keep = Err TypeError.
Proof. exact rfft_other. Qed.
Print Assumptions C02_rfft_other_dims.

(** The hypotheses of C02 are met by, e.g., a 2 x 3 x 4 cube, and the value at the
    zero frequency of the all-ones cube is its number of voxels. *)
Example C02_example : exists planes,
  rfft_to_fft (Real3 2 3 4 (fun _ _ _ => 1%R)) false = Ok (Abs3 planes) /\
  nth 0 (nth 0 (nth 0 planes []) []) 0%R = 24%R.
Proof. exact rfft3_example. Qed.

(** C03.  Element i moves to position (i + s) mod n. *)
Theorem C03_pixel_shift_moves : forall (A : Type) (x : list A) (s : Z) (i : nat),
  (i < length x)%nat ->
  nth_error (pixel_shift x (ShiftInt s)) (Z.to_nat ((Z.of_nat i + s) mod Z.of_nat (length x)))
  = nth_error x i.
Proof. exact (@roll_moves). Qed.
Print Assumptions C03_pixel_shift_moves.

(** C03.  Nothing is lost or duplicated. *)
Theorem C03_pixel_shift_permutes : forall (A : Type) (x : list A) (s : shift_arg),
  Permutation (pixel_shift x s) x.
Proof. exact (@pixel_shift_perm). Qed.
Print Assumptions C03_pixel_shift_permutes.

(** C03.  Shifts compose additively, so shifting back restores the input. *)
Theorem C03_pixel_shift_compose : forall (A : Type) (x : list A) (s t : Z),
  pixel_shift (pixel_shift x (ShiftInt s)) (ShiftInt t) = pixel_shift x (ShiftInt (s + t)) /\
  pixel_shift (pixel_shift x (ShiftInt s)) (ShiftInt (- s)) = x.
Proof. exact (@pixel_shift_compose). Qed.
Print Assumptions C03_pixel_shift_compose.

(** C03.  A float shift acts as the integer obtained by truncation toward 0. *)
Theorem C03_pixel_shift_float : forall (A : Type) (x : list A) (r : R),
  exists z : Z, pixel_shift x (ShiftFloat r) = pixel_shift x (ShiftInt z) /\
    (Rabs (IZR z) <= Rabs r < Rabs (IZR z) + 1)%R /\ (0 <= IZR z * r)%R.
Proof. exact (@pixel_shift_float). Qed.
Print Assumptions C03_pixel_shift_float.

Example C03_example : pixel_shift [10; 20; 30; 40; 50]%Z (ShiftInt (-7)) = [30; 40; 50; 10; 20]%Z.
Proof. reflexivity. Qed.

(** C04.  Shifting by a whole number of pixels through the Fourier transform is
    the pixel shift (non-finite input pixels come out blank). *)
Theorem C04_fourier_shift_integer : forall (x : list fl) (s : Z),
  fourier_shift x (IZR s) =
  map (fun v => match v with Fin r => Fin r | _ => NaN end) (pixel_shift x (ShiftInt s)).
Proof. exact fourier_shift_int. Qed.
Print Assumptions C04_fourier_shift_integer.

Example C04_example : fourier_shift [Fin 1; NaN; Fin 3; Fin 4]%R (IZR (-1)) = [NaN; Fin 3; Fin 4; Fin 1]%R.
Proof. exact fourier_shift_example. Qed.
