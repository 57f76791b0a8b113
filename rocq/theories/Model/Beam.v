(** Model of the beam correction of the two-dimensional power spectra:
    base_pspec2.py, pspec_bispec/pspec.py, vca_vcs/vca.py. *)
From Coq Require Import Reals List ZArith Arith Bool.
From Verif Require Import Lib.PyBase Lib.PySlice Lib.Arr Lib.Fl Model.RfftToFft Model.Psds.
Import ListNotations.
Local Open Scope R_scope.

(** rfft_to_fft.py:21-85 for a 2D array that may hold blanks or infinities: one of
    these makes every Fourier coefficient, and so every modulus, NaN. *)
Definition abs_fft (ny nx : nat) (a : nat -> nat -> fl) : list (list fl) :=
  if forallb (fun p => is_fin (a (fst p) (snd p))) (pixels ny nx) then
    match rfft_to_fft (Real2 ny nx (fun y x => real_of (a y x))) false with
    | Ok (Abs2 rows) => map (map Fin) rows
    | _ => []
    end
  else tab2 ny nx (fun _ _ => NaN).

(** base_pspec2.py:58-75 [compute_beam_pspec].  [beam] is the array of
    Beam.as_kernel with the shape of the spectrum, any values; None: no beam
    was found or given. *)
Definition compute_beam_pspec (ny nx : nat) (beam : option (nat -> nat -> R)) : result (list (list fl)) :=
  match beam with
  | None => Err AttributeError
  | Some kern =>
      let beam_fft := fftshift2 (abs_fft ny nx (fun y x => Fin (kern y x))) in
      let beam_pow := map (map (fun v => fabs (fsqr v))) beam_fft in
      Ok (map (map (fun v => if feqb v (Fin 0) then NaN else v)) beam_pow)
  end.

(** pspec.py:115-119, vca.py:120-124, mvc.py:194-198 *)
Definition beam_divide (ny nx : nat) (ps : list (list fl)) (beam_correct : bool) (beam : option (nat -> nat -> R))
    : result (list (list fl)) :=
  if beam_correct then
    beam_pow <- compute_beam_pspec ny nx beam ;;
    Ok (map2 (map2 fdiv) ps beam_pow)
  else Ok ps.

(** pspec.py:98-119 followed by the ps2D property of base_pspec2.py:25-30.
    [data] is the weighted image without blanks, [kernel] the apodizing kernel. *)
Definition pspec_ps2D (ny nx : nat) (data : nat -> nat -> R) (kernel : option (nat -> nat -> R))
    (beam_correct : bool) (beam : option (nat -> nat -> R)) : result (list (list fl)) :=
  let data y x := match kernel with Some k => Fin (data y x * k y x) | None => Fin (data y x) end in
  let fft := fftshift2 (abs_fft ny nx data) in
  ps <- beam_divide ny nx (map (map fsqr) fft) beam_correct beam ;;
  Ok (slice None None (-1) ps).

(** vca.py:104-124 followed by ps2D, without apodizing (see vca_ps2D) *)
Definition vca_ps2D_beam (nz ny nx : nat) (data : nat -> nat -> nat -> R)
    (beam_correct : bool) (beam : option (nat -> nat -> R)) : result (list (list fl)) :=
  match rfft_to_fft (Real3 nz ny nx data) false with
  | Ok (Abs3 planes) =>
      ps <- beam_divide ny nx (map (map Fin) (sum_axis0 nz ny nx (map (map (map (fun v => v * v))) (fftshift3 planes))))
                        beam_correct beam ;;
      Ok (slice None None (-1) ps)
  | Ok _ => Err OtherError
  | Err e => Err e
  end.
