(** Model of turbustat/statistics/mvc/mvc.py. *)
From Coq Require Import Reals List ZArith Arith Bool.
From Verif Require Import Lib.PyBase Lib.PySlice Lib.Arr Lib.Fl Model.RfftToFft Model.Psds Model.Beam.
Import ListNotations.
Local Open Scope R_scope.

(** A map: its shape and its pixels. *)
Record fmap := { rows : nat; cols : nat; pixel : nat -> nat -> fl }.

Record mvc := { centroid : nat -> nat -> fl; moment0 : nat -> nat -> fl; linewidth : nat -> nat -> fl;
                mvc_rows : nat; mvc_cols : nat }.

(** mvc.py:45-96 [MVC.__init__].  Loading of the data, header and beam is left out
    (the beam is an argument below). *)
Definition mvc_init (c m l : fmap) : result mvc :=
  let same a b := (Nat.eqb (rows a) (rows b) && Nat.eqb (cols a) (cols b))%bool in
  if negb (same c m) || negb (same c l) then Err IndexError
  else
    let isnan y x := is_nan (pixel c y x) && is_nan (pixel m y x) && is_nan (pixel l y x) in
    let fill a y x := if isnan y x then Fin 0 else pixel a y x in
    Ok {| centroid := fill c; moment0 := fill m; linewidth := fill l;
          mvc_rows := rows c; mvc_cols := cols c |}.

(** mvc.py:119-198 [compute_pspec]; [kernel] is the apodizing kernel *)
Definition mvc_compute (d : mvc) (kernel : option (nat -> nat -> R)) (beam_correct : bool)
    (beam : option (nat -> nat -> R)) : result (list (list fl)) :=
  let ny := mvc_rows d in
  let nx := mvc_cols d in
  let c := centroid d in
  let m := moment0 d in
  let l := linewidth d in
  let term1_data y x := match kernel with
                        | Some k => fmul (fmul (c y x) (m y x)) (Fin (k y x))
                        | None => fmul (c y x) (m y x)
                        end in
  let term2_data y x := match kernel with
                        | Some k => fadd (fsqr (l y x)) (fmul (fsqr (c y x)) (Fin (k y x)))
                        | None => fadd (fsqr (l y x)) (fsqr (c y x))
                        end in
  let mom0_data y x := match kernel with
                       | Some k => fmul (m y x) (Fin (k y x))
                       | None => m y x
                       end in
  let term1 := abs_fft ny nx term1_data in
  let fft_mom0 := abs_fft ny nx mom0_data in
  let term2 := nanmean (map (fun p => term2_data (fst p) (snd p)) (pixels ny nx)) in
  let mvc_fft := map2 (map2 (fun a b => fsub a (fmul term2 b))) term1 fft_mom0 in
  let mvc_fft := fftshift2 mvc_fft in
  beam_divide ny nx (map (map (fun v => fsqr (fabs v))) mvc_fft) beam_correct beam.

(** MVC(...).compute_pspec(...) and the ps2D property (base_pspec2.py:25-30) *)
Definition mvc_ps2D (c m l : fmap) (kernel : option (nat -> nat -> R)) (beam_correct : bool)
    (beam : option (nat -> nat -> R)) : result (list (list fl)) :=
  d <- mvc_init c m l ;;
  ps <- mvc_compute d kernel beam_correct beam ;;
  Ok (slice None None (-1) ps).

(** mvc.py:359-364: a map divided by the square of its errors (err ** -2.) *)
Definition weighted (v e : fmap) : fmap :=
  {| rows := rows v; cols := cols v;
     pixel := fun y x => fmul (pixel v y x) (fdiv (Fin 1) (fsqr (pixel e y x))) |}.

(** mvc.py:352-381, 393-395: the spectrum of one data set in MVC_Distance.  The
    map and its errors must have the same shape (numpy broadcasting is not
    modelled); run is called without apodizing and beam correction. *)
Definition distance_ps2D (weight_by_error : bool) (c m l c_err m_err l_err : fmap) : result (list (list fl)) :=
  if weight_by_error then mvc_ps2D (weighted c c_err) (weighted m m_err) (weighted l l_err) None false None
  else mvc_ps2D c m l None false None.
