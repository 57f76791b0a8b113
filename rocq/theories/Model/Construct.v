(** Model of the constructors of the statistics (turbustat/statistics), as far as the
    arrays they read and write, the header and the beam go: base_statistic.py,
    pspec_bispec/pspec.py, pspec_bispec/bispec.py, vca_vcs/vca.py, vca_vcs/vcs.py,
    wavelets/wavelet_transform.py, mvc/mvc.py, delta_variance/delta_variance.py,
    tsallis/tsallis.py, scf/scf.py, genus/genus.py, stat_moments/highstatmoments.py,
    pdf/compare_pdf.py, pca/pca.py, dendrograms/dendro_stats.py.

    Arrays are flattened lists in a store (InputData.v); a view of an array (squeeze) is the
    array itself.  Checks of lags, radii, distances and thresholds come after the data have
    been read, write no array, and are modelled elsewhere. *)
From Coq Require Import Reals List Arith Bool.
From Verif Require Import Lib.PyBase Lib.Fl Model.InputData.
Import ListNotations.
Local Open Scope R_scope.

(** A call runs on a store and leaves a store, also when it raises. *)
Definition call (A : Type) := store -> store * result A.
Definition raise {A} (e : exn) : call A := fun st => (st, Err e).
Definition ret {A} (a : A) : call A := fun st => (st, Ok a).
Definition thenc {A B} (m : call A) (k : A -> call B) : call B :=
  fun st => match m st with (st', Ok a) => k a st' | (st', Err e) => (st', Err e) end.
Notation "x <~ m ; k" := (thenc m (fun x => k)) (at level 60, right associativity).

(** a = a.copy(), and a[mask] = 0. with a boolean mask (another length: IndexError) *)
Definition copy (r : nat) : call nat := fun st => (st ++ [read st r], Ok (length st)).
Definition zero_where (mask : list bool) (l : list fl) : list fl := map2 (fun (b : bool) v => if b then Fin 0 else v) mask l.
Definition set_zero (r : nat) (mask : list bool) : call unit :=
  fun st => if negb (Nat.eqb (length mask) (length (read st r))) then (st, Err IndexError)
            else (write st r (zero_where mask (read st r)), Ok tt).
(** np.isnan(a) *)
Definition isnan (r : nat) : call (list bool) := fun st => (st, Ok (map is_nan (read st r))).
(** A new array. *)
Definition new (v : store -> list fl) : call nat := fun st => (st ++ [v st], Ok (length st)).

(** input_base.py:27-94 as a call *)
Definition input (src : source) (no_header need_copy : bool) : call (item * option item) :=
  fun st => match input_data st src no_header need_copy with
            | Ok (st', d, h) => (st', Ok (d, h))
            | Err e => (st, Err e)
            end.

(** base_statistic.py:93-101, the data setter, and 38-48, the header setter *)
Definition set_data (d : item) : call nat := match d with IArray r => ret r | _ => raise TypeError end.
Definition set_header (h : item) : call nat := match h with IHeader n => ret n | _ => raise TypeError end.

(** base_statistic.py:104-126.  [quantity]: a numpy array that is given is an astropy
    Quantity (a Projection or Slice always is one). *)
Definition input_data_header (src : source) (quantity : bool) (header : option item) : call (nat * nat) :=
  match header with
  | Some h => dh <~ input src true false ; r <~ set_data (fst dh) ; n <~ set_header h ; ret (r, n)
  | None =>
      match src, quantity with
      | Array _, false => raise ValueError
      | _, _ =>
          dh <~ input src false false ; r <~ set_data (fst dh) ;
          match snd dh with Some h => n <~ set_header h ; ret (r, n) | None => raise OtherError end
      end
  end.

(** The replacement of blank pixels by zeros in a copy: pspec.py:46-48, bispec.py:58-62,
    vca.py:62-65, vcs.py:40-43, wavelet_transform.py:59-62 *)
Definition zero_blanks (r : nat) : call nat :=
  m <~ isnan r ;
  if existsb (fun b => b) m then c <~ copy r ; _ <~ set_zero c m ; ret c else ret r.

(** ** The constructors: the array of the data, other arrays, and the header *)
Record obj := mk_obj { o_data : nat; o_other : list nat; o_header : option nat }.

(** pspec.py:38-60.  The weights are an array (or None); other_ holds weighted_data. *)
Definition power_spectrum (src : source) (quantity : bool) (header : option item) (weights : option nat) : call obj :=
  rh <~ input_data_header src quantity header ;
  r <~ zero_blanks (fst rh) ;
  wd <~ match weights with
        | None => new (fun st => map (fun v => fmul v (Fin 1)) (read st r))
        | Some w =>
            m <~ isnan r ;
            wm <~ isnan w ;
            _ <~ set_zero w wm ;
            _ <~ set_zero w m ;
            _ <~ set_zero r m ;
            new (fun st => map2 fmul (read st r) (read st w))
        end ;
  ret (mk_obj r [wd] (Some (snd rh))).

(** vca.py:46-65 (no channel_width), vcs.py:34-44, wavelet_transform.py:53-62 *)
Definition with_header (src : source) (quantity : bool) (header : option item) : call obj :=
  rh <~ input_data_header src quantity header ; r <~ zero_blanks (fst rh) ; ret (mk_obj r [] (Some (snd rh))).

(** bispec.py:50-62 *)
Definition bispectrum (src : source) : call obj :=
  dh <~ input src true false ; r0 <~ set_data (fst dh) ; r <~ zero_blanks r0 ; ret (mk_obj r [] None).

(** mvc.py:45-95.  np.isnan of something that is no array raises TypeError; the header
    setter inside the try raises TypeError too, which is caught. *)
Definition mvc (centroid : source) (header : option item) (moment0 linewidth : source) : call obj :=
  let whole := dh <~ input centroid true false ; ret (fst dh, @None nat) in
  ch <~ match header with
        | Some h => dh <~ input centroid true false ; n <~ set_header h ; ret (fst dh, Some n)
        | None =>
            fun st =>
              match (dh <~ input centroid false false ;
                     match snd dh with Some h => n <~ set_header h ; ret (fst dh, Some n) | None => raise OtherError end) st with
              | (st', Err TypeError) => whole st'
              | other => other
              end
        end ;
  c <~ set_data (fst ch) ;
  m0 <~ input moment0 true false ; m <~ set_data (fst m0) ;
  lw <~ input linewidth true false ; l <~ set_data (fst lw) ;
  fun st =>
    if negb (Nat.eqb (length (read st c)) (length (read st m)) && Nat.eqb (length (read st c)) (length (read st l)))
    then (st, Err IndexError)
    else
      (ic <~ isnan c ; im <~ isnan m ; il <~ isnan l ;
       let all := map2 andb (map2 andb ic im) il in
       if existsb (fun b => b) all then
         c' <~ copy c ; _ <~ set_zero c' all ;
         m' <~ copy m ; _ <~ set_zero m' all ;
         l' <~ copy l ; _ <~ set_zero l' all ;
         ret (mk_obj c' [m'; l'] (snd ch))
       else ret (mk_obj c [m; l] (snd ch))) st.

(** delta_variance.py:58-72, 128-135: the data and their weights, of the same shape *)
Definition delta_variance (src : source) (quantity : bool) (header : option item) (weights : option source) : call obj :=
  rh <~ input_data_header src quantity header ;
  w <~ match weights with
       | None => new (fun st => map (fun v => if is_fin v then Fin 1 else Fin 0) (read st (fst rh)))
       | Some ws => dh <~ input ws true false ; set_data (fst dh)
       end ;
  fun st => if negb (Nat.eqb (length (read st w)) (length (read st (fst rh)))) then (st, Err ValueError)
            else (st, Ok (mk_obj (fst rh) [w] (Some (snd rh)))).

(** tsallis.py:35-38, scf.py:57-62, dendro_stats.py:61-70 *)
Definition as_given (src : source) (quantity : bool) (header : option item) : call obj :=
  rh <~ input_data_header src quantity header ; ret (mk_obj (fst rh) [] (Some (snd rh))).

(** highstatmoments.py:45-54 *)
Definition stat_moments (src : source) (quantity : bool) (header : option item) (weights : option source) : call obj :=
  rh <~ input_data_header src quantity header ;
  w <~ match weights with
       | None => new (fun st => map (fun _ => Fin 1) (read st (fst rh)))
       | Some ws => dh <~ input ws true false ; set_data (fst dh)
       end ;
  ret (mk_obj (fst rh) [w] (Some (snd rh))).

(** genus.py:74-89: anything that is a numpy array, a Projection or Slice included, is
    taken without its header *)
Definition genus (src : source) : call obj :=
  match src with
  | Array _ | LowerDim _ _ => dh <~ input src true false ; r <~ set_data (fst dh) ; ret (mk_obj r [] None)
  | _ => dh <~ input src false false ; r <~ set_data (fst dh) ;
         match snd dh with Some h => n <~ set_header h ; ret (mk_obj r [] (Some n)) | None => raise OtherError end
  end.

(** pca.py:47-50 *)
Definition pca (src : source) : call obj :=
  dh <~ input src false false ; r <~ set_data (fst dh) ;
  match snd dh with Some h => n <~ set_header h ; ret (mk_obj r [] (Some n)) | None => raise OtherError end.

(** compare_pdf.py:44-70: selects values above min_val into new arrays *)
Fixpoint select (mask : list bool) (l : list fl) : list fl :=
  match mask, l with true :: m, v :: l => v :: select m l | false :: m, _ :: l => select m l | _, _ => [] end.
Definition pdf (src : source) (min_val : fl) (weights : option source) : call obj :=
  dh <~ input src true false ; r <~ set_data (fst dh) ;
  fun st =>
    let keep := map (fun v => is_fin v && fltb min_val v) (read st r) in
    (d <~ new (fun st => select keep (read st r)) ;
     match weights with
     | None => ret (mk_obj d [] None)
     | Some ws =>
         wh <~ input ws true false ; w <~ set_data (fst wh) ;
         fun st =>
           if negb (Nat.eqb (length keep) (length (read st w))) then (st, Err IndexError)
           else (kw <~ new (fun st => select keep (read st w)) ;
                 fun st =>
                   let fin := map is_fin (read st kw) in
                   (d' <~ new (fun st => map2 fmul (select fin (read st d)) (select fin (read st kw))) ;
                    ret (mk_obj d' [kw] None)) st) st
     end) st.

(** All of them. *)
Inductive construction :=
| CPowerSpectrum (src : source) (quantity : bool) (header : option item) (weights : option nat)
| CVca (src : source) (quantity : bool) (header : option item)
| CVcs (src : source) (quantity : bool) (header : option item)
| CWavelet (src : source) (quantity : bool) (header : option item)
| CBispectrum (src : source)
| CMvc (centroid : source) (header : option item) (moment0 linewidth : source)
| CDeltaVariance (src : source) (quantity : bool) (header : option item) (weights : option source)
| CTsallis (src : source) (quantity : bool) (header : option item)
| CScf (src : source) (quantity : bool) (header : option item)
| CDendrogram (src : source) (quantity : bool) (header : option item)
| CStatMoments (src : source) (quantity : bool) (header : option item) (weights : option source)
| CGenus (src : source)
| CPca (src : source)
| CPdf (src : source) (min_val : fl) (weights : option source).
Definition construct (c : construction) : call obj :=
  match c with
  | CPowerSpectrum s q h w => power_spectrum s q h w
  | CVca s q h | CVcs s q h | CWavelet s q h => with_header s q h
  | CBispectrum s => bispectrum s
  | CMvc c h m l => mvc c h m l
  | CDeltaVariance s q h w => delta_variance s q h w
  | CTsallis s q h | CScf s q h | CDendrogram s q h => as_given s q h
  | CStatMoments s q h w => stat_moments s q h w
  | CGenus s => genus s
  | CPca s => pca s
  | CPdf s m w => pdf s m w
  end.

(** ** Beam *)

(** base_statistic.py:50-73.  [header]: the header of the object, if it has one;
    [from_header]: the beam radio_beam finds in it.  The argument may be a beam or
    something else. *)
Inductive beam_arg := NoBeam | ABeam (b : nat) | NotABeam.
Definition load_beam (header : option nat) (from_header : nat -> option nat) (current : option nat) (arg : beam_arg) : result (option nat) :=
  match arg with
  | NoBeam => match header with
              | Some h => match from_header h with Some b => Ok (Some b) | None => Ok current end
              | None => Ok current
              end
  | ABeam b => Ok (Some b)
  | NotABeam => Err TypeError
  end.
