(** Model of the Bispectrum objects of turbustat/statistics/pspec_bispec/bispec.py through runs
    that may raise, of the slices for several radii or angles, and of Bispectrum_Distance. *)
From Coq Require Import Reals String List ZArith Arith Bool.
From Coquelicot Require Import Complex.
From Verif Require Import Lib.PyBase Lib.Arr Lib.DFT Lib.Fl Lib.RSum Lib.Bins Model.StatsUtils Model.Psds Model.Units Model.Bispec.
Import ListNotations.
Local Open Scope R_scope.

(** An image (None: NaN), with its shape *)
Record image := mk_im { i_ny : nat; i_nx : nat; i_pix : nat -> nat -> option R }.
(** Arguments of compute_bispectrum that matter: seed, nsamples, mean_subtract *)
Record bargs := mk_ba { a_seed : Z; a_nsamples : nat; a_mean : bool }.
(** Attributes _bispectrum, _bicoherence, _bispectrum_amp, _tracker; None before they are set *)
Record bobj := mk_b { b_bispectrum : option (nat -> nat -> C); b_bicoherence : option (nat -> nat -> fl); b_logamp : option (nat -> nat -> fl); b_tracker : option (nat * nat -> Z) }.
Definition fresh : bobj := mk_b None None None None.
Definition outcome := (bobj * option exn)%type.

(** A loop that stops at the first exception, with what was done before *)
Fixpoint until_raised {A B} (f : A -> result B) (l : list A) : list B * option exn :=
  match l with
  | [] => ([], None)
  | a :: r => match f a with Err e => ([], Some e) | Ok b => let done := until_raised f r in (b :: fst done, snd done) end
  end.

Section Draws.
(** The angles drawn after NumpyRNGContext(seed) for the n-th cell: one pair for each sample *)
Variable rng : Z -> nat -> nat -> list (R * R).

(** bispec.py:64-165 [compute_bispectrum]: the surfaces are set to zeros before the loop, which
    fills the bispectrum and the tracker; the bicoherence and the amplitudes are set after it.
    A cell that raises does so before it stores anything. *)
Definition compute (im : image) (o : bobj) (a : bargs) : outcome :=
  let ny := i_ny im in let nx := i_nx im in
  let data i j := fill (i_pix im i j) in
  let mean := rsum ny (fun i => rsum nx (fun j => data i j)) / INR (ny * nx) in
  let norm_data i j := if a_mean a then data i j - mean else data i j in
  let fft := dft2 ny nx (fun i j => RtoC (norm_data i j)) in
  let loop := until_raised (fun k => cell ny nx fft (fst k) (snd k) (rng (a_seed a) (a_nsamples a) (fst k * (nx / 2) + snd k)%nat)) (list_prod (seq 0 (ny / 2)) (seq 0 (nx / 2))) in
  let out k1 k2 := snd (nth (k1 * (nx / 2) + k2) (fst loop) ([], [], [], (RtoC 0, 1))) in
  let bispectrum k1 k2 := fst (out k1 k2) in
  let tracker := fold_left tally (fst loop) (fun _ => 0%Z) in
  match snd loop with
  | Some e => (mk_b (Some bispectrum) (Some (fun _ _ => Fin 0)) (b_logamp o) (Some tracker), Some e)
  | None => (mk_b (Some bispectrum) (Some (fun k1 k2 => fdiv (Fin (Cmod (bispectrum k1 k2))) (Fin (snd (out k1 k2))))) (Some (fun k1 k2 => flog10 (Cmod (bispectrum k1 k2)))) (Some tracker), None)
  end.
(** bispec.py:461-502 [run], without the plot: one call of compute_bispectrum *)
Definition run (im : image) (o : bobj) (a : bargs) : outcome := compute im o a.
Definition history (im : image) (o : bobj) (l : list bargs) : bobj := fold_left (fun o a => fst (run im o a)) l o.

(** What Bispectrum_Distance is given: data, or an object of some image *)
Inductive given := Data (im : image) | Object (im : image) (o : bobj).
Definition image_of (g : given) : image := match g with Data im => im | Object im _ => im end.
(** bispec.py:536-567 [__init__], for one of the two: objects that have a _bicoherence are not
    run *)
Definition prepared (g : given) (kw : bargs) : outcome :=
  match g with
  | Data im => run im fresh kw
  | Object im o => match b_bicoherence o with Some _ => (o, None) | None => run im o kw end
  end.
(** bispec.py:536-616: the constructor, then distance_metric *)
Definition distance (g1 g2 : given) (kw : bargs) : result (bobj * bobj * fl * fl) :=
  match prepared g1 kw with
  | (_, Some e) => Err e
  | (o1, None) =>
      match prepared g2 kw with
      | (_, Some e) => Err e
      | (o2, None) =>
          match b_bicoherence o1, b_bicoherence o2 with
          | Some s1, Some s2 =>
              let h1 := (i_ny (image_of g1) / 2)%nat in let w1 := (i_nx (image_of g1) / 2)%nat in
              let h2 := (i_ny (image_of g2) / 2)%nat in let w2 := (i_nx (image_of g2) / 2)%nat in
              Ok (o1, o2, surface_distance h1 w1 s1 h2 w2 s2, mean_distance h1 w1 s1 h2 w2 s2)
          | _, _ => Err AttributeError
          end
      end
  end.
End Draws.

(** ** Slices *)

(** A number, a list or an array of numbers *)
Inductive numbers := Number (r : R) | NList (l : list R) | NArray (l : list R).
(** One width of a slice after broadcasting: a number, or a row (from a 2D array) *)
Inductive width := WNum (r : R) | WRow (l : list R).
Definition slice := (list R * list fl * list fl)%type.

(** bispec.py:224-233: radii and widths in pairs.  np.array([delta] * n) of a list is a 2D array
    with n rows; zip stops at the shorter *)
Definition row_of (d : numbers) : width := match d with Number r => WNum r | NList l => WRow l | NArray l => WRow l end.
Definition pair_widths (radii delta : numbers) : result (list (R * width)) :=
  match radii, delta with
  | Number r, NArray l => Ok (combine [r] (map WNum l))
  | Number r, d => Ok (combine [r] [row_of d])
  | NList rs, NArray l | NArray rs, NArray l => if Nat.eqb (length rs) (length l) then Ok (combine rs (map WNum l)) else Err ValueError
  | NList rs, d | NArray rs, d => Ok (map (fun r => (r, row_of d)) rs)
  end.
(** The width at a pixel.  A row is broadcast along the last axis: it must have one element or one
    for each column; along a single column the mask gets another shape than the surface *)
Definition width_at (hx : nat) (w : width) : result (nat * nat -> R) :=
  match w with
  | WNum r => Ok (fun _ => r)
  | WRow l =>
      if Nat.eqb (length l) 1 then Ok (fun _ => nth 0 l 0)
      else if Nat.eqb (length l) hx then Ok (fun p => nth (snd p) l 0)
      else if Nat.eqb hx 1 then Err IndexError else Err ValueError
  end.

(** The surface named by `value`; the complex bispectrum itself is not modelled *)
Definition surface_of (o : bobj) (value : string) : result (nat -> nat -> fl) :=
  if String.eqb value "bispectrum_logamp" then match b_logamp o with Some s => Ok s | None => Err AttributeError end
  else if String.eqb value "bicoherence" then match b_bicoherence o with Some s => Ok s | None => Err AttributeError end
  else if String.eqb value "bispectrum" then Err OtherError
  else Err TypeError.

(** A dictionary: pairs in the order of their assignment, the last one of a key counts *)
Fixpoint lookup {A} (d : list (R * A)) (k : R) : option A :=
  match d with [] => None | (k', v) :: r => match lookup r k with Some v' => Some v' | None => if Reqb k' k then Some v else None end end.

Definition rad : unit_ := mk_unit 0 1 0 0 (180 / PI).
(** bispec.py:235-241: a bin width with its unit; [inl] is a plain number *)
Definition angle_of (b : R + quantity) : result R :=
  match b with
  | inl _ => Err TypeError
  | inr q => if is_equivalent (q_unit q) rad then Ok (hd 0 (q_vals q) * (u_factor (q_unit q) / u_factor rad)) else Err TypeError
  end.
(** bispec.py:209-296 [azimuthal_slice] of an object with surfaces of shape (hy, hx): the slices
    by their radius, without the masks *)
Definition azimuthal_slices (hy hx : nat) (o : bobj) (radii delta : numbers) (bin_width : R + quantity) (value : string) : result (list (R * slice)) :=
  surf <- surface_of o value ;;
  pairs <- pair_widths radii delta ;;
  bw <- angle_of bin_width ;;
  each (fun p => del <- width_at hx (snd p) ;;
                 s <- slice_bins (linspace 0 PI (Z.to_nat (Int_part (PI / bw)))) theta0 (fun q => in_ring (fst p) (del q) (dist0 q)) hy hx surf ;;
                 Ok (fst p, s)) pairs.

(** Angles: a plain number, list or array; a Quantity with one value; a Quantity with an array *)
Inductive angles_arg := Plain | QScalar (v : R) (u : unit_) | QArray (l : list R) (u : unit_).
Definition unit_of (a : angles_arg) : option unit_ := match a with Plain => None | QScalar _ u => Some u | QArray _ u => Some u end.
Definition in_rad (v : R) (u : unit_) : R := v * (u_factor u / u_factor rad).
(** bispec.py:341-366: the angles as given, in radians, and their widths.  .copy().value is read
    before the units are looked at *)
Definition pair_angles (thetas delta : angles_arg) : result (list (R * R * R)) :=
  match thetas with
  | Plain => Err AttributeError
  | _ =>
      match unit_of thetas, unit_of delta with
      | Some ut, Some ud =>
          if is_equivalent ut rad && is_equivalent ud rad then
            let widths := match delta with QArray l u => map (fun v => in_rad v u) l | _ => [] end in
            match thetas, delta with
            | QScalar v u, QScalar d ud => Ok [(v, in_rad v u, in_rad d ud)]
            | QScalar v u, _ => Ok (combine [(v, in_rad v u)] widths)
            | QArray l u, QScalar d ud => Ok (map (fun v => (v, in_rad v u, in_rad d ud)) l)
            | QArray l u, _ => if Nat.eqb (length l) (length widths) then Ok (combine (map (fun v => (v, in_rad v u)) l) widths) else Err ValueError
            | Plain, _ => Err AttributeError
            end
          else Err TypeError
      | _, _ => Err TypeError
      end
  end.
(** bispec.py:327-404 [radial_slice]: the slices by their angle as given *)
Definition radial_slices (hy hx : nat) (o : bobj) (thetas delta : angles_arg) (bin_width : R) (value : string) : result (list (R * slice)) :=
  surf <- surface_of o value ;;
  triples <- pair_angles thetas delta ;;
  each (fun t => s <- radial_slice hy hx surf bin_width (snd (fst t)) (snd t) ;; Ok (fst (fst t), s)) triples.
