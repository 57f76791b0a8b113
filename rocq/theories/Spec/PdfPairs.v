(** Vocabulary for the distances of two PDFs. *)
From Coq Require Import String Reals List Permutation.
From Verif Require Import Lib.Fl Lib.PyBase Model.PdfDistance.
Import ListNotations.
Local Open Scope R_scope.

(** A change of units: multiplied by [a], with the zero point moved by [b] *)
Definition restated (a b : R) (x : fl) : fl := fadd (fmul (Fin a) x) (Fin b).
(** Options in the other units *)
Definition restated_opts (a b : R) (o : pdf_options) : pdf_options :=
  mk_opts (restated a b (po_min1 o)) (restated a b (po_min2 o)) (po_do_fit o) (po_norm o) (po_nbins o) (po_weights1 o) (po_weights2 o)
    (option_map (fun v => a * v + b) (po_bin_min o)) (option_map (fun v => a * v + b) (po_bin_max o)).
(** The lower limits of the two images in the units of each *)
Definition own_limits (a1 b1 a2 b2 : R) (o : pdf_options) : pdf_options :=
  mk_opts (restated a1 b1 (po_min1 o)) (restated a2 b2 (po_min2 o)) (po_do_fit o) (po_norm o) (po_nbins o) (po_weights1 o) (po_weights2 o)
    (po_bin_min o) (po_bin_max o).
(** Options for the images swapped *)
Definition swapped (o : pdf_options) : pdf_options :=
  mk_opts (po_min2 o) (po_min1 o) (po_do_fit o) (po_norm o) (po_nbins o) (po_weights2 o) (po_weights1 o) (po_bin_min o) (po_bin_max o).
(** No weights *)
Definition unweighted (o : pdf_options) : Prop := po_weights1 o = None /\ po_weights2 o = None.
(** Same values and weights, in another order *)
Definition reshuffled (img : list fl) (w : option (list fl)) (img' : list fl) (w' : option (list fl)) : Prop :=
  match w, w' with
  | None, None => Permutation img img'
  | Some w, Some w' => length w = length img /\ length w' = length img' /\ Permutation (combine img w) (combine img' w')
  | _, _ => False
  end.
(** [o] with other weights *)
Definition with_weights (o : pdf_options) (w1 w2 : option (list fl)) : pdf_options :=
  mk_opts (po_min1 o) (po_min2 o) (po_do_fit o) (po_norm o) (po_nbins o) w1 w2 (po_bin_min o) (po_bin_max o).
(** The default options without fit *)
Definition plain : pdf_options := mk_opts NInf NInf false None None None None None None.
(** The changes of units that a normalisation takes out *)
Definition takes_out (t : string) (a b : R) : Prop :=
  t = "standardize"%string \/ t = "normalize"%string \/ (t = "normalize_by_mean"%string /\ b = 0) \/ (t = "center"%string /\ a = 1).
(** The values of an image that are numbers above the lower limit *)
Definition valid (img : list fl) (mn : fl) : list R := filter (fun x => fltb mn (Fin x)) (fins img).
(** Enough bins asked for, or enough values for two edges *)
Definition enough_bins (nbins : option nat) (n : nat) : Prop := match nbins with Some k => (2 <= k)%nat | None => (8 <= n)%nat end.
