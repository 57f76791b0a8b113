(** Model of PDF.run (compare_pdf.py:508-540) as PDF_Distance uses it, and of the class
    PDF_Distance (compare_pdf.py:543-854) without its plots. *)
From Coq Require Import String Reals List Bool Arith.
From Verif Require Import Lib.PyBase Lib.RSum Lib.Fl Lib.Hist Model.StatsUtils Model.Pdf.
From Verif Require Export Lib.PyStr.
Import ListNotations.
Local Open Scope R_scope.

(** The arguments of PDF_Distance after the two images *)
Record pdf_options := mk_opts {
  po_min1 : fl; po_min2 : fl; po_do_fit : bool; po_norm : option string; po_nbins : option nat;
  po_weights1 : option (list fl); po_weights2 : option (list fl); po_bin_min : option R; po_bin_max : option R }.

(** What PDF.run leaves in a PDF object: the data, the values of [pdf] and [ecdf] at the
    [bins], and the first parameter of the fit with its standard error *)
Record pdf_obj := mk_obj { ob_data : list fl; ob_bins : list R; ob_pdf : list fl; ob_ecdf : list fl; ob_fit : option (fl * fl) }.

Section Distance.
(** fit_pdf with its defaults (compare_pdf.py:178-335: a lognormal, loc fixed to 0, maximum
    likelihood): model_params[0] and model_stderrs[0]; scipy refuses some data *)
Variable fit_lognorm : list fl -> result (fl * fl).

(** compare_pdf.py:529-540 [PDF.run], with bins given and verbose=False *)
Definition pdf_run (data : list fl) (edges : list R) (do_fit : bool) : result pdf_obj :=
  st <- make_pdf (mk_pdf data None None) (Some (Edges edges)) ;;
  se <- make_ecdf st ;;
  f <- (if do_fit then p <- fit_lognorm data ;; Ok (Some p) else Ok None) ;;
  Ok (mk_obj data (pdf_bins (fst se)) (pdf_values (fst se)) (snd se) f).

(** The attributes of a PDF_Distance *)
Record pdf_distance := mk_dist { pd_do_fit : bool; pd_edges : list R; pd_centers : list R; pd_1 : pdf_obj; pd_2 : pdf_obj }.

(** compare_pdf.py:582-611 [PDF_Distance.__init__].  Without data np.nanmin raises
    ValueError.  Simplification: data that are not all numbers after normalisation (constant
    images) are an error here. *)
Definition init (img1 img2 : list fl) (o : pdf_options) : result pdf_distance :=
  _ <- distance_init (po_do_fit o) (po_norm o) ;;
  d1 <- init_data img1 (po_min1 o) (po_weights1 o) (po_norm o) ;;
  d2 <- init_data img2 (po_min2 o) (po_weights2 o) (po_norm o) ;;
  if Nat.eqb (length d1) 0 || Nat.eqb (length d2) 0 then Err ValueError
  else if negb (forallb is_fin d1 && forallb is_fin d2) then Err OtherError
  else
    b <- common_histogram_bins 1 1 d1 d2 (po_nbins o) false (po_bin_min o) (po_bin_max o) ;;
    match b with
    | None => Err OtherError
    | Some (edges, cents) =>
        p1 <- pdf_run d1 edges (po_do_fit o) ;;
        p2 <- pdf_run d2 edges (po_do_fit o) ;;
        Ok (mk_dist (po_do_fit o) edges cents p1 p2)
    end.

(** The attributes hellinger_distance, ks_distance and lognormal_distance *)
Record pdf_values_out := mk_out { out_hellinger : option fl; out_ks : option R; out_lognormal : option fl }.
Definition nothing : pdf_values_out := mk_out None None None.

(** compare_pdf.py:613-622 *)
Definition compute_hellinger (d : pdf_distance) (r : pdf_values_out) : result pdf_values_out :=
  Ok (mk_out (Some (hellinger_distance (ob_pdf (pd_1 d)) (ob_pdf (pd_2 d)))) (out_ks r) (out_lognormal r)).
(** compare_pdf.py:624-632 *)
Definition compute_ks (d : pdf_distance) (r : pdf_values_out) : result pdf_values_out :=
  k <- ks_distance (fins (ob_data (pd_1 d))) (fins (ob_data (pd_2 d))) ;;
  Ok (mk_out (out_hellinger r) (Some k) (out_lognormal r)).
(** compare_pdf.py:648-665: model_params raises Exception when there was no fit *)
Definition compute_lognormal (d : pdf_distance) (r : pdf_values_out) : result pdf_values_out :=
  match ob_fit (pd_1 d), ob_fit (pd_2 d) with
  | Some (p1, e1), Some (p2, e2) =>
      Ok (mk_out (out_hellinger r) (out_ks r) (Some (fdiv (fabs (fsub p1 p2)) (fsqrt (fadd (fsqr e1) (fsqr e2))))))
  | _, _ => Err OtherError
  end.
(** compare_pdf.py:696-716 [distance_metric] *)
Definition metric (d : pdf_distance) (statistic : py_str) (r : pdf_values_out) : result pdf_values_out :=
  if is_literal statistic "all" then
    r <- compute_hellinger d r ;; r <- compute_ks d r ;;
    if pd_do_fit d then compute_lognormal d r else Ok r
  else if is_literal statistic "hellinger" then compute_hellinger d r
  else if is_literal statistic "ks" then compute_ks d r
  else if is_literal statistic "lognormal" then
    if negb (pd_do_fit d) then Err OtherError else compute_lognormal d r
  else Err TypeError.

(** PDF_Distance(img1, img2, ...).distance_metric(statistic) *)
Definition distances (img1 img2 : list fl) (o : pdf_options) (statistic : py_str) : result pdf_values_out :=
  d <- init img1 img2 o ;; metric d statistic nothing.
End Distance.
