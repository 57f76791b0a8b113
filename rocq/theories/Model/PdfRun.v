(** Model of the PDF objects of turbustat/statistics/pdf/compare_pdf.py through calls of make_pdf,
    make_ecdf, find_percentile, fit_pdf and run that may raise, and of the curves that plot_distrib
    draws. *)
From Coq Require Import String Reals List Bool ZArith Arith.
From Verif Require Import Lib.PyBase Lib.RSum Lib.Fl Lib.Arr Lib.Hist Model.StatsUtils Model.EllipPlaw Model.Pdf.
Import ListNotations.
Local Open Scope R_scope.

(** Standard errors, or the 15th and 85th percentiles of a chain *)
Inductive errors := Bse (l : list fl) | Range (low high : list R).
(** The keywords floc, loc, fscale and scale *)
Record fixes := mk_fixes { x_floc : bool; x_loc : R; x_fscale : bool; x_scale : R }.
(** A distribution of scipy.stats: [logpdf shapes loc scale] at the data, and what its fit returns
    for the data with fixed loc or scale: the shapes, loc and scale *)
Record family := mk_family { m_logpdf : list R -> R -> R -> list fl; m_fit : option R -> option R -> result (list R) }.
(** Attributes _bins, _pdf, _ecdf (with _ecdf_function), _do_fit and _fit_fixes, _scipy_model,
    _model_params, _model_stderrs and _mcmc_chain; None before they are set *)
Record pobj := mk_p { o_bins : option bins_arg; o_pdf : option (list fl); o_ecdf : option (list fl);
  o_fixes : option fixes; o_model : option family; o_params : option (list R); o_errs : option errors; o_chain : option (list (list R)) }.
Definition outcome := (pobj * option exn)%type.
Inductive fit_type := Mle | Mcmc | Other.

Section Object.
(** the data of the object *)
Variable data : list fl.
(** statsmodels: the minimum by method='nm' from a start, and its standard errors; emcee: the
    chain of every parameter from a start *)
Variable nm : (list R -> result fl) -> list R -> result (list R).
Variable bse : (list R -> result fl) -> list R -> result (list R).
Variable emcee : (list R -> result fl) -> list R -> result (list (list R)).

(** compare_pdf.py:44-82, the attributes of a new object *)
Definition new (bins : option bins_arg) : pobj := mk_p bins None None None None None None None.

(** compare_pdf.py:84-109 [make_pdf]: _bins is set before the histogram is made *)
Definition do_make_pdf (o : pobj) (bins : option bins_arg) : outcome :=
  let b := match bins with Some b => Some b | None => o_bins o end in
  let b := match b with Some b => b | None => NumBins (Z.to_nat (np_round (sqrt (INR (length data))))) end in
  match histogram_fl data b with
  | Err e => (mk_p (Some b) (o_pdf o) (o_ecdf o) (o_fixes o) (o_model o) (o_params o) (o_errs o) (o_chain o), Some e)
  | Ok h => (mk_p (Some (Edges (mid (snd h)))) (Some (fst h)) (o_ecdf o) (o_fixes o) (o_model o) (o_params o) (o_errs o) (o_chain o), None)
  end.
(** compare_pdf.py:128-139 [make_ecdf], of finite data; statsmodels divides by their number.  A
    number in place of the bins gives one value *)
Definition do_make_ecdf (o : pobj) : outcome :=
  let '(o, e) := match o_pdf o with None => do_make_pdf o None | Some _ => (o, None) end in
  match e with
  | Some e => (o, Some e)
  | None =>
      match data with
      | [] => (o, Some ZeroDivisionError)
      | _ =>
          let at_ := match o_bins o with Some (Edges l) => l | Some (NumBins n) => [INR n] | None => [] end in
          (mk_p (o_bins o) (o_pdf o) (Some (map (ecdf (fins data)) at_)) (o_fixes o) (o_model o) (o_params o) (o_errs o) (o_chain o), None)
      end
  end.
(** compare_pdf.py:147-161 [find_percentile] *)
Definition do_percentile (o : pobj) (v : R) : pobj * result fl :=
  let '(o, e) := match o_ecdf o with None => do_make_ecdf o | Some _ => (o, None) end in
  match e with Some e => (o, Err e) | None => (o, Ok (Pdf.find_percentile (fins data) v)) end.

Definition mean (l : list R) : R := lsum l / INR (length l).
(** compare_pdf.py:178-335 [fit_pdf].  statsmodels evaluates the likelihood at the start first; a
    ValueError of the standard errors is caught, other exceptions are not *)
Definition do_fit_pdf (o : pobj) (model : family) (t : fit_type) (x : fixes) : outcome :=
  match t with
  | Other => (o, Some ValueError)
  | _ =>
      let with_fixes m p r c := mk_p (o_bins o) (o_pdf o) (o_ecdf o) (Some x) m p r c in
      let fitted := if x_floc x && x_fscale x then m_fit model None None
                    else if x_floc x then m_fit model (Some (x_loc x)) None
                    else if x_fscale x then m_fit model None (Some (x_scale x))
                    else m_fit model None None in
      match fitted with
      | Err e => (with_fixes (o_model o) (o_params o) (o_errs o) (o_chain o), Some e)
      | Ok l =>
          let start := init_params l (x_floc x) (x_fscale x) in
          let like := loglike (m_logpdf model) (x_floc x) (x_loc x) (x_fscale x) (x_scale x) in
          let failed e := (with_fixes (Some model) (o_params o) (o_errs o) (o_chain o), Some e) in
          match t with
          | Mle =>
              match like start with
              | Err e => failed e
              | Ok _ =>
                  match nm like start with
                  | Err e => failed e
                  | Ok p =>
                      match bse like p with
                      | Ok s => (with_fixes (Some model) (Some p) (Some (Bse (map Fin s))) (o_chain o), None)
                      | Err ValueError => (with_fixes (Some model) (Some p) (Some (Bse (map (fun _ => NaN) p))) (o_chain o), None)
                      | Err e => (with_fixes (Some model) (Some p) (o_errs o) (o_chain o), Some e)
                      end
                  end
              end
          | _ =>
              match emcee like start with
              | Err e => failed e
              | Ok c => (with_fixes (Some model) (Some (map mean c)) (Some (Range (map (fun s => percentile (sort_r s) 15) c) (map (fun s => percentile (sort_r s) 85) c))) (Some c), None)
              end
          end
      end
  end.
(** compare_pdf.py:508-540 [run] with verbose=False *)
Definition do_run (o : pobj) (bins : option bins_arg) (fit : option (family * fit_type * fixes)) : outcome :=
  match do_make_pdf o bins with
  | (o, Some e) => (o, Some e)
  | (o, None) =>
      match do_make_ecdf o with
      | (o, Some e) => (o, Some e)
      | (o, None) => match fit with None => (o, None) | Some (m, t, x) => do_fit_pdf o m t x end
      end
  end.

(** compare_pdf.py:443-466: the shapes, loc and scale of the curve drawn over the PDF *)
Definition shown (o : pobj) : result (option (family * list R * R * R)) :=
  match o_fixes o with
  | None => Ok None
  | Some x =>
      match o_params o with
      | None => Err OtherError
      | Some p =>
          let n := length p in
          let '(shapes, loc, scale) :=
            if x_floc x && x_fscale x then (p, x_loc x, x_scale x)
            else if x_floc x then (firstn (n - 1) p, x_loc x, nth (n - 1) p 0)
            else if x_fscale x then (firstn (n - 1) p, nth (n - 1) p 0, x_scale x)
            else (firstn (n - 2) p, nth (n - 2) p 0, nth (n - 1) p 0) in
          match o_model o with None => Err AttributeError | Some m => Ok (Some (m, shapes, loc, scale)) end
      end
  end.
(** compare_pdf.py:478-498: ... and over the ECDF: loc is 0 when the data were not normalised *)
Definition shown_ecdf (normalized : bool) (o : pobj) : result (option (family * list R * R * R)) :=
  r <- shown o ;;
  Ok (match r with Some (m, shapes, loc, scale) => Some (m, shapes, if normalized then loc else 0, scale) | None => None end).
(** compare_pdf.py:356-401: the chain that corner_plot and trace_plot draw *)
Definition drawn_chain (o : pobj) : result (list (list R)) := match o_chain o with None => Err OtherError | Some c => Ok c end.

Inductive call := MakePdf (bins : option bins_arg) | MakeEcdf | Percentile (v : R) | FitPdf (m : family) (t : fit_type) (x : fixes) | Run (bins : option bins_arg) (fit : option (family * fit_type * fixes)).
Definition do_call (o : pobj) (c : call) : pobj :=
  match c with
  | MakePdf b => fst (do_make_pdf o b)
  | MakeEcdf => fst (do_make_ecdf o)
  | Percentile v => fst (do_percentile o v)
  | FitPdf m t x => fst (do_fit_pdf o m t x)
  | Run b f => fst (do_run o b f)
  end.
Definition history (o : pobj) (l : list call) : pobj := fold_left do_call l o.
End Object.
