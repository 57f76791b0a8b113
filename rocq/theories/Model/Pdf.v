(** Model of turbustat/statistics/pdf/compare_pdf.py. *)
From Coq Require Import String Reals List Bool ZArith Arith.
From Verif Require Import Lib.PyBase Lib.RSum Lib.Fl Lib.Arr Lib.Hist Model.StatsUtils Model.EllipPlaw.
Import ListNotations.
Local Open Scope R_scope.

(** compare_pdf.py:44-82 [PDF.__init__]: the data that are kept (flattened) *)
Definition init_data (img : list fl) (min_val : fl) (weights : option (list fl)) (normalization_type : option string) : result (list fl) :=
  let keep_values x := is_fin x && fltb min_val x in
  let data := match weights with
              | None => filter keep_values img
              | Some w =>
                  let kept := filter (fun p => keep_values (fst p)) (combine img w) in
                  map (fun p => fmul (fst p) (snd p)) (filter (fun p => is_fin (snd p)) kept)
              end in
  match normalization_type with None => Ok data | Some t => data_normalization data t end.

(** The attributes _bins and _pdf *)
Record pdf_state := mk_pdf { p_data : list fl; p_bins : option bins_arg; p_pdf : option (list fl) }.

(** np.round: half to even *)
Definition np_round (x : R) : Z :=
  let k := Int_part x in
  if Rltb (x - IZR k) (1 / 2) then k
  else if Rltb (1 / 2) (x - IZR k) then (k + 1)%Z
  else if Z.even k then k else (k + 1)%Z.

(** compare_pdf.py:84-109 [make_pdf]: afterwards _bins holds the bin centres *)
Definition make_pdf (st : pdf_state) (bins : option bins_arg) : result pdf_state :=
  let b := match bins with Some b => Some b | None => p_bins st end in
  let b := match b with Some b => b | None => NumBins (Z.to_nat (np_round (sqrt (INR (length (p_data st)))))) end in
  h <- histogram_fl (p_data st) b ;;
  Ok (mk_pdf (p_data st) (Some (Edges (mid (snd h)))) (Some (fst h))).

(** The values of [bins] and [pdf] seen by the user *)
Definition pdf_bins (st : pdf_state) : list R := match p_bins st with Some (Edges l) => l | _ => [] end.
Definition pdf_values (st : pdf_state) : list fl := match p_pdf st with Some l => l | None => [] end.

(** compare_pdf.py:128-139 [make_ecdf] (finite data): the ECDF at the bins *)
Definition make_ecdf (st : pdf_state) : result (pdf_state * list fl) :=
  st <- match p_pdf st with None => make_pdf st None | Some _ => Ok st end ;;
  Ok (st, map (ecdf (fins (p_data st))) (pdf_bins st)).

(** compare_pdf.py:147-161 [find_percentile] *)
Definition find_percentile (data : list R) (v : R) : fl := fmul (ecdf data v) (Fin 100).
(** compare_pdf.py:163-177 [find_at_percentile] (np.percentile of non-empty data) *)
Definition find_at_percentile (data : list R) (percentiles : list R) : result (list R) :=
  if existsb (fun p => Rltb 100 p || Rltb p 0) percentiles then Err ValueError
  else Ok (map (percentile (sort_r data)) percentiles).

(** compare_pdf.py:227-256 [Likelihood.loglike]; [logpdf shapes loc scale] are the
    logarithms of the model's density at the data.  With both parameters fixed no branch
    binds [loc], [scale] and [cut]. *)
Definition loglike (logpdf : list R -> R -> R -> list fl) (floc : bool) (loc0 : R) (fscale : bool) (scale0 : R) (params : list R) : result fl :=
  let n := length params in
  let at_end k := nth (n - k) params 0 in
  b <- (if negb floc && negb fscale then Ok (at_end 2%nat, at_end 1%nat, 2%nat)
        else if negb floc then Ok (at_end 1%nat, scale0, 1%nat)
        else if negb fscale then Ok (loc0, at_end 1%nat, 1%nat)
        else Err UnboundLocalError) ;;
  let '(loc, scale, cut) := b in
  let loglikes := logpdf (firstn (n - cut) params) loc scale in
  if forallb is_fin loglikes then Ok (fsum loglikes) else Ok NInf.
(** compare_pdf.py:277-292: the starting point; [fit] is what scipy's model.fit returns:
    the shapes, loc and scale *)
Definition init_params (fit : list R) (floc fscale : bool) : list R :=
  let n := length fit in
  if floc && fscale then fit
  else if floc then firstn (n - 2) fit ++ [nth (n - 1) fit 0]
  else if fscale then firstn (n - 2) fit ++ [nth (n - 2) fit 0]
  else fit.

(** compare_pdf.py:613-622 [compute_hellinger_distance] *)
Definition hellinger_distance (pdf1 pdf2 : list fl) : fl :=
  hellinger (map (fun v => fdiv v (fsum pdf1)) pdf1) (map (fun v => fdiv v (fsum pdf2)) pdf2) 1.

(** compare_pdf.py:624-632: scipy.stats.ks_2samp, the statistic *)
Definition ks_distance (data1 data2 : list R) : result R :=
  match data1, data2 with
  | [], _ | _, [] => Err ValueError
  | _, _ => Ok (lmax 0 (map (fun x => Rabs (INR (count_le data1 x) / INR (length data1) - INR (count_le data2 x) / INR (length data2))) (data1 ++ data2)))
  end.

(** compare_pdf.py:582-594 [PDF_Distance.__init__]: lognormal fits exclude two normalizations *)
Definition distance_init (do_fit : bool) (normalization_type : option string) : result unit :=
  if do_fit then
    match normalization_type with
    | Some t => if (String.eqb t "standardize" || String.eqb t "center")%bool then Err OtherError else Ok tt
    | None => Ok tt
    end
  else Ok tt.
