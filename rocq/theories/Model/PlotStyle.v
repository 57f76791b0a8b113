(** Model of the styles of the comparison plots: what the keywords plot_kwargs1 and
    plot_kwargs2 of the distance_metric methods do, to the plot and to the dictionaries.

    Dictionaries live in a heap (Kwargs.v).  The default value of a parameter is one dictionary
    made when the method is defined, so it lives in the heap as well.  Modelled is the branch
    `if verbose:` up to the plotted colours, symbols and labels.  The distance itself does not
    depend on these keywords and is modelled elsewhere; the printed summaries, the axes, and
    plt.savefig/plt.show are not modelled. *)
From Coq Require Import Reals String List Arith Bool.
From Verif Require Import Lib.PyBase Model.Kwargs.
Import ListNotations.
Local Open Scope string_scope.
Local Open Scope list_scope.

(** The methods: distance_metric of the distances for power spectra (pspec.py:328-399), VCA
    (vca.py:314-386), MVC (mvc.py:427-500), VCS (vcs.py:460-540), delta variance
    (delta_variance.py:842-956), wavelets (wavelet_transform.py:681-746), PCA
    (pca.py:1124-1219), histogram_stat, numfeature_stat and distance_metric of dendrograms
    (dendro_stats.py:698-838, 619-689, 841-880), SCF (scf.py:958-1080), moments
    (highstatmoments.py:658-753) and PDFs (compare_pdf.py:666-850). *)
Inductive metric := MPSpec | MVCA | MMVC | MVCS | MDelVar | MWavelet | MPCA | MDendHist | MDendNum | MDendro | MSCF | MMoments | MPDF.

(** The plots a method makes, in order: dendro_stats.py:872-877 calls the other two *)
Definition plots (m : metric) : list metric :=
  match m with MDendro => [MDendHist; MDendNum] | _ => [m] end.

(** defaults1 and defaults2: pspec.py:369-370, vca.py:356-357, mvc.py:469-470, vcs.py:515-516,
    delta_variance.py:926-927, wavelet_transform.py:718-719, pca.py:1163-1164,
    dendro_stats.py:774-775, 647-648, scf.py:1007-1008, highstatmoments.py:696-697,
    compare_pdf.py:722-723 *)
Definition defaults (m : metric) (second : bool) : dict :=
  let color := if second then "g" else "b" in
  let mark := if second then "o" else "D" in
  let label := if second then "2" else "1" in
  match m with
  | MSCF | MPDF => [("color", VStr color); ("marker", VStr mark); ("label", VStr label)]
  | MMoments => [("color", VStr color); ("label", VStr label)]
  | _ => [("color", VStr color); ("symbol", VStr mark); ("label", VStr label)]
  end.

(** The dictionary that is the default of the parameter when the module is imported: {} but
    for scf.py:959-962, highstatmoments.py:659-660 and compare_pdf.py:668-671 *)
Definition at_import (m : metric) (second : bool) : dict :=
  match m with MSCF | MMoments | MPDF => defaults m second | _ => [] end.
Definition metrics : list metric :=
  [MPSpec; MVCA; MMVC; MVCS; MDelVar; MWavelet; MPCA; MDendHist; MDendNum; MDendro; MSCF; MMoments; MPDF].
Definition import_heap : list dict := flat_map (fun m => [at_import m false; at_import m true]) metrics.
Definition slot (m : metric) : nat :=
  match m with
  | MPSpec => 0 | MVCA => 1 | MMVC => 2 | MVCS => 3 | MDelVar => 4 | MWavelet => 5 | MPCA => 6 | MDendHist => 7 | MDendNum => 8
  | MDendro => 9 | MSCF => 10 | MMoments => 11 | MPDF => 12
  end.
(** The place of the dictionary a parameter refers to *)
Definition place (m : metric) (second : bool) (given : option nat) : nat :=
  match given with Some r => r | None => 2 * slot m + (if second then 1 else 0) end.

(** `for key in defaults1: if key not in plot_kwargs1: plot_kwargs1[key] = defaults1[key]` *)
Definition filled (def d : dict) : dict := d ++ filter (fun kv => negb (has d (fst kv))) def.
(** `if 'xunit' in plot_kwargs1: del plot_kwargs1['xunit']`: not in scf.py, highstatmoments.py
    and compare_pdf.py *)
Definition drops_xunit (m : metric) : bool := match m with MSCF | MMoments | MPDF => false | _ => true end.
Definition stripped (m : metric) (d : dict) : dict := if drops_xunit m then without "xunit" d else d.

(** Signatures of the methods the keywords are handed to: base_pspec2.py:530-533,
    vcs.py:251-252, delta_variance.py:494-496, wavelet_transform.py:434-436; the default units
    are objects *)
Definition d_str (s : string) : option pv := Some (VStr s).
Definition plot_fit_sig (m : metric) : option (signature * bool) :=
  match m with
  | MPSpec | MVCA | MMVC => Some (method
      [("show_2D", d_bool false); ("show_residual", d_bool true); ("color", d_str "r"); ("fit_color", d_str "k"); ("label", d_none);
       ("fillin_errs", d_bool true); ("symbol", d_str "o"); ("xunit", Some (VObj 3)); ("save_name", d_none);
       ("use_wavenumber", d_bool false)] false, true)
  | MVCS => Some (method
      [("save_name", d_none); ("xunit", Some (VObj 3)); ("color", d_str "r"); ("symbol", d_str "o"); ("fit_color", d_str "k");
       ("label", d_none); ("show_residual", d_bool true)] false, false)
  | MDelVar => Some (method
      [("save_name", d_none); ("xunit", Some (VObj 4)); ("symbol", d_str "o"); ("color", d_str "r"); ("fit_color", d_str "k");
       ("label", d_none); ("show_residual", d_bool true)] false, false)
  | MWavelet => Some (method
      [("save_name", d_none); ("xunit", Some (VObj 4)); ("color", d_str "r"); ("symbol", d_str "o"); ("fit_color", d_str "k");
       ("label", d_none); ("show_residual", d_bool true)] false, false)
  | _ => None
  end.

(** What is drawn for a data set: in which plot, for which data set, its colour, symbol and
    label (None when the plot has none) *)
Record drawn := mk_drawn { of_plot : metric; of_second : bool; colour : pv; symbol : option pv; label : pv }.
(** d[k] *)
Definition item (d : dict) (k : string) : result pv := match get d k with Some v => Ok v | None => Err KeyError end.

(** pspec.py:385-390, vca.py:372-377, mvc.py:485-490, vcs.py:531-532,
    delta_variance.py:942-943, wavelet_transform.py:734-737: plot_fit(xunit=xunit,
    [use_wavenumber=use_wavenumber,] **plot_kwargs1), which draws the data with its arguments
    color, symbol and label;
    pca.py:1180-1209 (bars), dendro_stats.py:790-826, 665-677, scf.py:1024-1059,
    highstatmoments.py:706-746, compare_pdf.py:752-820: the items of the dictionary *)
Definition draw (m : metric) (second : bool) (xunit wave : pv) (d : dict) : result drawn :=
  match plot_fit_sig m with
  | Some (s, wavenumber) =>
      am <- bind_args s ([self; ("xunit", xunit)] ++ (if wavenumber then [("use_wavenumber", wave)] else [])) d ;;
      Ok (mk_drawn m second (arg (fst am) "color") (Some (arg (fst am) "symbol")) (arg (fst am) "label"))
  | None =>
      c <- item d "color" ;;
      l <- item d "label" ;;
      match m with
      | MPCA | MMoments => Ok (mk_drawn m second c None l)
      | MSCF | MPDF => s <- item d "marker" ;; Ok (mk_drawn m second c (Some s) l)
      | _ => s <- item d "symbol" ;; Ok (mk_drawn m second c (Some s) l)
      end
  end.

(** One plot with the dictionaries at the places [r1] and [r2] *)
Definition plot (m : metric) (xunit wave : pv) (r1 r2 : nat) (h : list dict) : list dict * (list drawn * option exn) :=
  let h1 := put h r1 (filled (defaults m false) (look h r1)) in
  let h2 := put h1 r2 (filled (defaults m true) (look h1 r2)) in
  let h3 := put h2 r1 (stripped m (look h2 r1)) in
  let h4 := put h3 r2 (stripped m (look h3 r2)) in
  (h4, match draw m false xunit wave (look h4 r1) with
       | Err e => ([], Some e)
       | Ok a => match draw m true xunit wave (look h4 r2) with
                 | Err e => ([a], Some e)
                 | Ok b => ([a; b], None)
                 end
       end).
Fixpoint plot_all (ms : list metric) (xunit wave : pv) (r1 r2 : nat) (h : list dict) : list dict * (list drawn * option exn) :=
  match ms with
  | [] => (h, ([], None))
  | m :: ms' =>
      match plot m xunit wave r1 r2 h with
      | (h', (l, Some e)) => (h', (l, Some e))
      | (h', (l, None)) => match plot_all ms' xunit wave r1 r2 h' with (h'', (l', e)) => (h'', (l ++ l', e)) end
      end
  end.

(** obj.distance_metric(verbose=..., xunit=..., use_wavenumber=..., plot_kwargs1=...,
    plot_kwargs2=...); None: the keyword is left out.  [xunit] and [use_wavenumber] are used
    by the methods that have them. *)
Record call := mk_call { c_metric : metric; c_verbose : bool; c_xunit : pv; c_wave : pv; c_1 : option nat; c_2 : option nat }.
Definition distance_metric (c : call) (h : list dict) : list dict * (list drawn * option exn) :=
  if c_verbose c
  then plot_all (plots (c_metric c)) (c_xunit c) (c_wave c) (place (c_metric c) false (c_1 c)) (place (c_metric c) true (c_2 c)) h
  else (h, ([], None)).

(** What a program does: compare two data sets, or set one of its own dictionaries to
    something else *)
Inductive act := Compare (c : call) | Assign (r : nat) (d : dict).
Definition act_on (h : list dict) (a : act) : list dict :=
  match a with
  | Compare c => fst (distance_metric c h)
  | Assign r d => put h r d
  end.
(** The dictionaries after a program with the dictionaries [own] has done [acts] *)
Definition start (own : list dict) : list dict := import_heap ++ own.
Definition after (own : list dict) (acts : list act) : list dict := fold_left act_on acts (start own).
