(** The figures of matplotlib.pyplot, and what the plots of TurbuStat do with them.

    A figure is its number of axes and the plots drawn into it (marks).  The open figures are a
    stack with the current one first, as pyplot keeps them.  Outside the model: what is drawn on
    the axes, sizes and colours; exceptions of the drawing itself. *)
From Coq Require Import List Arith Bool Ascii String.
From Verif Require Import Lib.PyBase.
Import ListNotations.

Definition name := list ascii.
Definition dot : ascii := "."%char.
Definition slash : ascii := "/"%char.
Definition text (s : string) : name := list_ascii_of_string s.

(** str.rfind and the slices at it: the text before and after the last c *)
Fixpoint rsplit (c : ascii) (p : name) : option (name * name) :=
  match p with
  | [] => None
  | x :: r => match rsplit c r with
              | Some (a, b) => Some (x :: a, b)
              | None => if Ascii.eqb x c then Some ([], r) else None
              end
  end.
(** posixpath.splitext (genericpath._splitext): the last dot of the last component, unless there
    are but dots before it *)
Definition splitext (p : name) : name * name :=
  let dir := match rsplit slash p with Some (a, b) => (a ++ [slash], b) | None => ([], p) end in
  match rsplit dot (snd dir) with
  | Some (stem, e) => if existsb (fun x => negb (Ascii.eqb x dot)) stem then (fst dir ++ stem, dot :: e) else (p, [])
  | None => (p, [])
  end.
(** dendro_stats.py:861-870 *)
Definition hist_name (p : name) : name := fst (splitext p) ++ text ".hist_distance" ++ snd (splitext p).
Definition num_name (p : name) : name := fst (splitext p) ++ text ".num_distance" ++ snd (splitext p).
(** str.rstrip('.') *)
Fixpoint rstrip_dots (p : name) : name :=
  match p with
  | [] => []
  | x :: r => match rstrip_dots r with [] => if Ascii.eqb x dot then [] else [x] | q => x :: q end
  end.

Definition mark := nat.
Record fig := mk_fig { f_axes : nat; f_marks : list mark }.
Record plt := mk_plt { opened : list fig; files : list (name * fig) }.
Definition outcome := (plt * option exn)%type.

Section Outside.
(** Whether plt.show() leaves no figure open: a blocking window returns once all are closed, and
    the inline backend of notebooks closes them; Agg and interactive mode keep them.  The formats
    savefig knows.  The number of axes after k subplots were asked for in a figure that has n > 0. *)
Variable closing : bool.
Variable known : name -> bool.
Variable more_axes : nat -> nat -> nat.

Definition subplots (n k : nat) : nat := match n with O => k | _ => more_axes n k end.

(** pyplot.gcf, figure, close(), show and savefig *)
Definition gcf (s : plt) : plt := match opened s with [] => mk_plt [mk_fig 0 []] (files s) | _ => s end.
Definition new_figure (s : plt) : plt := mk_plt (mk_fig 0 [] :: opened s) (files s).
Definition close (s : plt) : plt := mk_plt (tl (opened s)) (files s).
Definition show (s : plt) : plt := if closing then mk_plt [] (files s) else s.
Definition current (s : plt) : fig := hd (mk_fig 0 []) (opened s).
Definition savefig (p : name) (s : plt) : outcome :=
  let s := gcf s in
  match tl (snd (splitext p)) with
  | [] => (mk_plt (opened s) (files s ++ [(rstrip_dots p ++ text ".png", current s)]), None)
  | e => if known e then (mk_plt (opened s) (files s ++ [(p, current s)]), None) else (s, Some ValueError)
  end.
(** The end of every plot: if save_name is not None: savefig, close; else: show *)
Definition finish (save : option name) (s : plt) : outcome :=
  match save with
  | Some p => match savefig p s with (s', None) => (close s', None) | r => r end
  | None => (show s, None)
  end.
(** A drawing into the current figure, which may raise *)
Definition draw (f : fig -> fig * option exn) (s : plt) : outcome :=
  let s := gcf s in let r := f (current s) in (mk_plt (fst r :: tl (opened s)) (files s), snd r).
Definition andthen (r : outcome) (k : plt -> outcome) : outcome := match r with (s, None) => k s | _ => r end.

(** plt.subplot and the like: k axes *)
Definition into_subplots (k : nat) (m : mark) (f : fig) : fig * option exn := (mk_fig (subplots (f_axes f) k) (f_marks f ++ [m]), None).
(** Which of the local variables for axes are set, and the axes of the figure then *)
Record bound := mk_b { b_image : bool; b_line : bool; b_res : bool; b_axes : nat }.
Definition one (b : bool) : nat := if b then 1 else 0.
(** What the three plots below do with them: the image (with a colour bar beside it), the line, the
    residuals *)
Definition use (image line res : bool) (b : bound) (m : mark) (f : fig) : fig * option exn :=
  if image && negb (b_image b) then (mk_fig (b_axes b) (f_marks f), Some UnboundLocalError)
  else let n := b_axes b + one image in
       if line && negb (b_line b) then (mk_fig n (if image then f_marks f ++ [m] else f_marks f), Some UnboundLocalError)
       else if line && res && negb (b_res b) then (mk_fig n (f_marks f ++ [m]), Some UnboundLocalError)
       else (mk_fig n (f_marks f ++ [m]), None).
(** base_pspec2.py:580-758 [plot_fit] *)
Definition pspec_fit (two_d res : bool) (m : mark) (f : fig) : fig * option exn :=
  use two_d true res
    match f_axes f with
    | 3 => mk_b true true true 3
    | 2 => if two_d then mk_b true true false 2 else if res then mk_b false true true 2 else mk_b false false false 2
    | 1 => mk_b false true false 1
    | n => mk_b two_d true res (subplots n (1 + one two_d + one res))
    end m f.
(** scf.py:610-739 [plot_fit] *)
Definition scf_fit (radial res surface : bool) (m : mark) (f : fig) : fig * option exn :=
  use surface radial res
    match f_axes f with
    | 3 => mk_b true true true 3
    | 2 => if surface && negb res then mk_b true true false 2 else mk_b false true true 2
    | 1 => if radial then mk_b true false false 1 else mk_b false true false 1
    | n => if surface then mk_b true radial (radial && res) (subplots n (1 + one radial + one (radial && res)))
           else mk_b false true res (subplots n (1 + one res))
    end m f.
(** vcs.py:279-338 [plot_fit] *)
Definition vcs_fit (res : bool) (m : mark) (f : fig) : fig * option exn :=
  use false true res
    match f_axes f with
    | 2 => mk_b false true true 2
    | 1 => mk_b false true false 1
    | n => mk_b false true res (subplots n (1 + one res))
    end m f.
(** wavelet_transform.py:463-537 [plot_transform], delta_variance.py:524-597 [plot_fit] *)
Definition curve_fit (res : bool) (m : mark) (f : fig) : fig * option exn :=
  use false true res
    match f_axes f with
    | 0 => mk_b false true res (1 + one res)
    | 1 => mk_b false true false 1
    | n => mk_b false true true n
    end m f.

(** [run(verbose=True, save_name)] of the statistics; k: the number of axes, for those that differ *)
Inductive statistic := PowerSpectrum | VCA | MVC | VCS | Wavelet | DeltaVariance | SCF | PCA | Bispectrum | Genus | PDF | StatMoments | Dendrogram_Stats | Tsallis.
Definition run (st : statistic) (k : nat) (m : mark) (save : option name) (s : plt) : outcome :=
  match st with
  | PowerSpectrum | VCA | MVC =>    (* pspec.py:209-214, vca.py:214-219, mvc.py:300-305: a second close *)
      andthen (draw (pspec_fit true true m) s) (fun s =>
      andthen (finish save s) (fun s => (match save with Some _ => close s | None => s end, None)))
  | VCS => andthen (draw (vcs_fit true m) s) (finish save)
  | Wavelet | DeltaVariance => andthen (draw (curve_fit true m) s) (finish save)
  | SCF => andthen (draw (scf_fit true true true m) s) (finish save)
  | PCA | Bispectrum | Genus | PDF | StatMoments | Dendrogram_Stats => andthen (draw (into_subplots k m) s) (finish save)
  | Tsallis => andthen (draw (into_subplots k m) (new_figure s)) (finish save)   (* tsallis.py:293 plt.subplots *)
  end.

(** [distance_metric(verbose=True, save_name)]: the plots of the two data sets *)
Inductive comparison := PSpec_Distance | VCA_Distance | MVC_Distance | VCS_Distance | Wavelet_Distance | DeltaVariance_Distance | SCF_Distance |
  PCA_Distance | Bispectrum_Distance | Genus_Distance | PDF_Distance | StatMoments_Distance | Dendrogram_Distance | Cramer_Distance.
(** The two plots one over the other; each of them ends with plt.show() *)
Definition both (f : mark -> fig -> fig * option exn) (m1 m2 : mark) (s : plt) : outcome :=
  andthen (draw (f m1) s) (fun s => andthen (draw (f m2) (show s)) (fun s => (show s, None))).
(** axes = plt.gcf().get_axes(); axes[0].legend() *)
Definition legend (s : plt) : outcome := let s := gcf s in match f_axes (current s) with O => (s, Some IndexError) | _ => (s, None) end.
(** Two marks at once *)
Definition pair (k : nat) (m1 m2 : mark) (f : fig) : fig * option exn := (mk_fig (subplots (f_axes f) k) (f_marks f ++ [m1; m2]), None).
Definition compare (c : comparison) (k : nat) (m1 m2 : mark) (save : option name) (s : plt) : outcome :=
  match c with
  | PSpec_Distance | VCA_Distance | MVC_Distance =>   (* pspec.py:385-398, vca.py:372-385, mvc.py:485-498 *)
      andthen (both (pspec_fit false true) m1 m2 s) (fun s => andthen (legend s) (finish save))
  | Wavelet_Distance | DeltaVariance_Distance =>       (* wavelet_transform.py:734-745, delta_variance.py:942-951 *)
      andthen (both (curve_fit true) m1 m2 s) (fun s => andthen (legend s) (finish save))
  | VCS_Distance => andthen (both (vcs_fit true) m1 m2 s) (finish save)   (* vcs.py:531-538 *)
  | SCF_Distance => andthen (draw (pair k m1 m2) (new_figure s)) (finish save)   (* scf.py:1017-1080 *)
  | PCA_Distance | Bispectrum_Distance | Genus_Distance | PDF_Distance | StatMoments_Distance | Cramer_Distance =>
      andthen (draw (pair k m1 m2) s) (finish save)
  | Dendrogram_Distance =>                             (* dendro_stats.py:841-879, 663-690, 790-837 *)
      andthen (andthen (draw (pair 4 m1 m2) (new_figure s)) (finish (option_map hist_name save)))
              (fun s => andthen (draw (pair 1 m1 m2) (new_figure s)) (finish (option_map num_name save)))
  end.

(** Programs of plots *)
Inductive call := Run (st : statistic) (k : nat) (m : mark) (save : option name) | Compare (c : comparison) (k : nat) (m1 m2 : mark) (save : option name).
Definition exec (c : call) (s : plt) : outcome :=
  match c with Run st k m save => run st k m save s | Compare d k m1 m2 save => compare d k m1 m2 save s end.
Fixpoint exec_all (l : list call) (s : plt) : outcome := match l with [] => (s, None) | c :: r => andthen (exec c s) (exec_all r) end.
End Outside.
