(** Figures and files. *)
From Coq Require Import List Arith Bool Ascii String.
From Verif Require Import Lib.PyBase Model.Figures.
Import ListNotations.

(** [p] ends in a dot and [e], which has no other dot; what is before the dot in the last part of
    the path is not but dots (else it is a hidden file) *)
Definition extension (p e : name) : Prop :=
  exists dir stem, p = dir ++ stem ++ dot :: e /\ (dir = [] \/ exists d, dir = d ++ [slash]) /\
    ~ In slash stem /\ ~ In slash e /\ ~ In dot e /\ exists x, In x stem /\ x <> dot.
(** The file name asks for a format that can be written *)
Definition formatted (known : name -> bool) (p : name) : Prop := exists e, extension p e /\ e <> [] /\ known e = true.

(** Comparisons that draw the plots of two objects one over the other *)
Definition overlays (c : comparison) : bool :=
  match c with PSpec_Distance | VCA_Distance | MVC_Distance | VCS_Distance | Wavelet_Distance | DeltaVariance_Distance => true | _ => false end.
(** The files a call shall write, each with nothing but its own plots *)
Definition shall_write (c : call) : list (name * list mark) :=
  match c with
  | Run _ _ m (Some p) => [(p, [m])]
  | Compare Dendrogram_Distance _ m1 m2 (Some p) => [(hist_name p, [m1; m2]); (num_name p, [m1; m2])]
  | Compare _ _ m1 m2 (Some p) => [(p, [m1; m2])]
  | _ => []
  end.
Definition contents (s : plt) : list (name * list mark) := map (fun f => (fst f, f_marks (snd f))) (files s).
(** Every plot of the program is saved, in a known format *)
Definition saved (known : name -> bool) (c : call) : Prop :=
  match c with Run _ _ _ save | Compare _ _ _ _ save => exists p, save = Some p /\ formatted known p end.
Definition overlaid (c : call) : bool := match c with Compare d _ _ _ _ => overlays d | _ => false end.
(** Calls that make figures of their own *)
Definition own_figure (c : call) : bool :=
  match c with Run Tsallis _ _ _ | Compare SCF_Distance _ _ _ _ | Compare Dendrogram_Distance _ _ _ _ => true | _ => false end.
Definition nothing_open : plt := mk_plt [] [].
