(** Specification vocabulary for Genus objects and the genus distance. *)
From Coq Require Import Reals List ZArith Arith.
From Verif Require Import Lib.PyBase Lib.Fl Spec.Regions Spec.GenusSpec Model.Units Model.Genus Model.GenusRun.
Import ListNotations.
Local Open Scope R_scope.

(** Every pixel is a number or blank. *)
Definition readable (im : image) : Prop := forall p, i_pix im p = NaN \/ exists r, i_pix im p = Fin r.
(** The image in other units: a factor and an offset, blank pixels stay blank. *)
Definition recalibrated (a b : R) (im : image) : image :=
  mk_im (i_n0 im) (i_n1 im) (fun p => match i_pix im p with Fin r => Fin (a * r + b) | v => v end).

(** [g] is the genus of an image at threshold t: regions above the threshold minus regions below
    it, of at least m pixels if small regions are removed. *)
Definition genus_value (s : image) (t : R) (removal : bool) (m c : Z) (g : fl) : Prop :=
  exists kh kl,
    regions (adjacent c) (above (i_n0 s) (i_n1 s) (i_pix s) t) (counted c (above (i_n0 s) (i_n1 s) (i_pix s) t) removal m) kh /\
    regions (adjacent c) (below (i_n0 s) (i_n1 s) (i_pix s) t) (counted c (below (i_n0 s) (i_n1 s) (i_pix s) t) removal m) kl /\
    g = Fin (INR kh - INR kl).

(** The results an object shows. *)
Definition results (o : gobj) : option (list (list fl)) * option (list fl) * option (list fl) := (g_stats o, g_means o, g_stds o).

(** The value of an option that one of the two images gets. *)
Definition for_image {A} (o : option_of A) (i : nat) (x : A) : Prop := match o with Both a => x = a | Each l => nth_error l i = Some x end.
(** An angle: a power of degrees, not of pixels. *)
Definition angular (q : Units.quantity) : Prop := Units.is_equivalent (Units.q_unit q) Units.pix = false /\ Units.is_equivalent (Units.q_unit q) Units.deg = true.
(** All pixels of the frame that are not blank have one value. *)
Definition flat (im : image) : Prop := exists c, forall p, In p (pixels (i_n0 im) (i_n1 im)) -> i_pix im p = NaN \/ i_pix im p = Fin c.
