(** Vocabulary for the wavelet transform of an image. *)
From Coq Require Import Reals List ZArith Bool.
From Verif Require Import Lib.Fl Lib.RSum.
Import ListNotations.
Local Open Scope R_scope.

(** blank pixels count as zero *)
Definition brightness (v : fl) : R := match v with Fin r => r | _ => 0 end.

(** the two-dimensional Mexican hat of width [a], cut at [half] pixels from its centre *)
Definition hat (a : R) (v u : Z) : R :=
  let q := (IZR v ^ 2 + IZR u ^ 2) / (2 * a ^ 2) in (1 - q) * exp (- q) / (PI * a ^ 4).
Definition cut_hat (half : nat) (a : R) (v u : Z) : R :=
  if ((Z.abs v <=? Z.of_nat half) && (Z.abs u <=? Z.of_nat half))%Z then hat a v u else 0.

(** the wavelet coefficient at a pixel: the image weighed with the hat centred there *)
Definition coefficient (half : nat) (a : R) (normalized : bool) (ny nx : nat) (img : nat -> nat -> fl) (y x : nat) : R :=
  (if normalized then a ^ 2 else a ^ 4) *
  rsum ny (fun y' => rsum nx (fun x' => cut_hat half a (Z.of_nat y - Z.of_nat y') (Z.of_nat x - Z.of_nat x') * brightness (img y' x'))).
Definition coefficients half a normalized ny nx img : list R :=
  flat_map (fun y => map (fun x => coefficient half a normalized ny nx img y x) (seq 0 nx)) (seq 0 ny).
Definition positives (l : list R) : list R := filter (fun c => if Rlt_dec 0 c then true else false) l.

(** the image at any position: zero outside the field *)
Definition outside_zero (ny nx : nat) (img : nat -> nat -> fl) (y x : Z) : R :=
  if ((0 <=? y) && (y <? Z.of_nat ny) && ((0 <=? x) && (x <? Z.of_nat nx)))%Z then brightness (img (Z.to_nat y) (Z.to_nat x)) else 0.

(** [l'] is [l] without the entries that do not satisfy [P] *)
Inductive only {A} (P : A -> Prop) : list A -> list A -> Prop :=
| only_nil : only P [] []
| only_keep a l l' : P a -> only P l l' -> only P (a :: l) (a :: l')
| only_drop a l l' : ~ P a -> only P l l' -> only P (a :: l) l'.

(** limits given by the caller, if any *)
Definition above (lo : option R) (s : R) : Prop := match lo with Some l => l <= s | None => True end.
Definition below (hi : option R) (s : R) : Prop := match hi with Some h => s <= h | None => True end.
