(** Vocabulary for power spectra of images in larger blank fields (C324). *)
From Coq Require Import Reals List Arith Bool.
From Verif Require Import Lib.Fl Lib.RSum.
Local Open Scope R_scope.

(** The pixels of an ny x nx image at (oy, ox) of a field whose other pixels are blank *)
Definition surrounded (ny nx oy ox : nat) (im : nat -> nat -> fl) (y x : nat) : fl :=
  if (oy <=? y)%nat && (y <? oy + ny)%nat && (ox <=? x)%nat && (x <? ox + nx)%nat then im (y - oy)%nat (x - ox)%nat else NaN.
(** The value of a pixel, zero for a blank one *)
Definition or_zero (v : fl) : R := match v with Fin r => r | _ => 0 end.
(** The power of an image in a wave of fy and fx cycles per pixel *)
Definition power_at (ny nx : nat) (im : nat -> nat -> fl) (fy fx : R) : R :=
  let phase y x := 2 * PI * (fy * INR y + fx * INR x) in
  let a := rsum ny (fun y => rsum nx (fun x => or_zero (im y x) * cos (phase y x))) in
  let b := rsum ny (fun y => rsum nx (fun x => or_zero (im y x) * sin (phase y x))) in
  a * a + b * b.
