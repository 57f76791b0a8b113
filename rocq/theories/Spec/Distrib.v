(** Specification vocabulary for moments and distributions. *)
From Coq Require Import Reals ZArith List.
From Verif Require Import Lib.Fl Lib.RSum.
Import ListNotations.
Local Open Scope R_scope.

(** [pdf] is a probability density on the bins between consecutive edges. *)
Definition is_pdf (edges : list R) (pdf : list fl) : Prop :=
  exists v, pdf = map Fin v /\ length edges = S (length v) /\ (forall y, In y v -> 0 <= y) /\
    rsum (length v) (fun i => nth i v 0 * (nth (S i) edges 0 - nth i edges 0)) = 1.

(** Weighted moments of a list of (value, weight) pairs. *)
Definition total (l : list (R * R)) : R := lsum (map snd l).
Definition wavg (f : R -> R) (l : list (R * R)) : R := lsum (map (fun p => snd p * f (fst p)) l) / total l.
Definition wmean (l : list (R * R)) : R := wavg (fun x => x) l.
Definition wvar (l : list (R * R)) : R := wavg (fun x => (x - wmean l) ^ 2) l.
Definition wskew (l : list (R * R)) : R := wavg (fun x => ((x - wmean l) / sqrt (wvar l)) ^ 3) l.
Definition wkurt (l : list (R * R)) : R := wavg (fun x => ((x - wmean l) / sqrt (wvar l)) ^ 4) l - 3.

Definition sign (a : R) : R := if Rlt_dec a 0 then -1 else 1.

(** The offsets of a disc of the given radius (in pixels). *)
Definition span (r : nat) : list Z := map (fun a => (Z.of_nat a - Z.of_nat r)%Z) (seq 0 (2 * r + 1)).
Definition disc (r : nat) : list (Z * Z) :=
  filter (fun d => Z.ltb (fst d * fst d + snd d * snd d) (Z.of_nat r * Z.of_nat r)) (list_prod (span r) (span r)).
(** The pixel at an offset from (y, x), with wrapped boundaries or blank outside of the image. *)
Definition wrapped (n0 n1 : nat) (a : nat -> nat -> fl) (y x : nat) (d : Z * Z) : fl :=
  a (Z.to_nat ((Z.of_nat y + fst d) mod Z.of_nat n0)) (Z.to_nat ((Z.of_nat x + snd d) mod Z.of_nat n1)).
Definition or_blank (n0 n1 : nat) (a : nat -> nat -> fl) (y x : nat) (d : Z * Z) : fl :=
  let i := (Z.of_nat y + fst d)%Z in let j := (Z.of_nat x + snd d)%Z in
  if (Z.leb 0 i && Z.ltb i (Z.of_nat n0) && Z.leb 0 j && Z.ltb j (Z.of_nat n1))%bool then a (Z.to_nat i) (Z.to_nat j) else NaN.

(** x lies in bin i: [e_i <= x < e_(i+1)], the last bin being closed. *)
Definition in_binb (edges : list R) (i : nat) (x : R) : bool :=
  (Rleb (nth i edges 0) x && (if Nat.eqb (S (S i)) (length edges) then Rleb x (nth (S i) edges 0) else Rltb x (nth (S i) edges 0)))%bool.

(** All offsets of the square around the disc, and the share of finite values. *)
Definition square (r : nat) : list (Z * Z) := list_prod (span r) (span r).
Definition finite_share (l : list fl) : R := INR (length (filter is_fin l)) / INR (length l).
Definition at_offset (periodic : bool) (n0 n1 : nat) (a : nat -> nat -> fl) (y x : nat) (d : Z * Z) : fl :=
  if periodic then wrapped n0 n1 a y x d else or_blank n0 n1 a y x d.
(** The image shifted by (s, t) pixels with wrapped boundaries. *)
Definition shifted (n0 n1 s t : nat) (a : nat -> nat -> fl) : nat -> nat -> fl := fun i j => a ((i + s) mod n0)%nat ((j + t) mod n1)%nat.

(** The values and the weights of a list of pairs, as arrays. *)
Definition xs_of (l : list (R * R)) : list fl := map (fun p => Fin (fst p)) l.
Definition ws_of (l : list (R * R)) : list fl := map (fun p => Fin (snd p)) l.

(** The values above [m] at pixels where the value (and the weight) is a number,
    multiplied by the weight. *)
Definition accepted (m : R) (l : list (fl * fl)) : list R :=
  flat_map (fun p => match p with (Fin x, Fin w) => if Rlt_dec m x then [x * w] else [] | _ => [] end) l.
(** The share of the values not above x. *)
Definition share_le (data : list R) (x : R) : R := INR (length (filter (fun y => Rleb y x) data)) / INR (length data).
(** Values divided by their sum. *)
Definition unit_sum (p : list R) : list R := map (fun v => v / lsum p) p.
