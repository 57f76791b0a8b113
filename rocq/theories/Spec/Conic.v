(** Vocabulary for ellipses: conics by their coefficients. *)
From Coq Require Import Reals List.
From Verif Require Import Lib.RSum Lib.Mat3.
Import ListNotations.
Local Open Scope R_scope.

(** A x^2 + B x y + C y^2 + D x + F y + G = 0 *)
Record conic := mk_conic { k_A : R; k_B : R; k_C : R; k_D : R; k_F : R; k_G : R }.
Definition conic_value (k : conic) (p : R * R) : R :=
  k_A k * fst p ^ 2 + k_B k * fst p * snd p + k_C k * snd p ^ 2 + k_D k * fst p + k_F k * snd p + k_G k.
Definition on_conic (k : conic) (p : R * R) : Prop := conic_value k p = 0.
Definition times (s : R) (k : conic) : conic := mk_conic (s * k_A k) (s * k_B k) (s * k_C k) (s * k_D k) (s * k_F k) (s * k_G k).

(** Its quadratic part is definite *)
Definition elliptic (k : conic) : Prop := 0 < 4 * k_A k * k_C k - k_B k ^ 2.
(** An ellipse: definite, and with two points at least *)
Definition is_ellipse (k : conic) : Prop := elliptic k /\ exists p q, on_conic k p /\ on_conic k q /\ p <> q.
(** Two equal axes along the diagonals: the angle of the axes is +-45 degrees *)
Definition tilted45 (k : conic) : Prop := k_A k = k_C k /\ k_B k <> 0.
(** The point about which the conic is symmetric *)
Definition centre_of (k : conic) (p : R * R) : Prop :=
  forall x y, conic_value k (fst p + x, snd p + y) = conic_value k (fst p - x, snd p - y).

(** The points lie on one conic only *)
Definition determine (data : list (R * R)) (k : conic) : Prop :=
  (forall p, In p data -> on_conic k p) /\ forall k', (forall p, In p data -> on_conic k' p) -> exists s, k' = times s k.

(** All points on one line *)
Definition collinear (data : list (R * R)) : Prop :=
  exists a b c, (a <> 0 \/ b <> 0) /\ forall p, In p data -> a * fst p + b * snd p + c = 0.

(** Sum of the squared values at the points: the algebraic distance *)
Definition algebraic (data : list (R * R)) (k : conic) : R := lsum (map (fun p => conic_value k p ^ 2) data).
Definition discriminant (k : conic) : R := 4 * k_A k * k_C k - k_B k ^ 2.
(** Some conic goes through all the points *)
Definition on_some_conic (data : list (R * R)) : Prop :=
  exists k, (k_A k <> 0 \/ k_B k <> 0 \/ k_C k <> 0) /\ forall p, In p data -> on_conic k p.

(** What an eigenvalue solver returns for a matrix that has a basis of real eigenvectors *)
Definition eigenvector (m : m3) (v : v3) : Prop := exists lam, mv m v = vscale lam v.
Definition eigenbasis (m : m3) (cols : list v3) : Prop :=
  exists u1 u2 u3, cols = [u1; u2; u3] /\ det (M u1 u2 u3) <> 0 /\ forall u, In u cols -> eigenvector m u.

(** Euclidean distance *)
Definition distance (p q : R * R) : R := sqrt ((fst p - fst q) ^ 2 + (snd p - snd q) ^ 2).
(** The 1/e contour of exp(- x^2 / (2 sx^2) - y^2 / (2 sy^2)) *)
Definition gauss_contour (sx sy : R) (p : R * R) : Prop :=
  exp (- (fst p ^ 2 / (2 * sx ^ 2)) - snd p ^ 2 / (2 * sy ^ 2)) = exp (-1).
(** The points lie on one conic at most *)
Definition one_conic (data : list (R * R)) : Prop :=
  forall k k', (forall p, In p data -> on_conic k p) -> (forall p, In p data -> on_conic k' p) -> k <> mk_conic 0 0 0 0 0 0 -> exists s, k' = times s k.
