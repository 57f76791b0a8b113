(** Floating-point values without rounding: a real, an infinity or NaN.

    The special values propagate as in IEEE 754; a zero has no sign (it is
    treated as +0), and finite results are exact reals. *)
From Coq Require Import Reals List Lra Lia Bool Arith.
From Verif Require Import Lib.RSum.
Import ListNotations.
Local Open Scope R_scope.

Definition Rltb (a b : R) : bool := if Rlt_dec a b then true else false.
Definition Rleb (a b : R) : bool := if Rle_dec a b then true else false.
Definition Reqb (a b : R) : bool := if Req_EM_T a b then true else false.

Lemma Rltb_spec a b : reflect (a < b) (Rltb a b).
Proof. unfold Rltb; destruct (Rlt_dec a b); constructor; auto. Qed.
Lemma Rleb_spec a b : reflect (a <= b) (Rleb a b).
Proof. unfold Rleb; destruct (Rle_dec a b); constructor; auto. Qed.
Lemma Reqb_spec a b : reflect (a = b) (Reqb a b).
Proof. unfold Reqb; destruct (Req_EM_T a b); constructor; auto. Qed.

Inductive fl := Fin (r : R) | PInf | NInf | NaN.

Definition is_nan (x : fl) : bool := match x with NaN => true | _ => false end.
(** np.isfinite *)
Definition is_fin (x : fl) : bool := match x with Fin _ => true | _ => false end.

Definition fneg (x : fl) : fl :=
  match x with Fin r => Fin (- r) | PInf => NInf | NInf => PInf | NaN => NaN end.

Definition fadd (x y : fl) : fl :=
  match x, y with
  | NaN, _ | _, NaN => NaN
  | Fin a, Fin b => Fin (a + b)
  | PInf, NInf | NInf, PInf => NaN
  | PInf, _ | _, PInf => PInf
  | NInf, _ | _, NInf => NInf
  end.

Definition fsub (x y : fl) : fl := fadd x (fneg y).

(** Infinity with the sign of [r]; NaN for r = 0 (inf * 0). *)
Definition sinf (r : R) : fl :=
  if Rltb 0 r then PInf else if Rltb r 0 then NInf else NaN.

Definition fmul (x y : fl) : fl :=
  match x, y with
  | NaN, _ | _, NaN => NaN
  | Fin a, Fin b => Fin (a * b)
  | PInf, PInf | NInf, NInf => PInf
  | PInf, NInf | NInf, PInf => NInf
  | Fin a, PInf | PInf, Fin a => sinf a
  | Fin a, NInf | NInf, Fin a => fneg (sinf a)
  end.

Definition fdiv (x y : fl) : fl :=
  match x, y with
  | NaN, _ | _, NaN => NaN
  | Fin a, Fin b => if Reqb b 0 then sinf a else Fin (a / b)
  | Fin _, (PInf | NInf) => Fin 0
  | PInf, Fin b => if Rltb b 0 then NInf else PInf
  | NInf, Fin b => if Rltb b 0 then PInf else NInf
  | (PInf | NInf), (PInf | NInf) => NaN
  end.

Definition fsqrt (x : fl) : fl :=
  match x with
  | Fin a => if Rltb a 0 then NaN else Fin (sqrt a)
  | PInf => PInf
  | NInf => NaN
  | NaN => NaN
  end.

Definition fabs (x : fl) : fl :=
  match x with Fin a => Fin (Rabs a) | PInf => PInf | NInf => PInf | NaN => NaN end.

(** [x ** 2.] *)
Definition fsqr (x : fl) : fl := fmul x x.

(** Comparisons: any comparison with NaN is False. *)
Definition fltb (x y : fl) : bool :=
  match x, y with
  | NaN, _ | _, NaN => false
  | Fin a, Fin b => Rltb a b
  | NInf, NInf => false
  | NInf, _ => true
  | _, NInf => false
  | PInf, _ => false
  | Fin _, PInf => true
  end.
Definition fleb (x y : fl) : bool :=
  match x, y with
  | NaN, _ | _, NaN => false
  | Fin a, Fin b => Rleb a b
  | NInf, _ => true
  | _, NInf => false
  | _, PInf => true
  | PInf, Fin _ => false
  end.
Definition feqb (x y : fl) : bool :=
  match x, y with
  | Fin a, Fin b => Reqb a b
  | PInf, PInf | NInf, NInf => true
  | _, _ => false
  end.

(** ** numpy reductions over a flattened array *)

(** np.sum *)
Definition fsum (l : list fl) : fl := fold_right fadd (Fin 0) l.
(** The entries that are not NaN. *)
Definition nonnan (l : list fl) : list fl := filter (fun x => negb (is_nan x)) l.
(** np.nansum *)
Definition nansum (l : list fl) : fl := fsum (nonnan l).
(** Number of non-NaN entries, as a float. *)
Definition nancount (l : list fl) : R := INR (length (nonnan l)).
(** np.nanmean (NaN for an empty or all-NaN array) *)
Definition nanmean (l : list fl) : fl := fdiv (nansum l) (Fin (nancount l)).
(** np.nanstd, ddof = 0 *)
Definition nanstd (l : list fl) : fl :=
  fsqrt (nanmean (map (fun x => fsqr (fsub x (nanmean l))) l)).

Definition fmin2 (x y : fl) : fl := if fltb y x then y else x.
Definition fmax2 (x y : fl) : fl := if fltb x y then y else x.
(** np.nanmin / np.nanmax: NaN when there is no other entry *)
Definition nanmin (l : list fl) : fl :=
  match nonnan l with [] => NaN | x :: r => fold_left fmin2 r x end.
Definition nanmax (l : list fl) : fl :=
  match nonnan l with [] => NaN | x :: r => fold_left fmax2 r x end.

(** Element-wise combination of two arrays of the same shape. *)
Fixpoint map2 {A B C} (f : A -> B -> C) (l1 : list A) (l2 : list B) : list C :=
  match l1, l2 with
  | x :: r1, y :: r2 => f x y :: map2 f r1 r2
  | _, _ => []
  end.

(** The finite real entries, in order. *)
Definition fins (l : list fl) : list R :=
  flat_map (fun x => match x with Fin r => [r] | _ => [] end) l.

(** No infinities: every entry is a real number or blank. *)
Definition blankable (x : fl) : Prop := match x with Fin _ | NaN => True | _ => False end.

(** ** Lemmas *)

Lemma is_fin_ex x : is_fin x = true <-> exists r, x = Fin r.
Proof. destruct x; cbn; split; intros H; try discriminate; try (destruct H; discriminate); eauto. Qed.

Lemma fsub_fin a b : fsub (Fin a) (Fin b) = Fin (a - b).
Proof. reflexivity. Qed.

Lemma fsqr_fin a : fsqr (Fin a) = Fin (a * a).
Proof. reflexivity. Qed.

Lemma fdiv_fin a b : b <> 0 -> fdiv (Fin a) (Fin b) = Fin (a / b).
Proof. intros H. cbn. destruct (Reqb_spec b 0); [contradiction|reflexivity]. Qed.

Lemma fsqrt_fin a : 0 <= a -> fsqrt (Fin a) = Fin (sqrt a).
Proof. intros H. cbn. destruct (Rltb_spec a 0); [lra|reflexivity]. Qed.

Lemma fins_map_Fin l : fins (map Fin l) = l.
Proof. induction l as [|x l IH]; [reflexivity|]. change (x :: fins (map Fin l) = x :: l). now rewrite IH. Qed.

Lemma fins_cons_Fin r l : fins (Fin r :: l) = r :: fins l.
Proof. reflexivity. Qed.
Lemma fins_cons_NaN l : fins (NaN :: l) = fins l.
Proof. reflexivity. Qed.

Lemma nonnan_fins l : Forall blankable l -> nonnan l = map Fin (fins l).
Proof.
  induction 1 as [|x l Hx Hl IH]; [reflexivity|].
  destruct x as [r| | |]; cbn in Hx; try contradiction.
  - change (Fin r :: nonnan l = Fin r :: map Fin (fins l)). now rewrite IH.
  - exact IH.
Qed.

Lemma fsum_Fin l : fsum (map Fin l) = Fin (lsum l).
Proof.
  induction l as [|x l IH]; [reflexivity|].
  cbn [map]. unfold fsum in *. cbn [fold_right]. rewrite IH. reflexivity.
Qed.

Lemma nansum_fins l : Forall blankable l -> nansum l = Fin (lsum (fins l)).
Proof. intros H. unfold nansum. now rewrite nonnan_fins, fsum_Fin. Qed.

Lemma nancount_fins l : Forall blankable l -> nancount l = INR (length (fins l)).
Proof. intros H. unfold nancount. now rewrite nonnan_fins, map_length. Qed.

Lemma blankable_map_Fin l : Forall blankable (map Fin l).
Proof. apply Forall_forall. intros x Hx. apply in_map_iff in Hx. destruct Hx as [r [<- _]]. exact I. Qed.

Lemma nanmean_fins l : Forall blankable l -> fins l <> [] ->
  nanmean l = Fin (lsum (fins l) / INR (length (fins l))).
Proof.
  intros H Hne. unfold nanmean. rewrite nansum_fins, nancount_fins by auto.
  apply fdiv_fin. apply not_0_INR. destruct (fins l); [contradiction|discriminate].
Qed.

Lemma map2_length {A B C} (f : A -> B -> C) l1 l2 :
  length (map2 f l1 l2) = Nat.min (length l1) (length l2).
Proof. revert l2; induction l1 as [|x l1 IH]; intros [|y l2]; cbn; auto. Qed.

Lemma map2_nth {A B C} (f : A -> B -> C) l1 l2 i da db dc :
  (i < length l1)%nat -> (i < length l2)%nat ->
  nth i (map2 f l1 l2) dc = f (nth i l1 da) (nth i l2 db).
Proof.
  revert l2 i; induction l1 as [|x l1 IH]; intros [|y l2] [|i] H1 H2; cbn in *; try lia; auto.
  apply IH; lia.
Qed.

Lemma map2_combine {A B C} (f : A -> B -> C) l1 l2 :
  map2 f l1 l2 = map (fun p => f (fst p) (snd p)) (combine l1 l2).
Proof. revert l2; induction l1 as [|x l1 IH]; intros [|y l2]; cbn; auto. now rewrite IH. Qed.

Lemma map2_swap {A B C} (f : A -> B -> C) l1 l2 :
  map2 f l1 l2 = map2 (fun y x => f x y) l2 l1.
Proof. revert l2; induction l1 as [|x l1 IH]; intros [|y l2]; cbn; auto. now rewrite IH. Qed.

Lemma map2_ext {A B C} (f g : A -> B -> C) l1 l2 :
  (forall x y, In x l1 -> In y l2 -> f x y = g x y) -> map2 f l1 l2 = map2 g l1 l2.
Proof.
  revert l2; induction l1 as [|x l1 IH]; intros [|y l2] H; cbn; auto.
  rewrite IH; [|intros; apply H; now right]. rewrite H; auto; now left.
Qed.
