(** A Moments object on a small cube: spectral-cube's moments written out, with the errors of
    Model/MomentErrs.v *)
From Coq Require Import String Reals List Bool Arith Lra Lia.
From Verif Require Import Lib.PyBase Lib.Fl Model.MomentErrs Model.MomentsObj Spec.MomentsObj.
Import ListNotations.
Local Open Scope string_scope.
Local Open Scope R_scope.

Definition k3 : Type := arr3 bool.
Definition mask3 (c : cube) (k : k3) : result cube :=
  Ok (mk_cube (c_shape c) (fun i p q => c_mask c i p q && k i p q) (fun i p q => if k i p q then c_filled c i p q else NaN) (c_pix_cen c) (c_pix_size c)).
Definition total (c : cube) (axis : nat) (f : nat -> nat -> nat -> R) : arr2 fl := fun p q =>
  sum_axis c axis (fun i p q => fmul (Fin (f i p q)) (nan_to_num (view axis (c_filled c) i p q))) p q.
Definition mom0_3 (c : cube) (axis : nat) (how : string) : result (arr2 fl) := Ok (fun p q => fmul (Fin (c_pix_size c axis p q)) (total c axis (fun _ _ _ => 1) p q)).
Definition mom1_3 (c : cube) (axis : nat) (how : string) : result (arr2 fl) :=
  Ok (fun p q => fdiv (total c axis (fun i p q => view axis (c_pix_cen c axis) i p q) p q) (total c axis (fun _ _ _ => 1) p q)).
Definition mom2_3 (c : cube) : arr2 fl := fun p q => fsub
  (fdiv (total c 0 (fun i p q => view 0 (c_pix_cen c 0) i p q ^ 2) p q) (total c 0 (fun _ _ _ => 1) p q))
  (fsqr (fdiv (total c 0 (fun i p q => view 0 (c_pix_cen c 0) i p q) p q) (total c 0 (fun _ _ _ => 1) p q))).
Definition lws_3 (c : cube) (how : string) : result (arr2 fl) := Ok (fun p q => fsqrt (mom2_3 c p q)).
Definition zeros_3 (_ : arr2 fl) : arr2 fl := zeros2.
Definition err0_3 (c : cube) (s : R) (how : string) (axis : nat) := moment0_error "" c (Level (Fin s)) axis how.
Definition err1_3 (c : cube) (s : R) (how : string) (axis : nat) (m0 m1 : arr2 fl) := moment1_error "" c (Level (Fin s)) axis how 0 m0 m1.
Definition errl_3 (c : cube) (s : R) (how : string) (m0 m1 e1 : arr2 fl) := linewidth_sigma_err "" c (Level (Fin s)) how 0 m0 m1 (mom2_3 c) (Some e1).
Definition after3 := after cube k3 (arr2 fl) mask3 mom0_3 mom1_3 lws_3 zeros_3 err0_3 err1_3 errl_3.
Definition step3 := step cube k3 (arr2 fl) mask3 mom0_3 mom1_3 lws_3 zeros_3 err0_3 err1_3 errl_3.

(** Three channels with brightness 1, 2 and 3 *)
Definition cube3 : cube := mk_cube (3, 1, 1)%nat (fun _ _ _ => true) (fun i _ _ => Fin (INR i + 1)) (fun _ i _ _ => INR i) (fun _ _ _ => 1).
Definition first3 : k3 := fun i _ _ => Nat.eqb i 0.
Definition masked3 : cube := masked mask3 cube3 [ApplyMask k3 first3].

(** The zeroth moment and its error at the only pixel, as to_dict shows them *)
Definition shown (o : obj cube (arr2 fl)) : result (fl * fl) :=
  d <- to_dict cube (arr2 fl) o ;; match snd d with (m, e) :: _ => Ok (m O O, e O O) | [] => Err IndexError end.


Ltac run3 := lazy -[Rplus Rmult Rminus Rdiv Rinv sqrt IZR Rltb INR]; cbn [INR].
Ltac pos3 := match goal with |- context [Rltb ?a 0] => destruct (Rltb_spec a 0) as [L|L]; [exfalso; lra|] end.
Lemma shown_whole : shown (after3 (new _ _ cube3 "slice" (Some 1)) [Make k3 0 true; Errors k3 0 None]) = Ok (Fin 6, Fin (sqrt 3)).
Proof. run3. pos3.
 do 2 f_equal; f_equal; [lra|]. rewrite Rmult_1_r. f_equal. lra. Qed.
Lemma shown_masked : shown (after3 (new _ _ masked3 "slice" (Some 1)) [Make k3 0 true; Errors k3 0 None]) = Ok (Fin 1, Fin 1).
Proof. run3. pos3. do 2 f_equal; f_equal; [lra|]. rewrite Rmult_1_r. transitivity (sqrt 1); [f_equal; lra|apply sqrt_1]. Qed.
Lemma shown_between : shown (after3 (new _ _ cube3 "slice" (Some 1)) [Make k3 0 true; ApplyMask k3 first3; Errors k3 0 None]) = Ok (Fin 6, Fin 1).
Proof. run3. pos3. do 2 f_equal; f_equal; [lra|]. rewrite Rmult_1_r. transitivity (sqrt 1); [f_equal; lra|apply sqrt_1]. Qed.
Lemma fine3 : snd (step3 (new _ _ cube3 "slice" (Some 1)) (Make k3 0 true)) = None /\ snd (step3 (after3 (new _ _ cube3 "slice" (Some 1)) [Make k3 0 true]) (Errors k3 0 None)) = None /\
  snd (step3 (new _ _ cube3 "slice" (Some 1)) (Make k3 1 true)) = None /\ exists e0, err0_3 cube3 1 "slice" 1 = Ok e0.
Proof. repeat split. eexists. reflexivity. Qed.
