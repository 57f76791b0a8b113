From Coq Require Import Reals List ZArith Lia Lra Arith.
From Coquelicot Require Import Complex.
From Verif Require Import Lib.PyBase Lib.PySlice Lib.Arr Lib.DFT Lib.Fl Lib.RSum Model.RfftToFft.
Import ListNotations.

Lemma map2_tab1 {A B C} (f : A -> B -> C) n a b :
  map2 f (tab1 n a) (tab1 n b) = tab1 n (fun i => f (a i) (b i)).
Proof.
  unfold tab1. generalize 0%nat. induction n as [|n IH]; intros s; [reflexivity|].
  cbn [seq map map2]. now rewrite IH.
Qed.

(** Length of the mirrored part. *)
Definition nstar (nx : nat) : nat := (nx - (nx / 2 + 1))%nat.

Lemma half_even nx : (nx mod 2 = 0 -> nx / 2 + 1 - 2 = nx - (nx / 2 + 1))%nat.
Proof. intros H. pose proof (Nat.div_mod nx 2). lia. Qed.
Lemma half_odd nx : (nx mod 2 <> 0 -> nx / 2 + 1 - 1 = nx - (nx / 2 + 1))%nat.
Proof. intros H. pose proof (Nat.div_mod nx 2). pose proof (Nat.mod_upper_bound nx 2). lia. Qed.

Lemma star_row nx (f : nat -> R) : (1 <= nx)%nat ->
  (if Nat.eqb (nx mod 2) 0
   then slice (Some (-2)%Z) (Some 0%Z) (-1) (tab1 (nx / 2 + 1) f)
   else slice (Some (-1)%Z) (Some 0%Z) (-1) (tab1 (nx / 2 + 1) f))
  = tab1 (nstar nx) (fun j => f (nstar nx - j)%nat).
Proof.
  intros Hn. destruct (Nat.eqb_spec (nx mod 2) 0) as [E|E].
  - rewrite slice_tab1 by lia. change (-2)%Z with (- Z.of_nat 2)%Z.
    assert (1 <= nx / 2)%nat by (pose proof (Nat.div_mod nx 2); lia).
    rewrite slice_idx_desc by lia. rewrite tab1_map, half_even by auto. reflexivity.
  - rewrite slice_tab1 by lia. change (-1)%Z with (- Z.of_nat 1)%Z at 1.
    rewrite slice_idx_desc by lia. rewrite tab1_map, half_odd by auto. reflexivity.
Qed.

(** Reversal of all but the first entry of an axis. *)
Lemma mirror_axis {A} n (f : nat -> A) : (1 <= n)%nat ->
  assign_slice (Some 1%Z) None 1 (tab1 n f) (slice None (Some 0%Z) (-1) (tab1 n f))
  = tab1 n (fun i => f ((n - i) mod n)%nat).
Proof.
  intros Hn. rewrite slice_tab1 by lia. rewrite slice_idx_rev_tail by auto. rewrite tab1_map.
  rewrite assign_slice_tail_tab. apply tab1_ext. intros i Hi.
  rewrite neg_mod_val by auto. destruct i as [|i]; cbn [Nat.eqb]; [reflexivity|]. f_equal; lia.
Qed.

Lemma if_map {A B} (b : bool) (f g : A -> B) l :
  (if b then map f l else map g l) = map (fun x => if b then f x else g x) l.
Proof. destruct b; reflexivity. Qed.

Lemma star_rows nx n (F : nat -> nat -> R) : (1 <= nx)%nat ->
  (if Nat.eqb (nx mod 2) 0
   then map (slice (Some (-2)%Z) (Some 0%Z) (-1)) (tab1 n (fun ky => tab1 (nx / 2 + 1) (F ky)))
   else map (slice (Some (-1)%Z) (Some 0%Z) (-1)) (tab1 n (fun ky => tab1 (nx / 2 + 1) (F ky))))
  = tab1 n (fun ky => tab1 (nstar nx) (fun j => F ky (nstar nx - j)%nat)).
Proof.
  intros Hn. rewrite if_map, tab1_map. apply tab1_ext. intros ky Hky. now apply star_row.
Qed.

Lemma star_planes nx nz ny (F : nat -> nat -> nat -> R) : (1 <= nx)%nat ->
  (if Nat.eqb (nx mod 2) 0
   then map (map (slice (Some (-2)%Z) (Some 0%Z) (-1)))
          (tab1 nz (fun kz => tab1 ny (fun ky => tab1 (nx / 2 + 1) (F kz ky))))
   else map (map (slice (Some (-1)%Z) (Some 0%Z) (-1)))
          (tab1 nz (fun kz => tab1 ny (fun ky => tab1 (nx / 2 + 1) (F kz ky)))))
  = tab1 nz (fun kz => tab1 ny (fun ky => tab1 (nstar nx) (fun j => F kz ky (nstar nx - j)%nat))).
Proof.
  intros Hn. rewrite if_map, tab1_map. apply tab1_ext. intros kz Hkz. now apply star_rows.
Qed.

Lemma half_lt nx : (1 <= nx)%nat -> (nx / 2 + 1 <= nx)%nat.
Proof. intros. pose proof (Nat.div_mod nx 2). pose proof (Nat.mod_upper_bound nx 2). lia. Qed.

Lemma app_tab_star nx (f g : nat -> R) : (1 <= nx)%nat ->
  (forall k, (nx / 2 + 1 <= k < nx)%nat -> f k = g ((nx - k) mod nx)%nat) ->
  tab1 (nx / 2 + 1) f ++ tab1 (nstar nx) (fun j => g (nstar nx - j)%nat) = tab1 nx f.
Proof.
  intros Hn H. rewrite tab1_app. unfold nstar. pose proof (half_lt nx Hn).
  replace (nx / 2 + 1 + (nx - (nx / 2 + 1)))%nat with nx by lia.
  apply tab1_ext. intros k Hk. destruct (Nat.ltb_spec k (nx / 2 + 1)); [reflexivity|].
  rewrite H by lia. f_equal. rewrite neg_mod_val by auto.
  destruct (Nat.eqb_spec k 0); lia.
Qed.

Lemma rfft_2d ny nx a : (1 <= ny)%nat -> (1 <= nx)%nat ->
  rfft_to_fft (Real2 ny nx a) false =
  Ok (Abs2 (tab2 ny nx (fun ky kx => Cmod (dft2 ny nx (fun y x => RtoC (a y x)) ky kx)))).
Proof.
  intros Hy Hx. cbn [rfft_to_fft]. do 2 f_equal.
  set (F := fun ky kx => Cmod (dft2 ny nx (fun y x => RtoC (a y x)) ky kx)).
  change (expand2 nx (tab1 ny (fun ky => tab1 (nx / 2 + 1) (F ky))) = tab1 ny (fun ky => tab1 nx (F ky))).
  unfold expand2. cbv zeta. rewrite star_rows by auto.
  rewrite mirror_axis by auto. rewrite map2_tab1. apply tab1_ext. intros ky Hky.
  apply (app_tab_star nx (F ky) (F ((ny - ky) mod ny)%nat)); auto.
  intros k Hk. unfold F. rewrite dft2_hermitian by lia. now rewrite Cmod_conj.
Qed.

Lemma rfft_3d nz ny nx a : (1 <= nz)%nat -> (1 <= ny)%nat -> (1 <= nx)%nat ->
  rfft_to_fft (Real3 nz ny nx a) false =
  Ok (Abs3 (tab3 nz ny nx (fun kz ky kx => Cmod (dft3 nz ny nx (fun z y x => RtoC (a z y x)) kz ky kx)))).
Proof.
  intros Hz Hy Hx. cbn [rfft_to_fft]. do 2 f_equal.
  set (F := fun kz ky kx => Cmod (dft3 nz ny nx (fun z y x => RtoC (a z y x)) kz ky kx)).
  change (expand3 nx (tab1 nz (fun kz => tab1 ny (fun ky => tab1 (nx / 2 + 1) (F kz ky))))
          = tab1 nz (fun kz => tab1 ny (fun ky => tab1 nx (F kz ky)))).
  unfold expand3. cbv zeta. rewrite star_planes by auto.
  rewrite mirror_axis by auto. rewrite tab1_map.
  rewrite map2_tab1. apply tab1_ext. intros kz Hkz.
  rewrite mirror_axis by auto. rewrite map2_tab1. apply tab1_ext. intros ky Hky.
  apply (app_tab_star nx (F kz ky) (F ((nz - kz) mod nz)%nat ((ny - ky) mod ny)%nat)); auto.
  intros k Hk. unfold F. rewrite dft3_hermitian by lia. now rewrite Cmod_conj.
Qed.

Lemma rfft_2d_keep ny nx a :
  rfft_to_fft (Real2 ny nx a) true =
  Ok (Abs2 (tab2 ny (nx / 2 + 1) (fun ky kx => Cmod (dft2 ny nx (fun y x => RtoC (a y x)) ky kx)))).
Proof. reflexivity. Qed.

Lemma rfft_other ndim keep : rfft_to_fft (RealOther ndim) keep = Err TypeError.
Proof. reflexivity. Qed.

Lemma Cmod_real r : Cmod (RtoC r) = Rabs r.
Proof. apply Cmod_R. Qed.

Lemma rfft_example :
  rfft_to_fft (Real2 1 2 (fun _ x => INR (S x))) false = Ok (Abs2 [[3; 1]%R]).
Proof.
  rewrite rfft_2d by lia. do 2 f_equal. unfold tab2, tab1. cbn [seq map]. do 2 f_equal; [|f_equal].
  - unfold dft2. cbn [csum]. rewrite !tw_0_l, !tw_0_r.
    replace (Cplus _ _) with (RtoC 3); [rewrite Cmod_real, Rabs_pos_eq; lra|].
    apply Ceq; cbn; lra.
  - unfold dft2. cbn [csum]. rewrite !tw_0_l.
    replace (tw 2 1 1) with (RtoC (-1)).
    + replace (Cplus _ _) with (RtoC (-1)); [rewrite Cmod_real, Rabs_left; lra|].
      apply Ceq; cbn; lra.
    + unfold tw. replace (- (2 * PI * INR (1 * 1) / INR 2))%R with (- PI)%R by (cbn; field).
      apply Ceq; cbn; [rewrite cos_neg, cos_PI|rewrite sin_neg, sin_PI]; lra.
Qed.

Lemma rfft3_example : exists planes,
  rfft_to_fft (Real3 2 3 4 (fun _ _ _ => 1%R)) false = Ok (Abs3 planes) /\
  nth 0 (nth 0 (nth 0 planes []) []) 0%R = 24%R.
Proof.
  eexists. split; [apply rfft_3d; lia|]. unfold tab3, tab2. rewrite !tab1_nth by lia.
  unfold dft3. cbn [csum]. rewrite !tw_0_r.
  replace (Cplus _ _) with (RtoC 24); [rewrite Cmod_real, Rabs_pos_eq; lra|].
  apply Ceq; cbn; lra.
Qed.
