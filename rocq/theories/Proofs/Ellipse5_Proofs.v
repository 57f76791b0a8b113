(** Proofs about Model/Ellipse.v: widths, bootstrap, examples. *)
From Coq Require Import Reals List Lia Lra Arith Bool Permutation.
From Verif Require Import Lib.PyBase Lib.RSum Lib.Fl Lib.Mat3 Spec.Conic Model.EllipPlaw Model.Pca Model.PcaFit Model.Ellipse Spec.EllipseFit Proofs.Ellipse_Proofs Proofs.Ellipse2_Proofs Proofs.Ellipse3_Proofs Proofs.Ellipse4_Proofs Proofs.PcaFit4_Proofs.
Import ListNotations.
Local Open Scope R_scope.

(** ** Exact recovery *)
Lemma recover eig data k : determine data k -> is_ellipse k -> (forall m, reduced data = Some m -> eigenbasis m (eig m)) ->
  exists s, s <> 0 /\ estimate eig data = Some (params_of (times s k)).
Proof.
  intros HD [HE _] HG. pose proof (S3_det data k HD HE) as N.
  destruct (HG _ (reduced_some data N)) as [u1 [u2 [u3 [EC [D EV]]]]].
  apply (estimate_exact data k HD HE eig u1 u2 u3 EC D); apply EV; rewrite EC; cbn; auto.
Qed.

Lemma recover_ellipse eig data k : determine data k -> is_ellipse k -> ~ tilted45 k -> (forall m, reduced data = Some m -> eigenbasis m (eig m)) ->
  exists l, estimate eig data = Some l /\ 0 < l_a l /\ 0 < l_b l /\ centre_of k (l_x l, l_y l) /\ forall p, on_conic k p <-> exists t, predict l t = p.
Proof.
  intros HD HE NT HG. destruct (recover eig data k HD HE HG) as [s [Ns E]]. exists (params_of (times s k)). split; [exact E|].
  pose proof (ellipse_times s k Ns HE) as HE'. destruct (axes _ HE') as (A&B&_&_). split; [exact A|]. split; [exact B|]. split.
  - pose proof (centre _ (proj1 HE')) as C. intros x y. specialize (C x y). rewrite !value_times in C. now apply (Rmult_eq_reg_l s).
  - intros p. rewrite <- (on_times s k p Ns). assert (NT' : ~ tilted45 (times s k)) by now rewrite tilted_times. split.
    + now apply all_predicted.
    + intros [t <-]. now apply predicted_on.
Qed.

Lemma recover_tilted eig data k : determine data k -> is_ellipse k -> tilted45 k -> (forall m, reduced data = Some m -> eigenbasis m (eig m)) ->
  exists l, estimate eig data = Some l /\ ~ on_conic k (predict l 0).
Proof.
  intros HD HE NT HG. destruct (recover eig data k HD HE HG) as [s [Ns E]]. exists (params_of (times s k)). split; [exact E|].
  rewrite <- (on_times s k _ Ns). apply tilted_off; [now apply ellipse_times|now apply tilted_times].
Qed.

(** The axes found, and the sign of the eigenvector *)
Lemma axis_order eig data k : determine data k -> is_ellipse k -> ~ (k_A k = k_C k /\ k_B k = 0) -> (forall m, reduced data = Some m -> eigenbasis m (eig m)) ->
  exists eig' l, (forall m, reduced data = Some m -> eigenbasis m (eig' m)) /\ estimate eig' data = Some l /\ l_a l < l_b l.
Proof.
  intros HD HE NR HG. destruct (recover eig data k HD HE HG) as [s [Ns E]].
  pose proof (ellipse_times s k Ns HE) as HE'.
  assert (NR' : l_a (params_of (times s k)) <> l_b (params_of (times s k))).
  { intros Z. apply NR. apply (round_circle _ HE') in Z. unfold times in Z. cbn [k_A k_B k_C] in Z. destruct Z as [Z1 Z2]. apply Rmult_integral in Z2. split; [now apply (Rmult_eq_reg_l s)|tauto]. }
  destruct (Rlt_le_dec (l_a (params_of (times s k))) (l_b (params_of (times s k)))) as [L|L].
  - exists eig, (params_of (times s k)). auto.
  - set (eig' := fun m => map (vscale (-1)) (eig m)).
    assert (HG' : forall m, reduced data = Some m -> eigenbasis m (eig' m)).
    { intros m Hm. destruct (HG m Hm) as [u1 [u2 [u3 [EC [D EV]]]]]. exists (vscale (-1) u1), (vscale (-1) u2), (vscale (-1) u3).
      unfold eig'. rewrite EC. split; [reflexivity|]. split.
      - intros Z. apply D. destruct u1, u2, u3. unfold det, vscale in *. cbn in *. lra.
      - intros u Hu. apply in_map_iff in Hu. destruct Hu as [v [<- Hv]]. rewrite EC in EV. destruct (EV v Hv) as [lam E']. exists lam. rewrite mv_vscale, E'. destruct v. unfold vscale. cbn. apply v3_eq; ring. }
    destruct (recover eig' data k HD HE HG') as [s' [Ns' E']]. exists eig', (params_of (times s' k)). split; [exact HG'|]. split; [exact E'|].
    (* the two multiples have opposite signs *)
    destruct (estimate_inv eig data _ E) as [N [v [F [C LV]]]]. destruct (estimate_inv eig' data _ E') as [_ [v' [F' [C' LV']]]].
    assert (VV : v' = vscale (-1) v).
    { unfold eig' in F'. revert F F'. generalize (eig (mm (inv3 C1) (scatter data))). intros cols F F'.
      assert (FM : forall l, filter (fun v => Rltb 0 (cond v)) (map (vscale (-1)) l) = map (vscale (-1)) (filter (fun v => Rltb 0 (cond v)) l)).
      { induction l as [|u l IH]; [reflexivity|]. cbn [map filter]. replace (cond (vscale (-1) u)) with (cond u) by (destruct u; unfold cond, vscale; cbn; ring). rewrite IH. destruct (Rltb 0 (cond u)); reflexivity. }
      rewrite FM, F in F'. cbn [map] in F'. injection F' as <-. reflexivity. }
    assert (KK : conic_of v' (linpart data v') = times (-1) (conic_of v (linpart data v))).
    { rewrite VV. unfold linpart. rewrite mv_vscale. unfold conic_of, times, vscale. cbn [e1 e2 e3 k_A k_B k_C k_D k_F k_G]. reflexivity. }
    rewrite LV', KK. assert (EV : elliptic (conic_of v (linpart data v))) by (unfold elliptic, conic_of, cond in *; cbn [k_A k_B k_C]; lra).
    destruct (params_times (-1) _ ltac:(lra) EV) as [_ [_ [_ SW]]]. destruct (SW ltac:(lra)) as [S1' S2']. rewrite S1', S2', <- LV. lra.
Qed.

(** ** Bootstrap *)

Lemma map2_length {A B C} (f : A -> B -> C) l l' : length (map2 f l l') = Nat.min (length l) (length l').
Proof. revert l'. induction l as [|x l IH]; intros [|y l']; cbn; auto. Qed.
Lemma map2_nth {A B C} (f : A -> B -> C) l l' i a b c : (i < length l)%nat -> (i < length l')%nat -> nth i (map2 f l l') c = f (nth i l a) (nth i l' b).
Proof. revert l' i. induction l as [|x l IH]; intros [|y l'] [|i] H H'; cbn in *; try lia; auto. apply IH; lia. Qed.

Lemma perm_length n d : good_draw n d -> length (d_perm d) = n.
Proof. intros [P _]. apply Permutation_length in P. now rewrite seq_length in P. Qed.

Lemma resample_length resid data d : good_draw (length data) d -> length (resample resid data d) = length data.
Proof.
  intros G. pose proof (perm_length _ _ G) as LP. destruct G as [_ [LW LS]]. unfold resample. rewrite !map2_length, map_length, LP, LW, LS, !Nat.min_id. reflexivity.
Qed.

Lemma resample_nth resid data d i : good_draw (length data) d -> (i < length data)%nat ->
  nth i (resample resid data d) (0, 0) =
  (fst (nth i data (0, 0)) + nth (nth i (d_perm d) 0%nat) resid 0 * fst (nth i (d_weights d) (0, 0)) * fst (nth i (d_signs d) (0, 0)),
   snd (nth i data (0, 0)) + nth (nth i (d_perm d) 0%nat) resid 0 * snd (nth i (d_weights d) (0, 0)) * snd (nth i (d_signs d) (0, 0))).
Proof.
  intros G Hi. pose proof (perm_length _ _ G) as LP. destruct G as [_ [LW LS]]. unfold resample.
  rewrite (map2_nth _ _ _ i (0, 0) (0, 0) (0, 0)); [|exact Hi|rewrite !map2_length, map_length, LP, LW, LS, !Nat.min_id; exact Hi].
  rewrite (map2_nth _ _ _ i 0 ((0, 0), (0, 0)) (0, 0)); [|rewrite map_length, LP; exact Hi|rewrite map2_length, LW, LS, Nat.min_id; exact Hi].
  rewrite (map2_nth _ _ _ i (0, 0) (0, 0) ((0, 0), (0, 0))); [|rewrite LW; exact Hi|rewrite LS; exact Hi].
  cbn [fst snd]. set (F := fun i0 => nth i0 resid 0). rewrite (nth_indep _ 0 (F 0%nat)); [|rewrite map_length, LP; exact Hi].
  rewrite (map_nth F). reflexivity.
Qed.

Lemma resample_zero resid data d : good_draw (length data) d -> (forall r, In r resid -> r = 0) -> resample resid data d = data.
Proof.
  intros G Z. assert (Z' : forall i, nth i resid 0 = 0). { intros i. destruct (nth_in_or_default i resid 0) as [H|H]; [now apply Z|exact H]. }
  apply (nth_ext _ _ (0, 0) (0, 0)); [now apply resample_length|]. intros i Hi. rewrite (resample_length _ _ _ G) in Hi. etransitivity; [exact (resample_nth resid data d i G Hi)|]. rewrite Z'.
  transitivity (fst (nth i data (0, 0)), snd (nth i data (0, 0))); [|symmetry; apply surjective_pairing]. f_equal; ring.
Qed.


Lemma resample_distance resid data d i : good_draw (length data) d -> (i < length data)%nat -> sign_pair (nth i (d_signs d) (0, 0)) ->
  distance (nth i (resample resid data d) (0, 0)) (nth i data (0, 0)) =
  Rabs (nth (nth i (d_perm d) 0%nat) resid 0) * sqrt (fst (nth i (d_weights d) (0, 0)) ^ 2 + snd (nth i (d_weights d) (0, 0)) ^ 2).
Proof.
  intros G Hi [S1 S2]. rewrite (resample_nth resid data d i G Hi). unfold distance. cbn [fst snd].
  set (r := nth (nth i (d_perm d) 0%nat) resid 0). set (w := nth i (d_weights d) (0, 0)). set (sg := nth i (d_signs d) (0, 0)) in *. set (p := nth i data (0, 0)).
  rewrite <- (sqrt_Rsqr_abs r), <- sqrt_mult by (try apply Rle_0_sqr; pose proof (pow2_ge_0 (fst w)); pose proof (pow2_ge_0 (snd w)); lra). f_equal. unfold Rsqr.
  replace ((fst p + r * fst w * fst sg - fst p) ^ 2) with (r * r * fst w ^ 2 * fst sg ^ 2) by ring. replace ((snd p + r * snd w * snd sg - snd p) ^ 2) with (r * r * snd w ^ 2 * snd sg ^ 2) by ring.
  assert (Q1 : fst sg ^ 2 = 1) by (destruct S1 as [-> | ->]; ring). assert (Q2 : snd sg ^ 2 = 1) by (destruct S2 as [-> | ->]; ring). rewrite Q1, Q2. ring.
Qed.

(** The weights of a flat Dirichlet distribution *)
Lemma weight_norm w1 w2 : 0 <= w1 -> 0 <= w2 -> w1 + w2 = 1 -> 1 / sqrt 2 <= sqrt (w1 ^ 2 + w2 ^ 2) <= 1 /\ (0 < w1 -> 0 < w2 -> sqrt (w1 ^ 2 + w2 ^ 2) < 1).
Proof.
  intros H1 H2 E. assert (B : w1 ^ 2 + w2 ^ 2 = 1 - 2 * (w1 * w2)). { replace (w1 ^ 2 + w2 ^ 2) with ((w1 + w2) ^ 2 - 2 * (w1 * w2)) by ring. rewrite E. ring. }
  assert (P : 0 <= w1 * w2) by now apply Rmult_le_pos.
  assert (Q : w1 * w2 <= 1 / 4). { pose proof (pow2_ge_0 (w1 - w2)) as K. replace ((w1 - w2) ^ 2) with ((w1 + w2) ^ 2 - 4 * (w1 * w2)) in K by ring. rewrite E in K. lra. }
  split; [split|].
  - replace (1 / sqrt 2) with (sqrt (1 / 2)). { apply sqrt_le_1; lra. } rewrite sqrt_div_alt by lra. now rewrite sqrt_1.
  - assert (Z : sqrt (w1 ^ 2 + w2 ^ 2) <= sqrt 1) by (apply sqrt_le_1; lra). now rewrite sqrt_1 in Z.
  - intros P1 P2. assert (P' : 0 < w1 * w2) by now apply Rmult_lt_0_compat. assert (Z : sqrt (w1 ^ 2 + w2 ^ 2) < sqrt 1) by (apply sqrt_lt_1; lra). now rewrite sqrt_1 in Z.
Qed.


Lemma residual_zero leastsq l data p : nearest leastsq l data -> In p data -> (exists t, predict l t = p) -> residual l (leastsq l p) p = 0.
Proof.
  intros H Hi Hp. unfold residual, resid_fun. rewrite (H p Hi Hp). cbv zeta. replace ((fst p - fst p) ^ 2 + (snd p - snd p) ^ 2) with 0 by ring. apply sqrt_0.
Qed.

Lemma stderrs_zero eig leastsq data l alpha draws : nearest leastsq l data -> estimate eig data = Some l -> (forall p, In p data -> exists t, predict l t = p) ->
  0 <= alpha < 1 -> draws <> [] -> (forall d, In d draws -> good_draw (length data) d) ->
  estimate_stderrs eig leastsq (Some l) data alpha draws = Ok [Fin 0; Fin 0; Fin 0; Fin 0; Fin 0].
Proof.
  intros HN E HP HA Hd HG. unfold estimate_stderrs. destruct (Rltb_spec alpha 0); [lra|]. destruct (Rleb_spec 1 alpha); [lra|]. cbn [orb]. cbv zeta.
  set (resid := map (fun p => residual l (leastsq l p) p) data).
  assert (Z : forall r, In r resid -> r = 0). { intros r Hr. apply in_map_iff in Hr. destruct Hr as [p [<- Hp]]. apply (residual_zero leastsq l data p HN Hp). now apply HP. }
  assert (FE : map (fun d => estimate eig (resample resid data d)) draws = map (fun _ => Some l) draws).
  { apply map_ext_in. intros d Hdd. rewrite resample_zero; [exact E|now apply HG|exact Z]. }
  rewrite FE. assert (FB : forallb (fun o : option ellipse => match o with Some _ => true | None => false end) (map (fun _ : draw => Some l) draws) = true).
  { apply forallb_forall. intros o Ho. apply in_map_iff in Ho. destruct Ho as [d [<- _]]. reflexivity. }
  rewrite FB.
  assert (P : forall (get : ellipse -> R) q, 0 <= q <= 100 -> percentile (sort_r (map (fun o : option ellipse => match o with Some l => get l | None => 0 end) (map (fun _ : draw => Some l) draws))) q = get l).
  { intros get q Hq. apply percentile_const; [|intros y Hy|exact Hq].
    - destruct draws; [congruence|discriminate].
    - rewrite map_map in Hy. apply in_map_iff in Hy. destruct Hy as [d [<- _]]. reflexivity. }
  rewrite !P by lra. repeat (f_equal; try ring).
Qed.

Lemma fdiv_rt2 x : fdiv (Fin x) (Fin (sqrt 2)) = Fin (x / sqrt 2).
Proof. cbn [fdiv]. destruct (Reqb_spec (sqrt 2) 0) as [Z|_]; [|reflexivity]. exfalso. assert (0 < sqrt 2) by (apply sqrt_lt_R0; lra). lra. Qed.

Lemma fit_exact eig leastsq data k alpha draws : (forall l, estimate eig data = Some l -> nearest leastsq l data) -> determine data k -> is_ellipse k -> ~ tilted45 k -> (forall m, reduced data = Some m -> eigenbasis m (eig m)) ->
  0 <= alpha < 1 -> draws <> [] -> (forall d, In d draws -> good_draw (length data) d) ->
  exists l, estimate eig data = Some l /\ fit_2D_ellipse eig leastsq data alpha draws = (Fin (l_b l / sqrt 2), Fin (l_a l / sqrt 2), Fin 0, Fin 0).
Proof.
  intros HN HD HE NT HG HA Hd Hdr. destruct (recover_ellipse eig data k HD HE NT HG) as [l [E [_ [_ [_ ON]]]]]. exists l. split; [exact E|].
  unfold fit_2D_ellipse. cbv zeta. rewrite E, (stderrs_zero eig leastsq data l alpha draws (HN l E) E); try assumption.
  - cbn [nth]. rewrite !fdiv_rt2. replace (0 / sqrt 2) with 0 by (unfold Rdiv; ring). reflexivity.
  - intros p Hp. apply ON. now apply HD.
Qed.

(** ** A Gaussian autocorrelation image *)
Definition gauss_conic (sx sy : R) : conic := mk_conic (/ (2 * sx ^ 2)) 0 (/ (2 * sy ^ 2)) 0 0 (-1).

Lemma gauss_on sx sy p : gauss_contour sx sy p <-> on_conic (gauss_conic sx sy) p.
Proof.
  unfold gauss_contour, on_conic, conic_value, gauss_conic. cbn [k_A k_B k_C k_D k_F k_G]. split.
  - intros H. apply exp_inv in H. unfold Rdiv in H. lra.
  - intros H. f_equal. unfold Rdiv. lra.
Qed.

Lemma gauss_ellipse sx sy : 0 < sx -> 0 < sy -> is_ellipse (gauss_conic sx sy).
Proof.
  intros Hx Hy. assert (0 < sx ^ 2) by now apply pow_lt. assert (0 < sy ^ 2) by now apply pow_lt. split.
  - unfold elliptic, gauss_conic. cbn [k_A k_B k_C]. assert (0 < / (2 * sx ^ 2) * / (2 * sy ^ 2)) by (apply Rmult_lt_0_compat; apply Rinv_0_lt_compat; lra). lra.
  - assert (R2 : sqrt 2 * sqrt 2 = 2) by (apply sqrt_sqrt; lra). assert (P2 : 0 < sqrt 2) by (apply sqrt_lt_R0; lra).
    exists (sqrt 2 * sx, 0), (- (sqrt 2 * sx), 0). unfold on_conic, conic_value, gauss_conic. cbn [k_A k_B k_C k_D k_F k_G fst snd]. split; [|split].
    + replace ((sqrt 2 * sx) ^ 2) with (sqrt 2 * sqrt 2 * sx ^ 2) by ring. rewrite R2. field. lra.
    + replace ((- (sqrt 2 * sx)) ^ 2) with (sqrt 2 * sqrt 2 * sx ^ 2) by ring. rewrite R2. field. lra.
    + intros Z. apply (f_equal fst) in Z. cbn [fst] in Z. assert (0 < sqrt 2 * sx) by now apply Rmult_lt_0_compat. lra.
Qed.

Lemma gauss_size sx sy s : 0 < sx -> 0 < sy -> s <> 0 -> let l := params_of (times s (gauss_conic sx sy)) in l_a l ^ 2 + l_b l ^ 2 = 2 * (sx ^ 2 + sy ^ 2).
Proof.
  intros Hx Hy Hs l. pose proof (gauss_ellipse sx sy Hx Hy) as HE. pose proof (axes_sum _ (ellipse_times s _ Hs HE)) as A. fold l in A.
  destruct (params_times_centre s _ Hs (proj1 HE)) as [X Y].
  assert (X0 : l_x (params_of (gauss_conic sx sy)) = 0). { unfold params_of, conic_params, gauss_conic. cbv zeta. cbn [l_x k_A k_B k_C k_D k_F k_G]. unfold Rdiv. ring. }
  assert (Y0 : l_y (params_of (gauss_conic sx sy)) = 0). { unfold params_of, conic_params, gauss_conic. cbv zeta. cbn [l_y k_A k_B k_C k_D k_F k_G]. unfold Rdiv. ring. }
  assert (L : level (times s (gauss_conic sx sy)) = s). { unfold level. rewrite X, Y, X0, Y0. unfold conic_value, times, gauss_conic. cbn [k_A k_B k_C k_D k_F k_G fst snd]. ring. }
  rewrite L in A. unfold hb, times, gauss_conic in A. cbn [k_A k_B k_C] in A.
  assert (P1 : sx <> 0) by lra. assert (P2 : sy <> 0) by lra.
  set (T := l_a l ^ 2 + l_b l ^ 2) in *.
  assert (A' : T * (s * s / (4 * sx ^ 2 * sy ^ 2)) = 2 * (sx ^ 2 + sy ^ 2) * (s * s / (4 * sx ^ 2 * sy ^ 2))).
  { transitivity (T * (s * / (2 * sx ^ 2) * (s * / (2 * sy ^ 2)) - (s * 0 / 2) ^ 2)); [field; auto|]. rewrite A. field. auto. }
  apply Rmult_eq_reg_r in A'; [exact A'|]. unfold Rdiv. apply Rmult_integral_contrapositive; split.
  - now apply Rmult_integral_contrapositive.
  - apply Rinv_neq_0_compat. apply Rmult_integral_contrapositive_currified; [apply Rmult_integral_contrapositive_currified; [lra|]|]; now apply pow_nonzero.
Qed.

Lemma gauss_width eig leastsq (data : list point) sx sy alpha draws (others1 others2 : list (bool * list point)) : (forall l, estimate eig data = Some l -> nearest leastsq l data) -> 0 < sx -> 0 < sy ->
  (forall p, In p data -> gauss_contour sx sy p) -> one_conic data -> (forall m, reduced data = Some m -> eigenbasis m (eig m)) ->
  0 <= alpha < 1 -> draws <> [] -> (forall d, In d draws -> good_draw (length data) d) ->
  (forall o, In o others1 -> fst o = false) ->
  contour_width eig leastsq (others1 ++ (true, data) :: others2) alpha draws 0 = (Fin (sqrt (sx ^ 2 + sy ^ 2)), Fin 0).
Proof.
  intros HN Hx Hy HP H1 HG HA Hd Hdr HO.
  assert (HD : determine data (gauss_conic sx sy)).
  { split; [intros p Hp; now apply gauss_on, HP|]. intros k' Hk'. apply (H1 (gauss_conic sx sy)); [intros p Hp; now apply gauss_on, HP|exact Hk'|]. intros Z. unfold gauss_conic in Z. injection Z. intros. lra. }
  pose proof (gauss_ellipse sx sy Hx Hy) as HE.
  assert (NT : ~ tilted45 (gauss_conic sx sy)). { intros [_ Z]. apply Z. reflexivity. }
  assert (FL : filter fst (others1 ++ (true, data) :: others2) = (true, data) :: filter fst others2).
  { rewrite filter_app. cbn [filter fst]. replace (filter fst others1) with (@nil (bool * list point)); [reflexivity|]. symmetry. revert HO. clear. induction others1 as [|o l IH]; intros H; [reflexivity|]. cbn [filter]. rewrite (H o (or_introl eq_refl)). apply IH. intros o' Ho'. apply H. now right. }
  unfold contour_width. rewrite FL. cbn [snd].
  destruct (fit_exact eig leastsq data _ alpha draws HN HD HE NT HG HA Hd Hdr) as [l [E F]]. rewrite F.
  destruct (recover eig data _ HD HE HG) as [s [Ns E2]]. rewrite E in E2. injection E2 as ->.
  pose proof (gauss_size sx sy s Hx Hy Ns) as G. cbv zeta in G. set (l := params_of _) in *.
  pose proof (axes _ (ellipse_times s _ Ns HE)) as (PA&PB&_&_). fold l in PA, PB.
  assert (P2 : 0 < sqrt 2) by (apply sqrt_lt_R0; lra). assert (R2 : sqrt 2 * sqrt 2 = 2) by (apply sqrt_sqrt; lra).
  unfold combine_widths. cbv zeta. unfold fsub, fsqr. cbn [fneg fadd fmul fabs].
  assert (SQ : (l_b l / sqrt 2 + - 0) * (l_b l / sqrt 2 + - 0) + (l_a l / sqrt 2 + - 0) * (l_a l / sqrt 2 + - 0) = sx ^ 2 + sy ^ 2).
  { transitivity ((l_a l ^ 2 + l_b l ^ 2) / (sqrt 2 * sqrt 2)); [field; lra|]. rewrite R2, G. field. }
  rewrite SQ. assert (0 < sx ^ 2) by now apply pow_lt. assert (0 < sy ^ 2) by now apply pow_lt. rewrite fsqrt_fin by lra. f_equal.
  set (z := _ + _). replace z with 0 by (unfold z; ring). rewrite fsqrt_fin by lra. rewrite sqrt_0. cbn [fdiv].
  assert (0 < sqrt (sx ^ 2 + sy ^ 2)) by (apply sqrt_lt_R0; lra). destruct (Reqb_spec (sqrt (sx ^ 2 + sy ^ 2)) 0); [lra|]. f_equal. unfold Rdiv. ring.
Qed.

(** ** Failures *)
Lemma combine_nan t : combine_widths (Fin t) NaN NaN NaN NaN = (NaN, NaN).
Proof. reflexivity. Qed.

Lemma fit_failed eig leastsq pts alpha draws : estimate eig pts = None -> fit_2D_ellipse eig leastsq pts alpha draws = (NaN, NaN, NaN, NaN).
Proof. intros E. unfold fit_2D_ellipse. cbv zeta. rewrite E. reflexivity. Qed.

Lemma bad_alpha eig leastsq pts alpha draws : alpha < 0 \/ 1 <= alpha -> fit_2D_ellipse eig leastsq pts alpha draws = (NaN, NaN, NaN, NaN) /\ forall p, estimate_stderrs eig leastsq p pts alpha draws = Err ValueError.
Proof.
  intros H. assert (B : Rltb alpha 0 || Rleb 1 alpha = true). { destruct (Rltb_spec alpha 0); [reflexivity|]. destruct (Rleb_spec 1 alpha); [reflexivity|]. exfalso. lra. }
  assert (A : forall p, estimate_stderrs eig leastsq p pts alpha draws = Err ValueError). { intros [l|]; unfold estimate_stderrs; [rewrite B|]; reflexivity. }
  split; [|exact A]. unfold fit_2D_ellipse. cbv zeta. rewrite A. reflexivity.
Qed.

Lemma one_failed eig leastsq data l alpha draws d : estimate eig data = Some l -> 0 <= alpha < 1 -> In d draws ->
  estimate eig (resample (map (fun p => residual l (leastsq l p) p) data) data d) = None ->
  fit_2D_ellipse eig leastsq data alpha draws = (Fin (l_b l / sqrt 2), Fin (l_a l / sqrt 2), NaN, NaN).
Proof.
  intros E HA Hd F. unfold fit_2D_ellipse. cbv zeta. rewrite E. unfold estimate_stderrs. destruct (Rltb_spec alpha 0); [lra|]. destruct (Rleb_spec 1 alpha); [lra|]. cbn [orb]. cbv zeta.
  assert (FB : forallb (fun o : option ellipse => match o with Some _ => true | None => false end) (map (fun d => estimate eig (resample (map (fun p => residual l (leastsq l p) p) data) data d)) draws) = false).
  { apply Bool.not_true_is_false. intros T. rewrite forallb_forall in T. specialize (T None). cbn in T. assert (false = true); [apply T|discriminate]. apply in_map_iff. exists d. auto. }
  rewrite FB. cbn [nth]. rewrite !fdiv_rt2. reflexivity.
Qed.

(** ** Multiples of the eigenvectors *)
Lemma filter_parallel l l' : Forall2 parallel l l' -> Forall2 parallel (filter (fun v => Rltb 0 (cond v)) l) (filter (fun v => Rltb 0 (cond v)) l').
Proof.
  induction 1 as [|u u' l l' [s [Ns ->]] _ IH]; [constructor|]. cbn [filter].
  assert (E : Rltb 0 (cond (vscale s u)) = Rltb 0 (cond u)).
  { assert (C : cond (vscale s u) = (s * s) * cond u) by (destruct u; unfold cond, vscale; cbn; ring). rewrite C. assert (P : 0 < s * s) by now apply Rsqr_pos_lt.
    destruct (Rltb_spec 0 (cond u)) as [G|G]; destruct (Rltb_spec 0 (s * s * cond u)) as [G'|G']; try reflexivity; exfalso.
    - assert (0 < s * s * cond u) by now apply Rmult_lt_0_compat. lra.
    - assert (0 <= s * s * - cond u) by (apply Rmult_le_pos; lra). lra. }
  rewrite E. destruct (Rltb 0 (cond u)); [|exact IH]. constructor; [exists s; auto|exact IH].
Qed.

Lemma estimate_multiples eig eig' data : (forall m, reduced data = Some m -> Forall2 parallel (eig m) (eig' m)) ->
  match estimate eig data, estimate eig' data with
  | None, None => True
  | Some l, Some l' => l_x l' = l_x l /\ l_y l' = l_y l /\ ((l_a l' = l_a l /\ l_b l' = l_b l) \/ (l_a l' = l_b l /\ l_b l' = l_a l))
  | _, _ => False
  end.
Proof.
  intros H. unfold estimate. destruct (reduced data) as [m|] eqn:ER; [|exact I]. specialize (H m eq_refl). apply filter_parallel in H.
  destruct (filter (fun v => Rltb 0 (cond v)) (eig m)) as [|u [|u2 us]] eqn:F.
  - inversion H. exact I.
  - inversion H as [|? u' ? l' P T]; subst. inversion T; subst. apply filter_cond in F. destruct P as [s [Ns ->]]. cbv zeta. fold (linpart data u) (linpart data (vscale s u)).
    set (k := conic_of u (linpart data u)).
    assert (E : elliptic k) by (unfold k, elliptic, conic_of, cond in *; cbn [k_A k_B k_C]; lra).
    assert (K : conic_params (e1 (vscale s u)) (e2 (vscale s u)) (e3 (vscale s u)) (e1 (linpart data (vscale s u))) (e2 (linpart data (vscale s u))) (e3 (linpart data (vscale s u))) = params_of (times s k)).
    { unfold linpart at 1 2 3. rewrite mv_vscale. reflexivity. }
    rewrite K. change (conic_params (e1 u) (e2 u) (e3 u) (e1 (linpart data u)) (e2 (linpart data u)) (e3 (linpart data u))) with (params_of k).
    destruct (params_times s k Ns E) as [X [Y [P N]]]. split; [exact X|]. split; [exact Y|].
    destruct (Rlt_le_dec 0 s) as [G|G]; [left; rewrite (P G); auto|right; apply N; lra].
  - inversion H as [|? ? ? ? ? T]; subst. inversion T; subst. exact I.
Qed.

Lemma nearest_exists l (data : list point) : exists leastsq, nearest leastsq l data.
Proof.
  induction data as [|q data [f IH]].
  - exists (fun _ _ => 0). intros p [].
  - destruct (Classical_Prop.classic (exists t, predict l t = q)) as [[t Ht]|N].
    + exists (fun l p => if Reqb (fst p) (fst q) && Reqb (snd p) (snd q) then t else f l p). intros p Hp E.
      destruct (Reqb_spec (fst p) (fst q)) as [A|A]; destruct (Reqb_spec (snd p) (snd q)) as [B|B]; cbn [andb].
      1: rewrite Ht; destruct p, q; cbn in *; now subst.
      1,2,3: apply IH; [|exact E]; destruct Hp as [->|Hp]; [congruence|exact Hp].
    + exists f. intros p Hp E. apply IH; [|exact E]. destruct Hp as [<-|Hp]; [contradiction|exact Hp].
Qed.
