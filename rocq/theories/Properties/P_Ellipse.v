(** Properties C206-C213: the ellipse fitted to an autocorrelation contour. *)
From Coq Require Import Reals List Arith Lra Lia Permutation.
From Verif Require Import Lib.PyBase Lib.RSum Lib.Fl Lib.Mat3 Spec.Conic Model.PcaFit Model.Ellipse Spec.EllipseFit
  Proofs.Ellipse_Proofs Proofs.Ellipse2_Proofs Proofs.Ellipse3_Proofs Proofs.Ellipse4_Proofs Proofs.Ellipse5_Proofs Proofs.EllipseEx_Proofs.
Import ListNotations.
Local Open Scope R_scope.

(** C206, what holds: from points that determine an ellipse whose axes are not along the
    diagonals, the fit gives that ellipse: its centre, and predict_xy runs over its points
    and no others. *)
Theorem C206_recovery_partial : forall eig data k, determine data k -> is_ellipse k -> ~ tilted45 k -> solves eig data ->
  exists l, estimate eig data = Some l /\ 0 < l_a l /\ 0 < l_b l /\ centre_of k (l_x l, l_y l) /\
    forall p, on_conic k p <-> exists t, predict l t = p.
Proof. exact recover_ellipse. Qed.
Print Assumptions C206_recovery_partial.

Example C206_applies : determine ex_pts ex_conic /\ is_ellipse ex_conic /\ ~ tilted45 ex_conic /\ solves ex_eig ex_pts /\ length ex_pts = 6%nat.
Proof. exact (conj ex_determine (conj ex_ellipse (conj ex_not_tilted (conj ex_solves eq_refl)))). Qed.

(** C206 fails: for every ellipse with axes along the diagonals the fitted one is another. *)
Theorem C206_refuted : forall eig data k, determine data k -> is_ellipse k -> tilted45 k -> solves eig data ->
  exists l, estimate eig data = Some l /\ ~ on_conic k (predict l 0).
Proof. exact recover_tilted. Qed.
Print Assumptions C206_refuted.

Example C206_refuted_applies : determine ex_tilt ex_tconic /\ is_ellipse ex_tconic /\ tilted45 ex_tconic /\ solves ex_teig ex_tilt.
Proof. exact (conj ext_determine (conj ext_ellipse (conj ext_tilted ext_solves))). Qed.

(** C207: whatever the points, a fit that succeeds is that of the ellipse conic with the
    least sum of squares among all conics of the same discriminant. *)
Theorem C207_least_squares : forall eig data l,
  (forall m u, reduced data = Some m -> In u (eig m) -> eigenvector m u) -> estimate eig data = Some l ->
  exists k, elliptic k /\
    (forall k', discriminant k' = discriminant k -> algebraic data k <= algebraic data k') /\
    centre_of k (l_x l, l_y l) /\
    (is_ellipse k -> 0 < l_a l /\ 0 < l_b l /\ (~ tilted45 k -> forall p, on_conic k p <-> exists t, predict l t = p)).
Proof.
  intros eig data l HE H. destruct (least_squares eig data l HE H) as [k [E [-> B]]]. exists k. split; [exact E|]. split; [exact B|]. split; [now apply centre|].
  intros I. destruct (axes k I) as (A1&A2&_). split; [exact A1|]. split; [exact A2|]. intros NT p. split; [now apply all_predicted|]. intros [t <-]. now apply predicted_on.
Qed.
Print Assumptions C207_least_squares.

Example C207_applies : (forall m u, reduced ex_noisy = Some m -> In u (ex_eig m) -> eigenvector m u) /\ exists l, estimate ex_eig ex_noisy = Some l.
Proof.
  split; [|exact (estimate_succeeds ex_eig ex_noisy exn_no_conic exn_not_line exn_solves)].
  intros m u Hm Hu. destruct (exn_solves m Hm) as [u1 [u2 [u3 [_ [_ K]]]]]. exact (K u Hu).
Qed.

(** C208: the fit succeeds for all points that are not on one line nor on one conic, and
    gives no widths for points on one line. *)
Theorem C208_success : forall eig data, ~ on_some_conic data -> ~ collinear data -> solves eig data -> exists l, estimate eig data = Some l.
Proof. exact estimate_succeeds. Qed.
Print Assumptions C208_success.

Theorem C208_line : forall eig leastsq data alpha draws, collinear data ->
  estimate eig data = None /\ fit_2D_ellipse eig leastsq data alpha draws = (NaN, NaN, NaN, NaN).
Proof. intros eig leastsq data alpha draws H. pose proof (collinear_None eig data H) as E. exact (conj E (fit_failed eig leastsq data alpha draws E)). Qed.
Print Assumptions C208_line.

Example C208_applies : ~ on_some_conic ex_noisy /\ ~ collinear ex_noisy /\ solves ex_eig ex_noisy /\ collinear [(0, 1); (1, 3); (2, 5); (3, 7)].
Proof.
  split; [exact exn_no_conic|]. split; [exact exn_not_line|]. split; [exact exn_solves|]. exists 2, (-1), 1. split; [left; lra|].
  intros p [<-|[<-|[<-|[<-|[]]]]]; cbn; lra.
Qed.

(** C209: the order of the points does not matter; moving the points moves the centre;
    changing the scale changes centre and axes in proportion. *)
Theorem C209_order : forall eig data data', Permutation data data' -> estimate eig data = estimate eig data'.
Proof. exact estimate_perm. Qed.
Print Assumptions C209_order.

Theorem C209_position : forall eig p q data,
  estimate eig (map (shifted p q) data) =
  option_map (fun l => mk_ell (l_x l + p) (l_y l + q) (l_a l) (l_b l) (l_theta l)) (estimate eig data).
Proof. exact estimate_shift. Qed.
Print Assumptions C209_position.

Theorem C209_scale : forall eig s data, s <> 0 -> (forall m, eig (mscale (s ^ 4) m) = eig m) ->
  estimate eig (map (stretched s) data) =
  option_map (fun l => mk_ell (s * l_x l) (s * l_y l) (Rabs s * l_a l) (Rabs s * l_b l) (l_theta l)) (estimate eig data).
Proof. exact estimate_dilate. Qed.
Print Assumptions C209_scale.

Example C209_applies : Permutation ex_noisy (rev ex_noisy) /\ (forall m, ex_eig (mscale (2 ^ 4) m) = ex_eig m) /\ exists l, estimate ex_eig ex_noisy = Some l.
Proof. exact (conj (Permutation_rev ex_noisy) (conj (fun _ => eq_refl) (proj2 C207_applies))). Qed.

(** C210 fails: for every ellipse that is not a circle there is a correct answer of the
    eigenvalue solver for which the first axis is the shorter one. *)
Theorem C210_refuted : forall eig data k, determine data k -> is_ellipse k -> ~ (k_A k = k_C k /\ k_B k = 0) -> solves eig data ->
  exists eig' l, solves eig' data /\ estimate eig' data = Some l /\ l_a l < l_b l.
Proof. exact axis_order. Qed.
Print Assumptions C210_refuted.

Example C210_refuted_applies : determine ex_pts ex_conic /\ is_ellipse ex_conic /\ ~ (k_A ex_conic = k_C ex_conic /\ k_B ex_conic = 0) /\ solves ex_eig ex_pts.
Proof. refine (conj ex_determine (conj ex_ellipse (conj _ ex_solves))). cbn. lra. Qed.

(** C210, what holds: multiplying the eigenvectors by numbers at most swaps the two axes. *)
Theorem C210_sign_partial : forall eig eig' data, (forall m, reduced data = Some m -> Forall2 parallel (eig m) (eig' m)) ->
  match estimate eig data, estimate eig' data with
  | None, None => True
  | Some l, Some l' => l_x l' = l_x l /\ l_y l' = l_y l /\ ((l_a l' = l_a l /\ l_b l' = l_b l) \/ (l_a l' = l_b l /\ l_b l' = l_a l))
  | _, _ => False
  end.
Proof. exact estimate_multiples. Qed.
Print Assumptions C210_sign_partial.

Example C210_applies : forall m, Forall2 parallel (ex_eig m) [V (-1) 0 (-3); V 0 2 0; V 1 0 (-3)].
Proof.
  intros m. unfold ex_eig. constructor; [exists (-1)|constructor; [exists 2|constructor; [exists 1|constructor]]]; (split; [lra|]); unfold vscale; cbn [e1 e2 e3]; apply v3_eq; ring.
Qed.

(** C211: for the 1/e contour of a Gaussian the width is the root of the sum of the squared
    standard deviations, with no error; contours that do not contain the origin are
    ignored, and without any other there is no width. *)
Theorem C211_gaussian : forall eig leastsq data sx sy alpha draws others1 others2,
  (forall l, estimate eig data = Some l -> nearest leastsq l data) -> 0 < sx -> 0 < sy ->
  (forall p, In p data -> gauss_contour sx sy p) -> one_conic data -> solves eig data ->
  0 <= alpha < 1 -> draws <> [] -> (forall d, In d draws -> good_draw (length data) d) ->
  (forall o, In o others1 -> fst o = false) ->
  contour_width eig leastsq (others1 ++ (true, data) :: others2) alpha draws 0 = (Fin (sqrt (sx ^ 2 + sy ^ 2)), Fin 0).
Proof. exact gauss_width. Qed.
Print Assumptions C211_gaussian.

Theorem C211_none : forall eig leastsq paths alpha draws term2, (forall o, In o paths -> fst o = false) ->
  contour_width eig leastsq paths alpha draws term2 = (NaN, NaN).
Proof.
  intros eig leastsq paths alpha draws term2 H. unfold contour_width. replace (filter fst paths) with (@nil (bool * list point)); [reflexivity|].
  symmetry. induction paths as [|o l IH]; [reflexivity|]. cbn [filter]. rewrite (H o (or_introl eq_refl)). apply IH. intros o' Ho. apply H. now right.
Qed.
Print Assumptions C211_none.

Example C211_applies : (forall p, In p ex_pts -> gauss_contour (sqrt 2) (sqrt (2 / 3)) p) /\ one_conic ex_pts /\ solves ex_eig ex_pts /\ good_draw (length ex_pts) ex_draw /\
  exists leastsq, forall l, estimate ex_eig ex_pts = Some l -> nearest leastsq l ex_pts.
Proof.
  split; [exact ex_gauss|]. split; [exact ex_one|]. split; [exact ex_solves|]. split; [exact ex_good|].
  destruct (estimate ex_eig ex_pts) as [l|]; [|exists (fun _ _ => 0); discriminate]. destruct (nearest_exists l ex_pts) as [f Hf]. exists f. intros l' E. injection E as <-. exact Hf.
Qed.

(** C212, what holds: the errors vanish for points on an ellipse that is found. *)
Theorem C212_exact_partial : forall eig leastsq data l alpha draws, nearest leastsq l data -> estimate eig data = Some l ->
  (forall p, In p data -> exists t, predict l t = p) -> 0 <= alpha < 1 -> draws <> [] -> (forall d, In d draws -> good_draw (length data) d) ->
  estimate_stderrs eig leastsq (Some l) data alpha draws = Ok [Fin 0; Fin 0; Fin 0; Fin 0; Fin 0].
Proof. exact stderrs_zero. Qed.
Print Assumptions C212_exact_partial.

(** C212, what holds: resampling keeps the number of points, and moves each by between
    1/sqrt(2) of a residual and the residual. *)
Theorem C212_distance_partial : forall resid data d i, good_draw (length data) d -> (i < length data)%nat ->
  sign_pair (nth i (d_signs d) (0, 0)) -> weight_pair (nth i (d_weights d) (0, 0)) ->
  let r := Rabs (nth (nth i (d_perm d) 0%nat) resid 0) in
  length (resample resid data d) = length data /\
  r / sqrt 2 <= distance (nth i (resample resid data d) (0, 0)) (nth i data (0, 0)) <= r.
Proof.
  intros resid data d i G Hi S [W1 [W2 W]] r. split; [now apply resample_length|]. rewrite (resample_distance resid data d i G Hi S). fold r.
  destruct (weight_norm _ _ W1 W2 W) as [[A B] _]. pose proof (Rabs_pos (nth (nth i (d_perm d) 0%nat) resid 0)) as P. fold r in P. split.
  - unfold Rdiv in *. rewrite Rmult_1_l in A. now apply Rmult_le_compat_l.
  - rewrite <- (Rmult_1_r r) at 2. now apply Rmult_le_compat_l.
Qed.
Print Assumptions C212_distance_partial.

(** C212 fails: the displacement is shorter than the residual unless a weight is 0. *)
Theorem C212_refuted : forall resid data d i, good_draw (length data) d -> (i < length data)%nat ->
  sign_pair (nth i (d_signs d) (0, 0)) -> weight_pair (nth i (d_weights d) (0, 0)) ->
  0 < fst (nth i (d_weights d) (0, 0)) -> 0 < snd (nth i (d_weights d) (0, 0)) -> nth (nth i (d_perm d) 0%nat) resid 0 <> 0 ->
  distance (nth i (resample resid data d) (0, 0)) (nth i data (0, 0)) < Rabs (nth (nth i (d_perm d) 0%nat) resid 0).
Proof.
  intros resid data d i G Hi S [W1 [W2 W]] P1 P2 N. rewrite (resample_distance resid data d i G Hi S).
  destruct (weight_norm _ _ W1 W2 W) as [_ L]. specialize (L P1 P2). apply Rabs_pos_lt in N.
  rewrite <- (Rmult_1_r (Rabs _)) at 2. now apply Rmult_lt_compat_l.
Qed.
Print Assumptions C212_refuted.

Example C212_applies : good_draw (length ex_pts) ex_draw /\ sign_pair (nth 2 (d_signs ex_draw) (0, 0)) /\ weight_pair (nth 2 (d_weights ex_draw) (0, 0)) /\
  0 < fst (nth 2 (d_weights ex_draw) (0, 0)) /\ 0 < snd (nth 2 (d_weights ex_draw) (0, 0)) /\ nth (nth 2 (d_perm ex_draw) 0%nat) [1; 2; 3; 4; 5; 6] 0 <> 0.
Proof. split; [exact ex_good|]. unfold sign_pair, weight_pair. cbn. repeat split; try lra; auto. Qed.

(** C213, what holds: estimate_stderrs refuses an alpha outside [0, 1). *)
Theorem C213_raises_partial : forall eig leastsq params data alpha draws, alpha < 0 \/ 1 <= alpha ->
  estimate_stderrs eig leastsq params data alpha draws = Err ValueError.
Proof. intros eig leastsq params data alpha draws H. exact (proj2 (bad_alpha eig leastsq data alpha draws H) params). Qed.
Print Assumptions C213_raises_partial.

(** C213 fails: find_spatial_widths(alpha=...) drops all widths instead. *)
Theorem C213_refuted : forall eig leastsq pts others alpha draws term2, alpha < 0 \/ 1 <= alpha ->
  contour_width eig leastsq ((true, pts) :: others) alpha draws term2 = (NaN, NaN).
Proof.
  intros eig leastsq pts others alpha draws term2 H. unfold contour_width. cbn [filter fst snd]. rewrite (proj1 (bad_alpha eig leastsq pts alpha draws H)). reflexivity.
Qed.
Print Assumptions C213_refuted.

Example C213_applies : (1 < 0 \/ 1 <= 1) /\ exists l, estimate ex_eig ex_noisy = Some l.
Proof. split; [right; lra|exact (proj2 C207_applies)]. Qed.
