(** The power of the synthetic cubes. *)
From Coq Require Import Reals List ZArith Arith Bool Lra Lia.
From Coquelicot Require Import Complex.
From Coq Require Import List.
From Verif Require Import Lib.PyBase Lib.RSum Lib.Fl Lib.PySlice Lib.Arr Lib.DFT Lib.DFT2 Lib.DFT3
  Spec.Freq Spec.Fields Model.StatsUtils Model.Psds Model.GenField Proofs.Psds_Proofs Proofs.GenField_Proofs Proofs.GenField3_Proofs.
Import ListNotations.
Local Open Scope R_scope.

Lemma freq_sq_opp N k f f' : (k < N)%nat -> is_freq N k f -> is_freq N (opposite N k) f' -> f' ^ 2 = f ^ 2.
Proof.
  intros Hk Hf Hf'. rewrite opp_val in Hf' by exact Hk. destruct (Nat.eqb_spec k 0) as [->|K0].
  - rewrite (is_freq_inj N 0 f' f); [reflexivity|lia|exact Hf'|exact Hf].
  - destruct (Req_dec f (- (1 / 2))) as [E|E].
    + assert (is_freq N (N - k) (- (1 / 2))).
      { split; [lra|]. destruct Hf as [_ [z Hz]]. exists (- z - 2)%Z. rewrite minus_INR by lia. rewrite minus_IZR, opp_IZR.
        assert (INR N <> 0) by (apply not_0_INR; lia). apply (f_equal (fun v => v)) in Hz. rewrite E in Hz.
        replace ((INR N - INR k) / INR N) with (1 - INR k / INR N) by (field; assumption). lra. }
      rewrite (is_freq_inj N (N - k) f' (- (1 / 2))) by (auto; lia). now rewrite E.
    + rewrite (is_freq_inj N (N - k) f' (- f)); [ring|lia|exact Hf'|]. apply is_freq_neg; auto. lia.
Qed.

(** The generated value at an index of the half map. *)
Lemma raw3_power N p ang a b c fa fb fc : (a < N)%nat -> (b < N)%nat -> (2 * c <= N)%nat -> (c < N)%nat ->
  is_freq N a fa -> is_freq N b fb -> is_freq N c fc -> ~ (a = 0 /\ b = 0 /\ c = 0)%nat ->
  Cnorm2 (raw3 N p ang (a, b, c)) = Rpower (sqrt (fa ^ 2 + fb ^ 2 + fc ^ 2)) (- p).
Proof.
  intros Ha Hb Hc Hc' Fa Fb Fc NZ. unfold raw3. cbn [fst snd]. cbv zeta.
  rewrite (is_freq_inj N a (fftfreq N a) fa) by (auto; try lia; now apply fftfreq_is_freq).
  rewrite (is_freq_inj N b (fftfreq N b) fb) by (auto; try lia; now apply fftfreq_is_freq).
  assert (Ez : rfftfreq N c ^ 2 = fc ^ 2).
  { destruct (Nat.eq_dec (2 * c) N) as [E|E].
    - assert (P : 0 < INR N) by (apply lt_0_INR; lia). assert (is_freq N c (- (1 / 2))).
      { split; [lra|]. exists (-1)%Z. rewrite <- E, mult_INR. assert (0 < INR c) by (apply lt_0_INR; lia). cbn [INR]. field. lra. }
      rewrite (is_freq_inj N c fc (- (1 / 2))) by (auto; lia). unfold rfftfreq. rewrite <- E, mult_INR. assert (0 < INR c) by (apply lt_0_INR; lia). cbn [INR]. field. lra.
    - rewrite (is_freq_inj N c (rfftfreq N c) fc); [reflexivity|lia|apply rfftfreq_is_freq; lia|exact Fc]. }
  rewrite Ez. replace (fb ^ 2 + fa ^ 2 + fc ^ 2) with (fa ^ 2 + fb ^ 2 + fc ^ 2) by ring.
  assert (Pos : 0 < fa ^ 2 + fb ^ 2 + fc ^ 2).
  { pose proof (pow2_ge_0 fa). pose proof (pow2_ge_0 fb). pose proof (pow2_ge_0 fc).
    assert (Q : forall f, f <> 0 -> 0 < f ^ 2) by (intros f Hf; destruct (pow2_ge_0 f) as [|E]; [assumption|]; exfalso; symmetry in E; rewrite <- Rsqr_pow2 in E; apply Rsqr_0_uniq in E; contradiction).
    destruct (Nat.eq_dec a 0) as [A|A]; [destruct (Nat.eq_dec b 0) as [B|B]; [destruct (Nat.eq_dec c 0) as [D|D]; [exfalso; auto|]|]|].
    - pose proof (Q fc (is_freq_nonzero N c fc ltac:(lia) Fc)). lra.
    - pose proof (Q fb (is_freq_nonzero N b fb ltac:(lia) Fb)). lra.
    - pose proof (Q fa (is_freq_nonzero N a fa ltac:(lia) Fa)). lra. }
  apply sqrt_lt_R0 in Pos. destruct (Reqb_spec (sqrt (fa ^ 2 + fb ^ 2 + fc ^ 2)) 0); [lra|].
  rewrite Cnorm2_mult, cis_norm, Cnorm2_RtoC, Rmult_1_r. unfold Rsqr. rewrite <- Rpower_plus. f_equal. field.
Qed.

(** The half map after the symmetrisation. *)
Lemma half3_power N p ang o a b c fa fb fc : (1 <= N)%nat -> Nat.even N = true -> run eqb3 (sym3 N) (raw3 N p ang) = Ok o ->
  (a < N)%nat -> (b < N)%nat -> (2 * c <= N)%nat -> (c < N)%nat ->
  is_freq N a fa -> is_freq N b fb -> is_freq N c fc -> ~ (opposite N a = a /\ opposite N b = b /\ opposite N c = c) ->
  Cnorm2 (o (a, b, c)) = Rpower (sqrt (fa ^ 2 + fb ^ 2 + fc ^ 2)) (- p).
Proof.
  intros HN Ev HR Ha Hb Hc Hc' Fa Fb Fc NS. destruct (sym3_spec N (raw3 N p ang) HN) as [o' [HR' [P1 [P2 [P3 P4]]]]].
  rewrite HR in HR'. apply (f_equal (fun x => match x with Ok y => y | Err _ => o end)) in HR'. subst o'.
  destruct (parity N HN) as [m [Em HP]]. destruct HP as [[_ [EN [Eh Hm]]]|[Ev' _]]; [|congruence].
  assert (O : forall k, (k < N)%nat -> opposite N k = k <-> (k = 0 \/ k = m)%nat).
  { intros k Hk. rewrite opp_val by exact Hk. destruct (Nat.eqb_spec k 0); lia. }
  assert (RAW : forall a b fa fb, (a < N)%nat -> (b < N)%nat -> is_freq N a fa -> is_freq N b fb -> ~ (a = 0 /\ b = 0 /\ c = 0)%nat ->
    Cnorm2 (raw3 N p ang (a, b, c)) = Rpower (sqrt (fa ^ 2 + fb ^ 2 + fc ^ 2)) (- p)) by (intros; apply raw3_power; auto).
  assert (NZ : ~ (a = 0 /\ b = 0 /\ c = 0)%nat). { intros (->&->&->). apply NS. rewrite !O by lia. auto. }
  destruct (Nat.eq_dec c 0) as [C0|C0]; [|destruct (Nat.eq_dec c m) as [Cm|Cm]; [|rewrite P4 by (rewrite ?Em; assumption); now apply RAW]].
  all: assert (CC : c = 0%nat \/ c = np1 N) by (rewrite Em; auto).
  all: assert (NSab : ~ selfconj N a b) by (unfold selfconj; rewrite Em, Ev; intros [[A|[_ A]] [B|[_ B]]]; apply NS; rewrite !O by lia; auto).
  all: assert (D : copied N a b \/ ~ copied N a b) by (unfold copied; rewrite Em, Eh, Ev; clear; lia).
  all: destruct D as [D|D]; [|rewrite P3 by assumption; now apply RAW].
  all: rewrite P1 by assumption; rewrite Cnorm2_conj.
  all: assert (Oa : (opposite N a < N)%nat) by (apply opposite_lt; lia); assert (Ob : (opposite N b < N)%nat) by (apply opposite_lt; lia).
  all: pose proof (fftfreq_is_freq N _ Oa) as Ga; pose proof (fftfreq_is_freq N _ Ob) as Gb.
  all: rewrite (RAW _ _ _ _ Oa Ob Ga Gb); [rewrite (freq_sq_opp N a fa _ Ha Fa Ga), (freq_sq_opp N b fb _ Hb Fb Gb); reflexivity|].
  all: rewrite !opp_val by assumption; destruct (Nat.eqb_spec a 0), (Nat.eqb_spec b 0); lia.
Qed.

Lemma full3_power N p ang o a b c fa fb fc : (1 <= N)%nat -> Nat.even N = true -> run eqb3 (sym3 N) (raw3 N p ang) = Ok o ->
  (a < N)%nat -> (b < N)%nat -> (c < N)%nat ->
  is_freq N a fa -> is_freq N b fb -> is_freq N c fc -> ~ (opposite N a = a /\ opposite N b = b /\ opposite N c = c) ->
  Cnorm2 (full3 N o a b c) = Rpower (sqrt (fa ^ 2 + fb ^ 2 + fc ^ 2)) (- p).
Proof.
  intros HN Ev HR Ha Hb Hc Fa Fb Fc NS. unfold full3, extend.
  destruct (parity N HN) as [m [Em HP]]. destruct HP as [[_ [EN [Eh Hm]]]|[Ev' _]]; [|congruence].
  rewrite Em. destruct (Nat.ltb_spec c (S m)) as [L|L]; [apply (half3_power N p ang); auto; lia|].
  rewrite Cnorm2_conj. unfold op2. cbn [fst snd].
  assert (Oa : (opposite N a < N)%nat) by (apply opposite_lt; lia). assert (Ob : (opposite N b < N)%nat) by (apply opposite_lt; lia).
  pose proof (fftfreq_is_freq N _ Oa) as Ga. pose proof (fftfreq_is_freq N _ Ob) as Gb.
  assert (Oc : (N - c)%nat = opposite N c) by (rewrite opp_val by exact Hc; destruct (Nat.eqb_spec c 0); lia).
  assert (Gc : is_freq N (N - c) (fftfreq N (N - c))) by (apply fftfreq_is_freq; lia).
  rewrite (half3_power N p ang o (opposite N a) (opposite N b) (N - c)%nat _ _ _ HN Ev HR Oa Ob ltac:(lia) ltac:(lia) Ga Gb Gc).
  - rewrite (freq_sq_opp N a fa _ Ha Fa Ga), (freq_sq_opp N b fb _ Hb Fb Gb). rewrite (freq_sq_opp N c fc (fftfreq N (N - c)) Hc Fc); [reflexivity|]. rewrite <- Oc. exact Gc.
  - rewrite (opp_val N (N - c)) by lia. intros (_&_&E). destruct (Nat.eqb_spec (N - c) 0); lia.
Qed.

Lemma dft3_scal n0 n1 n2 (s : R) v k0 k1 k2 : dft3 n0 n1 n2 (fun i j k => RtoC (s * v i j k)) k0 k1 k2 = Cmult (RtoC s) (dft3 n0 n1 n2 (fun i j k => RtoC (v i j k)) k0 k1 k2).
Proof.
  unfold dft3. rewrite <- csum_scal. apply csum_ext. intros i _. rewrite <- csum_scal. apply csum_ext. intros j _. rewrite <- csum_scal. apply csum_ext. intros k _.
  rewrite RtoC_mult. ring.
Qed.

(** The power of the cube that is returned. *)
Lemma cube_power N p amp ang cube : (4 <= N)%nat -> Nat.even N = true -> amp <> 0 -> make_3dfield N p amp ang = Ok cube ->
  exists K, 0 < K /\ forall v a b c fa fb fc,
  (forall i j k, (i < N)%nat -> (j < N)%nat -> (k < N)%nat -> nth k (nth j (nth i cube []) []) NaN = Fin (v i j k)) ->
  (a < N)%nat -> (b < N)%nat -> (c < N)%nat -> is_freq N a fa -> is_freq N b fb -> is_freq N c fc ->
  (opposite N a, opposite N b, opposite N c) <> (a, b, c) ->
  Cnorm2 (dft3 N N N (fun i j k => RtoC (v i j k)) a b c) = K * Rpower (sqrt (fa ^ 2 + fb ^ 2 + fc ^ 2)) (- p).
Proof.
  intros HN Ev Ha HC. assert (HN1 : (1 <= N)%nat) by lia. destruct (output3_ok N p ang HN1) as [o [E HR]].
  unfold make_3dfield in HC. rewrite E in HC. cbn [bind] in HC.
  destruct (parity N HN1) as [m [Em HP]]. destruct HP as [[_ [EN [Eh Hm]]]|[Ev' _]]; [|congruence].
  replace (2 * (S (np1 N) - 1))%nat with N in HC by lia. destruct (Nat.eqb_spec N 0); [lia|]. cbv zeta in HC.
  pose proof (energy_pos N p ang o HN Ev HR) as P. fold (energy N N (irfftn_at N (S (np1 N)) o)) in HC.
  set (f := irfftn_at N (S (np1 N)) o) in *. set (S0 := energy N N f) in *. set (sz := INR (N * N * N)) in *.
  assert (Psz : 0 < sz) by (apply lt_0_INR; nia).
  assert (Q1 : 0 < sqrt S0) by now apply sqrt_lt_R0. assert (Q2 : 0 < sqrt sz) by now apply sqrt_lt_R0.
  set (sc := sqrt S0 / sqrt sz / amp) in *.
  assert (Hsc : sc <> 0).
  { unfold sc. intros Z. apply Rmult_integral in Z. destruct Z as [Z|Z]; [|now apply (Rinv_neq_0_compat amp)].
    assert (0 < sqrt S0 / sqrt sz) by now apply Rdiv_lt_0_compat. unfold Rdiv in *. lra. }
  assert (Efd : fdiv (Fin (sqrt S0 / sqrt sz)) (Fin amp) = Fin sc) by (cbn [fdiv]; destruct (Reqb_spec amp 0); [contradiction|reflexivity]).
  rewrite Efd in HC.
  exists ((/ sc)²). split; [apply Rlt_0_sqr, Rinv_neq_0_compat, Hsc|]. intros v a b c fa fb fc V La Lb Lc Fa Fb Fc NS.
  rewrite (dft3_ext N N N _ (fun i j k => RtoC (/ sc * f i j k))).
  - rewrite dft3_scal. rewrite Cnorm2_mult, Cnorm2_RtoC. f_equal.
    pose proof (proj2 (cube_fourier N p ang o a b c HN1 Ev E La Lb Lc)) as CF. fold f in CF. rewrite CF.
    apply (full3_power N p ang); auto. intros (X&Y&Z). apply NS. congruence.
  - intros i j k Hi Hj Hk. f_equal. specialize (V i j k Hi Hj Hk). injection HC as <-. unfold tab3, tab2 in V. rewrite tab1_nth in V by exact Hi. rewrite tab1_nth in V by exact Hj. rewrite tab1_nth in V by exact Hk.
    cbn [fdiv] in V. destruct (Reqb_spec sc 0); [contradiction|]. injection V as <-. field. exact Hsc.
Qed.
