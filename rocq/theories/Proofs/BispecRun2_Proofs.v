(** Proofs about Model/BispecRun.v: slices for several radii or angles. *)
From Coq Require Import Reals String List ZArith Arith Bool Lia Lra.
From Coquelicot Require Import Complex.
From Verif Require Import Lib.PyBase Lib.Arr Lib.Fl Lib.RSum Lib.Bins Lib.Trig2 Spec.Bins Spec.Waves Spec.BispecRun Model.StatsUtils Model.Psds Model.Units Model.Bispec Model.BispecRun
  Proofs.Fl_Proofs Proofs.Bispec_Proofs Proofs.Bispec3_Proofs Proofs.Moments2_Proofs Proofs.BispecRun_Proofs.
Import ListNotations.
Local Open Scope R_scope.

Lemma each_forall {A B} (f : A -> result B) l bs : each f l = Ok bs <-> Forall2 (fun a b => f a = Ok b) l bs.
Proof.
  revert bs. induction l as [|a l IH]; intros bs; cbn [each].
  - split; [intros H; injection H as <-; constructor|intros H; inversion H; reflexivity].
  - split.
    + destruct (f a) as [b|] eqn:E; [|discriminate]. cbn [bind]. destruct (each f l) as [bs'|] eqn:E'; [|discriminate]. cbn [bind]. intros H. injection H as <-. constructor; [exact E|]. now apply IH.
    + intros H. inversion H as [|a' b l' bs' Hb Hbs]; subst. rewrite Hb. cbn [bind]. apply IH in Hbs. rewrite Hbs. reflexivity.
Qed.
Lemma Forall2_nth {A B} (P : A -> B -> Prop) l m : Forall2 P l m -> forall i a, nth_error l i = Some a -> exists b, nth_error m i = Some b /\ P a b.
Proof. induction 1 as [|a b l m Hab Hlm IH]; intros [|i] x Hx; cbn in *; try discriminate; [injection Hx as <-; now exists b|now apply IH]. Qed.
Lemma Forall2_len {A B} (P : A -> B -> Prop) l m : Forall2 P l m -> length l = length m.
Proof. induction 1; cbn; congruence. Qed.
Lemma Forall2_back {A B} (P : A -> B -> Prop) l m : length l = length m -> (forall i a, nth_error l i = Some a -> exists b, nth_error m i = Some b /\ P a b) -> Forall2 P l m.
Proof.
  revert m. induction l as [|a l IH]; intros [|b m] E H; try discriminate; constructor.
  - destruct (H 0%nat a eq_refl) as [b' [Hb Pb]]. injection Hb as <-. exact Pb.
  - apply IH; [now injection E|]. intros i x Hx. exact (H (S i) x Hx).
Qed.

Section Azimuth.
Variables (hy hx : nat) (o : bobj) (bw : R + quantity) (value : string).
Definition one_slice (surf : nat -> nat -> fl) (b : R) (p : R * width) : result (R * slice) :=
  del <- width_at hx (snd p) ;; s <- slice_bins (linspace 0 PI (Z.to_nat (Int_part (PI / b)))) theta0 (fun q => in_ring (fst p) (del q) (dist0 q)) hy hx surf ;; Ok (fst p, s).
Lemma slices_each radii delta : azimuthal_slices hy hx o radii delta bw value =
  (surf <- surface_of o value ;; pairs <- pair_widths radii delta ;; b <- angle_of bw ;; each (one_slice surf b) pairs).
Proof. reflexivity. Qed.

(** The slices of several radii are those of each radius alone. *)
Theorem azimuthal_each : forall rs radii delta ds, (radii = NList rs \/ radii = NArray rs) -> widths_of (length rs) delta = Some ds -> length ds = length rs ->
  forall l, azimuthal_slices hy hx o radii delta bw value = Ok l -> map fst l = rs /\
  forall i r d, nth_error rs i = Some r -> nth_error ds i = Some d -> exists s, nth_error l i = Some (r, s) /\ azimuthal_slices hy hx o (Number r) (Number d) bw value = Ok [(r, s)].
Proof.
  intros rs radii delta ds HR HD LD l. rewrite slices_each. destruct (surface_of o value) as [surf|] eqn:ES; [|discriminate]. cbn [bind].
  assert (P : exists prs, pair_widths radii delta = Ok prs /\ map fst prs = rs /\ forall i r d, nth_error rs i = Some r -> nth_error ds i = Some d ->
     exists w, nth_error prs i = Some (r, w) /\ width_at hx w = width_at hx (WNum d)).
  { destruct delta as [d0|dl|dl]; cbn [widths_of] in HD.
    - injection HD as <-. exists (map (fun r => (r, WNum d0)) rs). split; [destruct HR as [-> | ->]; reflexivity|]. split; [rewrite map_map; cbn; apply map_id|].
      intros i r d Hr Hd. exists (WNum d0). split; [rewrite nth_error_map, Hr; reflexivity|]. apply nth_error_In in Hd. apply repeat_spec in Hd. now subst.
    - destruct dl as [|d0 [|]]; try discriminate. injection HD as <-. exists (map (fun r => (r, WRow [d0])) rs). split; [destruct HR as [-> | ->]; reflexivity|]. split; [rewrite map_map; cbn; apply map_id|].
      intros i r d Hr Hd. exists (WRow [d0]). split; [rewrite nth_error_map, Hr; reflexivity|]. apply nth_error_In in Hd. apply repeat_spec in Hd. subst. reflexivity.
    - injection HD as ->. exists (combine rs (map WNum ds)). split; [destruct HR as [-> | ->]; cbn [pair_widths]; rewrite LD, Nat.eqb_refl; reflexivity|].
      split.
      + clear -LD. revert ds LD. induction rs as [|r rs IH]; intros [|d ds] LD; try discriminate; [reflexivity|]. cbn. f_equal. apply IH. now injection LD.
      + intros i r d Hr Hd. exists (WNum d). split; [|reflexivity]. clear -Hr Hd. revert ds i Hr Hd. induction rs as [|r' rs IH]; intros [|d' ds] [|i] Hr Hd; try discriminate; cbn in *; [congruence|]. now apply IH. }
  destruct P as (prs&EP&KP&WP). rewrite EP. cbn [bind]. destruct (angle_of bw) as [b|] eqn:EB; [|discriminate]. cbn [bind]. intros HL. apply each_forall in HL.
  split.
  - rewrite <- KP. clear -HL. induction HL as [|p s prs l Hs HL IH]; [reflexivity|]. cbn [map]. rewrite IH. f_equal. unfold one_slice in Hs. destruct (width_at hx (snd p)); [|discriminate]. cbn [bind] in Hs.
    destruct (slice_bins _ _ _ _ _ _); [|discriminate]. cbn [bind] in Hs. injection Hs as <-. reflexivity.
  - intros i r d Hr Hd. destruct (WP i r d Hr Hd) as [w [Hw Ew]]. destruct (Forall2_nth _ _ _ HL i _ Hw) as [q [Hq Fq]]. unfold one_slice in Fq. cbn [fst snd] in Fq. rewrite Ew in Fq. cbn [width_at bind] in Fq.
    destruct (slice_bins _ _ _ _ _ _) as [s|] eqn:EQ; [|discriminate]. cbn [bind] in Fq. injection Fq as <-. exists s. split; [exact Hq|].
    rewrite slices_each, ES. cbn [bind pair_widths row_of combine]. rewrite EB. cbn [bind each]. unfold one_slice. cbn [fst snd width_at bind]. rewrite EQ. reflexivity.
Qed.
End Azimuth.

(** Different numbers of radii and widths are refused when the widths are an array, ... *)
Theorem azimuthal_lengths : forall hy hx o bw value surf rs ds, surface_of o value = Ok surf -> length rs <> length ds ->
  azimuthal_slices hy hx o (NList rs) (NArray ds) bw value = Err ValueError /\ azimuthal_slices hy hx o (NArray rs) (NArray ds) bw value = Err ValueError.
Proof. intros hy hx o bw value surf rs ds ES N. rewrite !slices_each, ES. cbn [bind pair_widths]. destruct (Nat.eqb_spec (length rs) (length ds)); [contradiction|]. split; reflexivity. Qed.
(** ... and a list with one width for each radius is refused, unless it is one for each column, *)
Theorem azimuthal_list : forall hy hx o b value surf r rs ds, surface_of o value = Ok surf -> is_equivalent (q_unit b) rad = true ->
  length ds = length (r :: rs) -> (2 <= length ds)%nat -> length ds <> hx ->
  is_ok (azimuthal_slices hy hx o (NList (r :: rs)) (NList ds) (inr b) value) = false /\ is_ok (azimuthal_slices hy hx o (NArray (r :: rs)) (NList ds) (inr b) value) = false.
Proof.
  intros hy hx o b value surf r rs ds ES EU L L2 N. rewrite !slices_each, ES. cbn [bind pair_widths row_of map]. cbn [angle_of]. rewrite EU. cbn [bind each]. unfold one_slice at 1 3. cbn [fst snd width_at].
  destruct (Nat.eqb_spec (length ds) 1); [lia|]. destruct (Nat.eqb_spec (length ds) hx); [contradiction|]. destruct (Nat.eqb hx 1); cbn [bind]; split; reflexivity.
Qed.
(** ... and widths given for one radius are dropped after the first. *)
Theorem azimuthal_first : forall hy hx o bw value r d ds, azimuthal_slices hy hx o (Number r) (NArray (d :: ds)) bw value = azimuthal_slices hy hx o (Number r) (Number d) bw value.
Proof. reflexivity. Qed.

(** A radius asked for twice has one entry: the later. *)
Theorem azimuthal_twice : forall hy hx o bw value r d1 d2 l, azimuthal_slices hy hx o (NArray [r; r]) (NArray [d1; d2]) bw value = Ok l ->
  exists s1 s2, azimuthal_slices hy hx o (Number r) (Number d1) bw value = Ok [(r, s1)] /\ azimuthal_slices hy hx o (Number r) (Number d2) bw value = Ok [(r, s2)] /\
    lookup l r = Some s2.
Proof.
  intros hy hx o bw value r d1 d2 l H. destruct (azimuthal_each hy hx o bw value [r; r] (NArray [r; r]) (NArray [d1; d2]) [d1; d2] (or_intror eq_refl) eq_refl eq_refl l H) as [K S].
  destruct (S 0%nat r d1 eq_refl eq_refl) as [s1 [N1 E1]]. destruct (S 1%nat r d2 eq_refl eq_refl) as [s2 [N2 E2]]. exists s1, s2. split; [exact E1|]. split; [exact E2|].
  destruct l as [|q1 [|q2 [|q3 l]]]; try discriminate. cbn in N1, N2. injection N1 as ->. injection N2 as ->. cbn [lookup]. destruct (Reqb_spec r r); [reflexivity|contradiction].
Qed.

(** ** Angles *)
Lemma in_rad_same v u v' u' : same_angle v u v' u' -> in_rad v u = in_rad v' u'.
Proof. unfold same_angle, in_rad, Rdiv. intros H. rewrite <- !Rmult_assoc, H. reflexivity. Qed.

Theorem radial_each : forall hy hx o bw value l u dl ud rows, angular u -> angular ud -> length l = length dl ->
  radial_slices hy hx o (QArray l u) (QArray dl ud) bw value = Ok rows -> map fst rows = l /\
  forall i t d t' u' d' ud', nth_error l i = Some t -> nth_error dl i = Some d -> angular u' -> angular ud' -> same_angle t u t' u' -> same_angle d ud d' ud' ->
    exists s, nth_error rows i = Some (t, s) /\ radial_slices hy hx o (QScalar t' u') (QScalar d' ud') bw value = Ok [(t', s)].
Proof.
  intros hy hx o bw value l u dl ud rows HU HD LE. unfold radial_slices. destruct (surface_of o value) as [surf|]; [|discriminate]. cbn [bind pair_angles unit_of]. unfold angular in *. rewrite HU, HD. cbn [andb].
  rewrite map_length, LE, Nat.eqb_refl. cbn [bind]. intros H. apply each_forall in H. split.
  - clear -H LE. revert dl rows LE H. induction l as [|t l IH]; intros [|d dl] rows LE H; try discriminate; cbn [map combine] in H; inversion H as [|a b l' rows' Hb Hr]; subst; [reflexivity|].
    cbn [map]. f_equal.
    + destruct (radial_slice _ _ _ _ _ _); [|discriminate]. cbn [bind fst] in Hb. injection Hb as <-. reflexivity.
    + apply (IH dl); [now injection LE|exact Hr].
  - intros i t d t' u' d' ud' Ht Hd HU' HD' ST SD.
    assert (N : nth_error (combine (map (fun v => (v, in_rad v u)) l) (map (fun v => in_rad v ud) dl)) i = Some (t, in_rad t u, in_rad d ud)).
    { clear -Ht Hd. revert dl i Ht Hd. induction l as [|t' l IH]; intros [|d' dl] [|i] Ht Hd; try discriminate; cbn in *; [congruence|now apply IH]. }
    destruct (Forall2_nth _ _ _ H i _ N) as [q [Hq Fq]]. cbn [fst snd] in Fq. destruct (radial_slice hy hx surf bw (in_rad t u) (in_rad d ud)) as [s|] eqn:E; [|discriminate]. cbn [bind] in Fq. injection Fq as <-.
    exists s. split; [exact Hq|]. rewrite HU', HD'. cbn [andb bind each fst snd]. rewrite <- (in_rad_same _ _ _ _ ST), <- (in_rad_same _ _ _ _ SD), E. reflexivity.
Qed.
Theorem radial_shared : forall hy hx o bw value l u d ud, angular u -> angular ud ->
  radial_slices hy hx o (QArray l u) (QScalar d ud) bw value = radial_slices hy hx o (QArray l u) (QArray (repeat d (length l)) ud) bw value.
Proof.
  intros hy hx o bw value l u d ud HU HD. unfold radial_slices. destruct (surface_of o value) as [surf|]; [|reflexivity]. cbn [bind pair_angles unit_of]. unfold angular in *. rewrite HU, HD. cbn [andb].
  rewrite map_length, repeat_length, Nat.eqb_refl. cbn [bind]. f_equal. induction l as [|t l IH]; [reflexivity|]. cbn [map repeat length combine]. now rewrite IH.
Qed.
Theorem radial_refused : forall hy hx o bw value surf l u dl ud, surface_of o value = Ok surf ->
  (angular u -> angular ud -> length l <> length dl -> radial_slices hy hx o (QArray l u) (QArray dl ud) bw value = Err ValueError) /\
  (~ angular u \/ ~ angular ud -> radial_slices hy hx o (QArray l u) (QArray dl ud) bw value = Err TypeError) /\
  radial_slices hy hx o (QArray l u) Plain bw value = Err TypeError.
Proof.
  intros hy hx o bw value surf l u dl ud ES. unfold radial_slices. rewrite ES. cbn [bind pair_angles unit_of]. unfold angular. split; [|split].
  - intros -> -> N. cbn [andb]. rewrite map_length. destruct (Nat.eqb_spec (length l) (length dl)); [contradiction|reflexivity].
  - intros N. destruct (is_equivalent u rad), (is_equivalent ud rad); try reflexivity. tauto.
  - reflexivity.
Qed.
Theorem radial_plain : forall hy hx o delta bw value surf, surface_of o value = Ok surf -> radial_slices hy hx o Plain delta bw value = Err AttributeError.
Proof. intros hy hx o delta bw value surf ES. unfold radial_slices. rewrite ES. reflexivity. Qed.

(** A surface to slice *)
Definition bowl : bobj := mk_b None (Some (fun i j => Fin (INR (i + j)))) None None.
Definition quarter : R + quantity := inr (mk_q [PI / 4] rad).
Lemma floor_nat x n : INR n <= x < INR n + 1 -> Z.to_nat (Int_part x) = n.
Proof. intros H. rewrite (Int_val x (Z.of_nat n)); [apply Nat2Z.id|]. now rewrite <- INR_IZR_INZ. Qed.
Lemma four_edges : Z.to_nat (Int_part (PI / (PI / 4 * (u_factor rad / u_factor rad)))) = 4%nat.
Proof.
  pose proof PI_RGT_0. assert (F : u_factor rad <> 0) by (cbn; apply Rgt_not_eq, Rdiv_lt_0_compat; lra).
  apply floor_nat. replace (PI / (PI / 4 * (u_factor rad / u_factor rad))) with 4 by (field; split; [exact F|lra]). cbn [INR]. lra.
Qed.
Theorem bowl_slices : exists l, azimuthal_slices 4 5 bowl (NList [1; 3]) (NArray [1; 2]) quarter "bicoherence" = Ok l.
Proof. unfold azimuthal_slices, surface_of, quarter, angle_of. cbn [String.eqb Ascii.eqb Bool.eqb bowl b_bicoherence bind pair_widths length Nat.eqb q_unit q_vals hd]. change (is_equivalent rad rad) with true. cbv iota. cbn [bind].
  rewrite four_edges. cbn [combine map each fst snd width_at bind]. unfold slice_bins. cbn [linspace seq map length Nat.ltb Nat.leb]. cbn [bind]. eexists. reflexivity. Qed.
Theorem bowl_radial : exists l, radial_slices 4 5 bowl (QArray [30; 60] deg) (QScalar 20 deg) (3 / 2) "bicoherence" = Ok l.
Proof.
  assert (B : forall t d, exists r, radial_slice 4 5 (fun i j => Fin (INR (i + j))) (3 / 2) t d = Ok r).
  { intros t d. destruct (radial_value 4 5 (fun i j => Fin (INR (i + j))) (fun i j => INR (i + j)) (3 / 2) t d 3 5) as (ed&me&st&E&_); try lia; try lra.
    - cbn [Nat.sub]. replace (INR 3 ^ 2 + INR 4 ^ 2) with (5 * 5) by (cbn [INR]; ring). symmetry. apply sqrt_square. lra.
    - cbn [INR]. lra.
    - congruence.
    - eexists. exact E. }
  unfold radial_slices, surface_of. cbn [String.eqb Ascii.eqb Bool.eqb bowl b_bicoherence bind pair_angles unit_of]. change (is_equivalent deg rad) with true. cbn [andb map bind each fst snd].
  destruct (B (in_rad 30 deg) (in_rad 20 deg)) as [r1 ->]. destruct (B (in_rad 60 deg) (in_rad 20 deg)) as [r2 ->]. cbn [bind]. eexists. reflexivity.
Qed.

Theorem slice_surface hy hx o radii delta bq thetas deltas bw :
  (forall o' s, b_logamp o = Some s -> b_bicoherence o' = Some s ->
    azimuthal_slices hy hx o radii delta bq "bispectrum_logamp" = azimuthal_slices hy hx o' radii delta bq "bicoherence" /\
    radial_slices hy hx o thetas deltas bw "bispectrum_logamp" = radial_slices hy hx o' thetas deltas bw "bicoherence") /\
  (b_logamp o = None -> azimuthal_slices hy hx o radii delta bq "bispectrum_logamp" = Err AttributeError /\ radial_slices hy hx o thetas deltas bw "bispectrum_logamp" = Err AttributeError) /\
  (b_bicoherence o = None -> azimuthal_slices hy hx o radii delta bq "bicoherence" = Err AttributeError /\ radial_slices hy hx o thetas deltas bw "bicoherence" = Err AttributeError) /\
  (forall value, value <> "bispectrum"%string -> value <> "bispectrum_logamp"%string -> value <> "bicoherence"%string ->
    azimuthal_slices hy hx o radii delta bq value = Err TypeError /\ radial_slices hy hx o thetas deltas bw value = Err TypeError).
Proof.
  assert (L : forall o, surface_of o "bispectrum_logamp" = match b_logamp o with Some s => Ok s | None => Err AttributeError end) by reflexivity.
  assert (B : forall o, surface_of o "bicoherence" = match b_bicoherence o with Some s => Ok s | None => Err AttributeError end) by reflexivity.
  unfold azimuthal_slices, radial_slices. rewrite !L, !B. split; [|split; [|split]].
  - intros o' s -> H. rewrite !B, H. split; reflexivity.
  - intros ->. split; reflexivity.
  - intros ->. split; reflexivity.
  - intros value N1 N2 N3. assert (E : surface_of o value = Err TypeError).
    { unfold surface_of. destruct (String.eqb_spec value "bispectrum_logamp"); [contradiction|]. destruct (String.eqb_spec value "bicoherence"); [contradiction|]. destruct (String.eqb_spec value "bispectrum"); [contradiction|]. reflexivity. }
    rewrite E. split; reflexivity.
Qed.
