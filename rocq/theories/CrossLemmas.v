(** Lemmas behind property C117.  The [@PROP] blocks are copied into [PropCross.v]. *)
(*@PROP
(** Property C117: Linkwitz-Riley crossovers built from the RBJ filters, in exact arithmetic.

    Vocabulary: [rbj_out kind args x] is what a new filter of the given kind, configured with
    [args], makes of the signal [x]; [valid] settings ([RbjSpec]); [sinusoid], [approaches],
    [passes] ([Signal]); [energy] ([EqSpec]); [response] ([SysSpec]). *)
From Coq Require Import Reals List Lra.
From Coquelicot Require Import Coquelicot.
From Verif Require Import Num NumR FilterM RbjM Device Signal RbjSpec SysSpec EqSpec RbjLemmas CrossLemmas.
Import ListNotations.
Open Scope R_scope.
@*)
From Coq Require Import Reals List Lra Lia.
From Coquelicot Require Import Coquelicot.
From Verif Require Import Num NumR FilterM RbjM Device Signal SignalFacts CoreLemmas FilterFacts
  FilterLemmas RbjSpec RbjFacts RbjLemmas SysSpec SysLemmas EqSpec EqLemmas.
Import ListNotations.
Open Scope R_scope.

(** ** Numerators and denominators as operators *)
Definition taps3 (b0 b1 b2 : R) (u : signal) : signal := fun n => b0 * u n + b1 * back 1 u n + b2 * back 2 u n.

Lemma taps3_ext b0 b1 b2 u v : (forall n, u n = v n) -> forall n, taps3 b0 b1 b2 u n = taps3 b0 b1 b2 v n.
Proof.
  intros H n. unfold taps3, back. destruct n as [|[|n]]; cbn [Nat.leb Nat.sub]; rewrite ?Nat.sub_0_r, !H; reflexivity.
Qed.

Lemma taps3_comm b0 b1 b2 d0 d1 d2 u n :
  taps3 b0 b1 b2 (taps3 d0 d1 d2 u) n = taps3 d0 d1 d2 (taps3 b0 b1 b2 u) n.
Proof.
  unfold taps3, back. destruct n as [|[|[|[|n]]]]; cbn [Nat.leb Nat.sub]; rewrite ?Nat.sub_0_r; cbn [Nat.leb]; ring.
Qed.

(** Two filters in series with the same denominator: the squared denominator of the output is
    the product of the numerators of the input. *)
Lemma series_eq b0 b1 b2 d0 d1 d2 a1 a2 x y z :
  obeys (d0, d1, d2, a1, a2) x y -> obeys (b0, b1, b2, a1, a2) y z ->
  forall n, taps3 1 a1 a2 (taps3 1 a1 a2 z) n = taps3 b0 b1 b2 (taps3 d0 d1 d2 x) n.
Proof.
  intros H1 H2 n.
  rewrite (taps3_ext 1 a1 a2 (taps3 1 a1 a2 z) (taps3 b0 b1 b2 y)).
  2:{ intros m. unfold taps3. rewrite (H2 m). ring. }
  rewrite taps3_comm. apply taps3_ext. intros m. unfold taps3. rewrite (H1 m). ring.
Qed.

Lemma taps3_inj a1 a2 u v : (forall n, taps3 1 a1 a2 u n = taps3 1 a1 a2 v n) -> forall n, u n = v n.
Proof.
  intros H. apply (obeys_unique (1, 0, 0, a1, a2) (taps3 1 a1 a2 u) (taps3 1 a1 a2 v)); [exact H| |];
    intros n; unfold taps3; ring.
Qed.

Lemma q_eq kind sr f q : In kind [LowPass; HighPass; BandPass1; BandPass2; BandStop; AllPass] ->
  filter_eq (dev_rbj R_ops kind) (RbjQ sr f q) (norm6 (raw kind (RbjQ sr f q))).
Proof. intros Hk. apply fe_rbj. cbn in Hk. decompose [or] Hk; subst; try contradiction; reflexivity. Qed.

Lemma q_obeys kind sr f q x : In kind [LowPass; HighPass; BandPass1; BandPass2; BandStop; AllPass] ->
  obeys (norm6 (raw kind (RbjQ sr f q))) x (rbj_out kind (RbjQ sr f q) x).
Proof. intros Hk. apply filter_obeys, q_eq, Hk. Qed.

(** BandPass2 twice, times q^2, is LowPass and HighPass in series. *)
Lemma band_squared sr f q (x : signal) (n : nat) : q <> 0 -> 1 + alpha_q sr f q <> 0 ->
  q * q * rbj_out BandPass2 (RbjQ sr f q) (rbj_out BandPass2 (RbjQ sr f q) x) n
  = rbj_out LowPass (RbjQ sr f q) (rbj_out HighPass (RbjQ sr f q) x) n.
Proof.
  intros Hq Ha.
  assert (B1 := q_obeys BandPass2 sr f q x ltac:(cbn; tauto)).
  assert (B2 := q_obeys BandPass2 sr f q (rbj_out BandPass2 (RbjQ sr f q) x) ltac:(cbn; tauto)).
  assert (H1 := q_obeys HighPass sr f q x ltac:(cbn; tauto)).
  assert (L1 := q_obeys LowPass sr f q (rbj_out HighPass (RbjQ sr f q) x) ltac:(cbn; tauto)).
  cbn [raw raw_q norm6] in *.
  set (al := alpha_q sr f q) in *. set (c := cos (omega sr f)) in *.
  assert (E1 := series_eq _ _ _ _ _ _ _ _ _ _ _ B1 B2). assert (E2 := series_eq _ _ _ _ _ _ _ _ _ _ _ H1 L1).
  set (z := rbj_out BandPass2 (RbjQ sr f q) (rbj_out BandPass2 (RbjQ sr f q) x)) in *. set (y := rbj_out LowPass (RbjQ sr f q) (rbj_out HighPass (RbjQ sr f q) x)) in *.
  change ((fun n => q * q * z n) n = y n). revert n. apply (taps3_inj (-2 * c / (1 + al)) ((1 - al) / (1 + al))).
  apply (taps3_inj (-2 * c / (1 + al)) ((1 - al) / (1 + al))). intros n. rewrite E2.
  assert (Sc : forall b0 b1 b2 u n, taps3 b0 b1 b2 (fun n => q * q * u n) n = q * q * taps3 b0 b1 b2 u n).
  { intros b0 b1 b2 u m. unfold taps3, back. destruct (1 <=? m)%nat, (2 <=? m)%nat; ring. }
  rewrite (taps3_ext _ _ _ _ (fun n => q * q * taps3 1 (-2 * c / (1 + al)) ((1 - al) / (1 + al)) z n)) by (intros m; apply Sc).
  rewrite Sc, E1.
  assert (K : q * q * (al * al) = (1 - c * c) / 4).
  { unfold al, alpha_q, c. set (w := omega sr f). assert (P := sin2_cos2 w). unfold Rsqr in P.
    replace (1 - cos w * cos w) with (sin w * sin w) by lra. field. exact Hq. }
  clear - K Ha. clearbody al c.
  assert (K2 : q * q * (al / (1 + al) * (al / (1 + al))) = (1 - c) / 2 / (1 + al) * ((1 + c) / 2 / (1 + al))).
  { transitivity (q * q * (al * al) / ((1 + al) * (1 + al))); [field; exact Ha|]. rewrite K. field. exact Ha. }
  replace (- al / (1 + al)) with (- (al / (1 + al))) by (field; exact Ha).
  replace ((- 1 - c) / (1 + al)) with (- 2 * ((1 + c) / 2 / (1 + al))) by (field; exact Ha).
  replace ((1 - c) / (1 + al)) with (2 * ((1 - c) / 2 / (1 + al))) by (field; exact Ha).
  replace (0 / (1 + al)) with 0 by (field; exact Ha).
  set (B := al / (1 + al)) in *. set (L := (1 - c) / 2 / (1 + al)) in *. set (H := (1 + c) / 2 / (1 + al)) in *. clearbody B L H.
  assert (F : taps3 B 0 (- B) (taps3 B 0 (- B) x) n = B * B * taps3 1 0 (-1) (taps3 1 0 (-1) x) n)
    by (unfold taps3, back; destruct n as [|[|[|[|n]]]]; cbn [Nat.leb Nat.sub]; ring).
  assert (G : taps3 L (2 * L) L (taps3 H (- 2 * H) H x) n = L * H * taps3 1 0 (-1) (taps3 1 0 (-1) x) n)
    by (unfold taps3, back; destruct n as [|[|[|[|n]]]]; cbn [Nat.leb Nat.sub]; rewrite ?Nat.sub_0_r; cbn [Nat.leb]; ring).
  rewrite F, G, <- K2. ring.
Qed.

(** A filter applied to a sum or difference. *)
Lemma rbj_lin kind sr f q a b (u v w : signal) : In kind [LowPass; HighPass; BandPass1; BandPass2; BandStop; AllPass] ->
  (forall n, w n = a * u n + b * v n) -> forall n,
  rbj_out kind (RbjQ sr f q) w n = a * rbj_out kind (RbjQ sr f q) u n + b * rbj_out kind (RbjQ sr f q) v n.
Proof.
  intros Hk Hw. apply (obeys_unique (norm6 (raw kind (RbjQ sr f q))) w (fun n => a * u n + b * v n)); [exact Hw| |].
  - apply q_obeys, Hk.
  - apply obeys_lin; apply q_obeys, Hk.
Qed.

Lemma rbj_comm k1 k2 sr f q sr' f' q' x n :
  In k1 [LowPass; HighPass; BandPass1; BandPass2; BandStop; AllPass] ->
  In k2 [LowPass; HighPass; BandPass1; BandPass2; BandStop; AllPass] ->
  rbj_out k1 (RbjQ sr f q) (rbj_out k2 (RbjQ sr' f' q') x) n = rbj_out k2 (RbjQ sr' f' q') (rbj_out k1 (RbjQ sr f q) x) n.
Proof.
  intros H1 H2. exact (C83_series_commutes_thm _ _ _ _ _ _ _ _ _ _ (q_eq k2 sr' f' q' H2) (q_eq k1 sr f q H1) x n).
Qed.

(** C117: two LowPass filters in series plus two HighPass filters in series, all with the same
    settings, are AllPass with these settings, plus (1/q^2 - 2) times LowPass and HighPass in
    series. *)
Lemma C117_sum_thm :
  forall sr f q (x : signal) (n : nat),
    sr <> 0 -> q <> 0 -> 1 + sin (omega sr f) / (2 * q) <> 0 ->
    let low := rbj_out LowPass (RbjQ sr f q) in
    let high := rbj_out HighPass (RbjQ sr f q) in
    low (low x) n + high (high x) n
    = rbj_out AllPass (RbjQ sr f q) x n + (/ (q * q) - 2) * low (high x) n.
Proof.
  intros sr f q x n Hs Hq Ha low high.
  set (bs := rbj_out BandStop (RbjQ sr f q)). set (bp := rbj_out BandPass2 (RbjQ sr f q)).
  assert (C := fun y m => C45_complementary_thm sr f q y m Hs Hq Ha). cbv beta zeta in C. fold low high bs bp in C.
  assert (S : bs (bs x) n = low (low x) n + high (high x) n + 2 * low (high x) n).
  { destruct (C (bs x) n) as [E _]. rewrite <- E.
    assert (W : forall m, bs x m = 1 * low x m + 1 * high x m) by (intros m; destruct (C x m) as [E1 _]; lra).
    unfold low at 1, high at 1.
    rewrite (rbj_lin LowPass sr f q 1 1 _ _ _ ltac:(cbn; tauto) W), (rbj_lin HighPass sr f q 1 1 _ _ _ ltac:(cbn; tauto) W).
    fold low high. assert (Q := rbj_comm HighPass LowPass sr f q sr f q x n ltac:(cbn; tauto) ltac:(cbn; tauto)).
    fold low high in Q. rewrite Q. ring. }
  assert (T : bs (bs x) n = rbj_out AllPass (RbjQ sr f q) x n + bp (bp x) n).
  { destruct (C (bs x) n) as [_ [E1 _]]. destruct (C (bp x) n) as [_ [E2 _]]. destruct (C x n) as [_ [_ [E3 _]]].
    assert (Q := rbj_comm BandPass2 BandStop sr f q sr f q x n ltac:(cbn; tauto) ltac:(cbn; tauto)). fold bs bp in Q.
    rewrite E3. lra. }
  assert (K : q * q * bp (bp x) n = low (high x) n) by (apply band_squared; [exact Hq|exact Ha]).
  assert (V : bp (bp x) n = / (q * q) * low (high x) n).
  { rewrite <- K, <- Rmult_assoc, Rinv_l, Rmult_1_l; [reflexivity|]. apply Rmult_integral_contrapositive_currified; exact Hq. }
  rewrite V in T. lra.
Qed.

(*@PROP
Example C117_sum_hyps : 1 + sin (omega 48000 12000) / (2 * (2 / 3)) <> 0.
Proof. unfold omega. replace (2 * PI * 12000 / 48000) with (PI / 2) by field. rewrite sin_PI2. lra. Qed.
@*)

Lemma half_sqrt q : q * q = / 2 -> q <> 0.
Proof. intros H E. rewrite E in H. lra. Qed.

(** C117: the fourth-order Linkwitz-Riley crossover, q = 1/sqrt 2: its two bands add up to
    AllPass, sample for sample, for every input. *)
Lemma C117_linkwitz_riley_thm :
  forall sr f q (x : signal) (n : nat),
    sr <> 0 -> q * q = / 2 -> 1 + sin (omega sr f) / (2 * q) <> 0 ->
    let low := rbj_out LowPass (RbjQ sr f q) in
    let high := rbj_out HighPass (RbjQ sr f q) in
    low (low x) n + high (high x) n = rbj_out AllPass (RbjQ sr f q) x n.
Proof.
  intros sr f q x n Hs Hq Ha low high. assert (E := C117_sum_thm sr f q x n Hs (half_sqrt q Hq) Ha). cbv zeta in E.
  rewrite Hq, Rinv_inv in E. unfold low, high. rewrite E. ring.
Qed.

Lemma valid_den sr f q : valid_band sr f -> 0 < q -> sr <> 0 /\ 1 + sin (omega sr f) / (2 * q) <> 0.
Proof.
  intros Hb Hq. split; [unfold valid_band in Hb; lra|].
  assert (0 < sin (omega sr f) / (2 * q)); [|lra]. apply Rdiv_lt_0_compat; [|lra]. apply sin_pos, omega_range, Hb.
Qed.

(*@PROP
Example C117_linkwitz_riley_hyps : / sqrt 2 * / sqrt 2 = / 2 /\ 1 + sin (omega 48000 12000) / (2 * / sqrt 2) <> 0.
Proof.
  assert (P : 0 < sqrt 2) by (apply sqrt_lt_R0; lra). split.
  - rewrite <- Rinv_mult, sqrt_sqrt by lra. reflexivity.
  - unfold omega. replace (2 * PI * 12000 / 48000) with (PI / 2) by field. rewrite sin_PI2.
    assert (0 < 1 / (2 * / sqrt 2)); [|lra]. apply Rdiv_lt_0_compat; [lra|]. apply Rmult_lt_0_compat; [lra|]. apply Rinv_0_lt_compat, P.
Qed.
@*)

(** C117: so the crossover is flat.  A sinusoid of any frequency comes out with its own
    amplitude, the two bands together never put out more energy than they were given, and for an
    input that dies away all of it comes out in the end. *)
Lemma C117_flat_thm :
  forall sr f q, valid_band sr f -> 0 < q -> q * q = / 2 ->
    let low := rbj_out LowPass (RbjQ sr f q) in
    let high := rbj_out HighPass (RbjQ sr f q) in
    let both := fun (x : signal) n => low (low x) n + high (high x) n in
    (forall w, exists theta, forall A phi, approaches (both (sinusoid A w phi)) (sinusoid A w (phi + theta)))
    /\ (forall x n, energy (both x) n <= energy x n)
    /\ (forall x, is_lim_seq x 0 -> is_lim_seq (fun n => energy x n - energy (both x) n) 0).
Proof.
  intros sr f q Hb Hq H2 low high both.
  assert (V : valid AllPass (RbjQ sr f q)) by (split; assumption). destruct (valid_den sr f q Hb Hq) as [Hs Ha].
  assert (E : forall x n, both x n = rbj_out AllPass (RbjQ sr f q) x n)
    by (intros x n; apply (C117_linkwitz_riley_thm sr f q x n Hs H2 Ha)).
  assert (En : forall x n, energy (both x) n = energy (rbj_out AllPass (RbjQ sr f q) x) n).
  { intros x n. induction n as [|n IH]; [reflexivity|]. cbn [energy]. rewrite IH, E. reflexivity. }
  split; [|split].
  - intros w. destruct (C42_allpass_thm sr f q w V) as [th P]. exists th. intros A phi. specialize (P A phi).
    unfold approaches in *. rewrite Rmult_1_l in P.
    eapply is_lim_seq_ext; [|exact P]. intros n. cbv beta. rewrite E. reflexivity.
  - intros x n. rewrite En. apply C80_allpass_passive_thm, V.
  - intros x Hx. eapply is_lim_seq_ext; [|exact (C80_allpass_lossless_thm sr f q x V Hx)]. intros n. cbv beta. rewrite En. reflexivity.
Qed.

(*@PROP
Example C117_flat_hyps : valid_band 48000 1000 /\ 0 < / sqrt 2 /\ / sqrt 2 * / sqrt 2 = / 2.
Proof.
  assert (P : 0 < sqrt 2) by (apply sqrt_lt_R0; lra). split; [unfold valid_band; lra|]. split; [apply Rinv_0_lt_compat, P|].
  rewrite <- Rinv_mult, sqrt_sqrt by lra. reflexivity.
Qed.
@*)

(** C117: a three-way crossover.  Split at [f1]; split the high part again at [f2], and send the
    low part through the AllPass of [f2] to keep it in step.  The three bands add up to the two
    AllPass filters in series. *)
Lemma C117_three_way_thm :
  forall sr f1 f2 q (x : signal) (n : nat),
    sr <> 0 -> q * q = / 2 -> 1 + sin (omega sr f1) / (2 * q) <> 0 -> 1 + sin (omega sr f2) / (2 * q) <> 0 ->
    let low f := rbj_out LowPass (RbjQ sr f q) in
    let high f := rbj_out HighPass (RbjQ sr f q) in
    let all f := rbj_out AllPass (RbjQ sr f q) in
    let bass := all f2 (low f1 (low f1 x)) in
    let rest := high f1 (high f1 x) in
    bass n + low f2 (low f2 rest) n + high f2 (high f2 rest) n = all f2 (all f1 x) n.
Proof.
  intros sr f1 f2 q x n Hs Hq H1 H2 low high all bass rest.
  assert (E : low f2 (low f2 rest) n + high f2 (high f2 rest) n = all f2 rest n)
    by exact (C117_linkwitz_riley_thm sr f2 q rest n Hs Hq H2).
  rewrite Rplus_assoc, E. unfold bass.
  assert (W : forall m, all f1 x m = 1 * low f1 (low f1 x) m + 1 * rest m).
  { intros m. assert (G : low f1 (low f1 x) m + high f1 (high f1 x) m = all f1 x m)
      by exact (C117_linkwitz_riley_thm sr f1 q x m Hs Hq H1).
    unfold rest. lra. }
  assert (Y := rbj_lin AllPass sr f2 q 1 1 _ _ _ ltac:(cbn; tauto) W n).
  change (all f2 (all f1 x) n = 1 * all f2 (low f1 (low f1 x)) n + 1 * all f2 rest n) in Y. rewrite Y. ring.
Qed.

(*@PROP
Example C117_three_way_hyps : 1 + sin (omega 48000 12000) / (2 * / sqrt 2) <> 0 /\ 1 + sin (omega 48000 4000) / (2 * / sqrt 2) <> 0.
Proof.
  assert (P : 0 < sqrt 2) by (apply sqrt_lt_R0; lra).
  assert (I : 0 < 2 * / sqrt 2) by (apply Rmult_lt_0_compat; [lra|]; apply Rinv_0_lt_compat, P).
  unfold omega. replace (2 * PI * 12000 / 48000) with (PI / 2) by field. replace (2 * PI * 4000 / 48000) with (PI / 6) by field.
  rewrite sin_PI2, sin_PI6. assert (A : 0 < 1 / (2 * / sqrt 2)) by (apply Rdiv_lt_0_compat; lra).
  assert (B : 0 < 1 / 2 / (2 * / sqrt 2)) by (apply Rdiv_lt_0_compat; lra). lra.
Qed.
@*)

(** ** Second order *)
Lemma obeys_factor b0 b1 a1 r x y : obeys (b0, b1, 0, a1, 0) x y ->
  obeys (b0, b1 + r * b0, r * b1, a1 + r, r * a1) x y.
Proof.
  intros H n. assert (E : back 1 y n = b0 * back 1 x n + b1 * back 2 x n - a1 * back 2 y n).
  { destruct n as [|n]; [unfold back; cbn; ring|]. assert (G := H n). unfold back in *. cbn [Nat.leb Nat.sub] in *.
    rewrite ?Nat.sub_0_r. destruct n as [|n]; cbn [Nat.leb Nat.sub] in *; rewrite ?Nat.sub_0_r in *; lra. }
  rewrite (H n). rewrite E at 1. rewrite E at 1.
  replace (b0 * x n + b1 * back 1 x n + 0 * back 2 x n - a1 * back 1 y n - 0 * back 2 y n) with
    (b0 * x n + b1 * back 1 x n - a1 * back 1 y n) by ring.
  assert (r * back 1 y n = r * (b0 * back 1 x n + b1 * back 2 x n - a1 * back 2 y n)) by (f_equal; exact E). lra.
Qed.

(** C117: the second-order Linkwitz-Riley crossover, q = 1/2.  Here one band must be turned over:
    the difference of the two is the first-order all-pass (p + z^-1) / (1 + p z^-1), with
    p = (tan (w/2) - 1) / (tan (w/2) + 1), that is -cos w / (1 + sin w). *)
Lemma C117_second_order_thm :
  forall sr f (x : signal) (n : nat),
    sr <> 0 -> 1 + sin (omega sr f) <> 0 ->
    let p := - cos (omega sr f) / (1 + sin (omega sr f)) in
    rbj_out LowPass (RbjQ sr f (/ 2)) x n - rbj_out HighPass (RbjQ sr f (/ 2)) x n
    = response (dev_biquad1 R_ops) (p, 1, 0, p, 0) x n.
Proof.
  intros sr f x n Hs Ha p.
  assert (L := q_obeys LowPass sr f (/ 2) x ltac:(cbn; tauto)). assert (H := q_obeys HighPass sr f (/ 2) x ltac:(cbn; tauto)).
  cbn [raw raw_q norm6] in *. assert (Ea : alpha_q sr f (/ 2) = sin (omega sr f)) by (unfold alpha_q; field). rewrite Ea in *.
  assert (F := filter_obeys _ _ _ (fe_biquad1 (p, 1, 0, p, 0)) x). apply (obeys_factor _ _ _ p) in F.
  assert (P := sin2_cos2 (omega sr f)). unfold Rsqr in P. unfold p in F.
  set (s := sin (omega sr f)) in *. set (c := cos (omega sr f)) in *.
  assert (G := obeys_sum _ _ _ _ _ _ _ _ _ _ _ L (obeys_scale (-1) _ _ _ _ _ _ _ H)).
  transitivity (rbj_out LowPass (RbjQ sr f (/ 2)) x n + -1 * rbj_out HighPass (RbjQ sr f (/ 2)) x n); [ring|].
  refine (obeys_unique _ x x (fun m => rbj_out LowPass (RbjQ sr f (/ 2)) x m + -1 * rbj_out HighPass (RbjQ sr f (/ 2)) x m) _ (fun _ => eq_refl) G _ n).
  eapply obeys_cast; [|exact F].
  assert (C2 : c * c = (1 - s) * (1 + s)) by lra. clearbody s c. clear - C2 Ha.
  tup.
  - field. exact Ha.
  - transitivity ((c * c + (1 + s) * (1 + s)) / ((1 + s) * (1 + s))); [field; exact Ha|]. rewrite C2. field. exact Ha.
  - field. exact Ha.
  - field. exact Ha.
  - transitivity ((c * c) / ((1 + s) * (1 + s))); [field; exact Ha|]. rewrite C2. field. exact Ha.
Qed.

(*@PROP
Example C117_second_order_hyps : 1 + sin (omega 48000 12000) <> 0.
Proof. unfold omega. replace (2 * PI * 12000 / 48000) with (PI / 2) by field. rewrite sin_PI2. lra. Qed.
@*)

(** ** Filters in series *)
Lemma settle S K (D : device S K R) k b0 b1 b2 a1 a2 (u v : signal) :
  filter_eq D k (b0, b1, b2, a1, a2) -> stable a1 a2 -> approaches u v -> approaches (response D k u) (response D k v).
Proof.
  intros Hf Hs Hu. unfold approaches in *.
  assert (E := obeys_lin _ 1 (-1) _ _ _ _ (filter_obeys D k _ Hf u) (filter_obeys D k _ Hf v)).
  apply is_lim_seq_ext with (fun n => 1 * out D (configured D k) u n + -1 * out D (configured D k) v n).
  { intros n. unfold response. ring. }
  refine (recur_vanish b0 b1 b2 a1 a2 (fun n => 1 * u n + -1 * v n) _ Hs (obeys_recur _ _ _ E) _).
  eapply is_lim_seq_ext; [|exact Hu]. intros n. cbv beta. ring.
Qed.

Lemma approaches_trans u v w : approaches u v -> approaches v w -> approaches u w.
Proof.
  unfold approaches. intros H1 H2. replace (Finite 0) with (Finite (0 + 0)) by (f_equal; ring).
  eapply is_lim_seq_ext; [|exact (is_lim_seq_plus' _ _ _ _ H1 H2)]. intros n. cbv beta. ring.
Qed.

(** C117: two filters in series, the second one stable: the gains multiply and the phases add. *)
Lemma C117_series_gain_thm :
  forall (S K S' K' : Type) (D : device S K R) (k : K) (D' : device S' K' R) (k' : K') (b0 b1 b2 a1 a2 : R),
    filter_eq D' k' (b0, b1, b2, a1, a2) -> stable a1 a2 ->
    forall w g theta g' theta',
    passes D (configured D k) w g theta -> passes D' (configured D' k') w g' theta' ->
    forall A phi, approaches (response D' k' (response D k (sinusoid A w phi)))
                             (sinusoid (g' * g * A) w (phi + (theta + theta'))).
Proof.
  intros S K S' K' D k D' k' b0 b1 b2 a1 a2 Hf Hs w g th g' th' P P' A phi.
  eapply approaches_trans; [exact (settle _ _ _ _ _ _ _ _ _ _ _ Hf Hs (P A phi))|].
  assert (E := P' (g * A) (phi + th)). rewrite <- !Rmult_assoc, Rplus_assoc in E. exact E.
Qed.

(*@PROP
Example C117_series_gain_hyps :
  filter_eq (dev_biquad1 R_ops) (1, 0, 0, - / 2, 0) (1, 0, 0, - / 2, 0) /\ stable (- / 2) 0
  /\ passes (dev_rbj R_ops LowPass) (configured (dev_rbj R_ops LowPass) (RbjQ 48000 1000 1)) (omega 48000 1000) 1 (- (PI / 2)).
Proof.
  split; [constructor|]. split; [unfold stable; rewrite Rabs_R0; split; [lra|]; apply Rabs_def1; lra|].
  apply (C38_lowpass_thm 48000 1000 1). split; [unfold valid_band|]; lra.
Qed.
@*)

Lemma norm_stable kind args : valid kind args ->
  exists b0 b1 b2 a1 a2, filter_eq (dev_rbj R_ops kind) args (b0, b1, b2, a1, a2) /\ stable a1 a2.
Proof.
  intros H. assert (F := valid_filter_eq kind args H). assert (Hs := raw_stable kind args H).
  destruct (raw kind args) as [[[[[b0 b1] b2] a0] a1] a2]. cbn [norm6 stable6] in *. destruct Hs as [S0 [S2 S1]].
  do 5 eexists. split; [exact F|]. apply stable_norm; assumption.
Qed.

Lemma sinusoid_turn A w phi n : sinusoid A w (phi + PI) n = - sinusoid A w phi n.
Proof. unfold sinusoid. rewrite <- Rplus_assoc, neg_cos. ring. Qed.

(** C117: the value of q matters.  At the corner frequency each of the two bands has the gain
    q^2 and both are turned over, so that the crossover has the gain 2 q^2 there: 1 only for
    q = 1 / sqrt 2. *)
Lemma C117_corner_thm :
  forall sr f q, valid_band sr f -> 0 < q ->
    let low := rbj_out LowPass (RbjQ sr f q) in
    let high := rbj_out HighPass (RbjQ sr f q) in
    forall A phi, approaches (fun n => low (low (sinusoid A (omega sr f) phi)) n + high (high (sinusoid A (omega sr f) phi)) n)
                             (sinusoid (2 * (q * q) * A) (omega sr f) (phi + PI)).
Proof.
  intros sr f q Hb Hq low high A phi. set (w := omega sr f).
  assert (VL : valid LowPass (RbjQ sr f q)) by (split; assumption). assert (VH : valid HighPass (RbjQ sr f q)) by (split; assumption).
  destruct (C38_lowpass_thm sr f q VL) as [_ [_ PL]]. destruct (C39_highpass_thm sr f q VH) as [_ [_ PH]]. fold w in PL, PH.
  destruct (norm_stable _ _ VL) as [b0 [b1 [b2 [a1 [a2 [FL SL]]]]]]. destruct (norm_stable _ _ VH) as [d0 [d1 [d2 [e1 [e2 [FH SH]]]]]].
  assert (L := C117_series_gain_thm _ _ _ _ _ _ _ _ _ _ _ _ _ FL SL w _ _ _ _ PL PL A phi).
  assert (H := C117_series_gain_thm _ _ _ _ _ _ _ _ _ _ _ _ _ FH SH w _ _ _ _ PH PH A phi).
  change (approaches (low (low (sinusoid A w phi))) (sinusoid (q * q * A) w (phi + (- (PI / 2) + - (PI / 2))))) in L.
  change (approaches (high (high (sinusoid A w phi))) (sinusoid (q * q * A) w (phi + (PI / 2 + PI / 2)))) in H.
  unfold approaches in *. replace (Finite 0) with (Finite (0 + 0)) by (f_equal; ring).
  eapply is_lim_seq_ext; [|exact (is_lim_seq_plus' _ _ _ _ L H)]. intros n. cbv beta.
  replace (PI / 2 + PI / 2) with PI by field.
  assert (E : sinusoid (q * q * A) w (phi + (- (PI / 2) + - (PI / 2))) n = - sinusoid (q * q * A) w phi n).
  { assert (T := sinusoid_turn (q * q * A) w (phi + (- (PI / 2) + - (PI / 2))) n).
    replace (phi + (- (PI / 2) + - (PI / 2)) + PI) with phi in T by field. lra. }
  rewrite E, !sinusoid_turn. unfold sinusoid. ring.
Qed.

(*@PROP
Example C117_corner_hyps : valid_band 48000 1000 /\ 0 < 1 /\ 2 * (1 * 1) = 2.
Proof. unfold valid_band. lra. Qed.
@*)
