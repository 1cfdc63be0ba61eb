(** Proofs of C137.  The [@PROP] blocks are copied into [PropPhase.v]. *)
(*@PROP
(** Property C137: the phases of the RBJ filters, and a phaser built from AllPass filters, in
    exact arithmetic.

    Vocabulary: [lean], [allpass_chain], [phaser] ([PhaseSpec]); [rbj_passes kind args w g theta]:
    sinusoids of [w] radians per sample come out with amplitude times [g] and phase plus [theta];
    [valid_band], [omega] ([RbjSpec]); [sinusoid], [approaches] ([Signal]). *)
From Coq Require Import Reals List Lra Lia ZArith.
From Coquelicot Require Import Coquelicot.
From Verif Require Import Num NumR FilterM RbjM Device Signal RbjSpec EqSpec PhaseSpec PhaseLemmas.
Import ListNotations.
Open Scope R_scope.
@*)
From Coq Require Import Reals List Lra Lia ZArith Ranalysis5 FinFun.
From Coquelicot Require Import Coquelicot.
From Verif Require Import Num NumR FilterM RbjM Device Signal SignalFacts CoreLemmas FilterFacts
  FilterLemmas RbjSpec RbjFacts RbjLemmas SysSpec SysLemmas EqSpec EqFacts EqLemmas CrossLemmas PhaseSpec.
Import ListNotations.
Open Scope R_scope.

(** From numerator = g e^(j theta) denominator to the response. *)
Lemma nd_passes kind args w g th : valid kind args -> 0 <= w < PI ->
  let O := warped (centre args) w in
  fst (nd kind args O) = (RtoC g * cis th * snd (nd kind args O))%C -> rbj_passes kind args w g th.
Proof.
  intros H Hw O E. apply analog_passes; [exact H|exact Hw|]. unfold analog_response. fold O.
  rewrite prototype_nd by exact H. rewrite E. field. apply nd_den, H.
Qed.

Lemma cis_pos t a b : cos a = sin t -> sin a = b -> cis a = (sin t, b).
Proof. intros H1 H2. unfold cis. rewrite H1, H2. reflexivity. Qed.

(** The two facts about the angle that the responses need. *)
Lemma lean_facts x : let t := atan x in 0 < cos t /\ sin t = x * cos t /\ sin t * sin t + cos t * cos t = 1.
Proof.
  intros t. assert (B := atan_bound x). fold t in B. assert (C : 0 < cos t) by (apply cos_gt_0; lra).
  split; [exact C|]. split.
  - assert (E := tan_atan x). fold t in E. unfold tan in E. rewrite <- E. field. lra.
  - assert (E := sin2_cos2 t). unfold Rsqr in E. exact E.
Qed.

(** C137: one angle, [lean], gives gain and phase of all six filters at once.  (The gain of BandStop
    changes sign at the corner: below it the output lags by 90 degrees minus the angle, above it
    leads.) *)
Lemma C137_one_angle_thm :
  forall sr f q w, valid_band sr f -> 0 < q -> 0 < w < PI ->
    let t := lean sr f q w in
    let O := warped (omega sr f) w in
    rbj_passes LowPass (RbjQ sr f q) w (q * cos t / O) (t - PI / 2)
    /\ rbj_passes HighPass (RbjQ sr f q) w (q * cos t * O) (t + PI / 2)
    /\ rbj_passes BandPass1 (RbjQ sr f q) w (q * cos t) t
    /\ rbj_passes BandPass2 (RbjQ sr f q) w (cos t) t
    /\ rbj_passes BandStop (RbjQ sr f q) w (sin t) (t - PI / 2)
    /\ rbj_passes AllPass (RbjQ sr f q) w 1 (2 * t - PI).
Proof.
  intros sr f q w Hb Hq Hw t O.
  assert (HO : 0 < O) by (apply warped_pos; [apply omega_range, Hb|exact Hw]).
  destruct (lean_facts (q * (1 / O - O))) as [C0 [S0 N0]]. fold (lean sr f q w) in C0, S0, N0.
  change (atan (q * (1 / O - O))) with t in *.
  assert (X : (1 - O * O) * (q * cos t) = O * sin t) by (rewrite S0; field; lra).
  assert (X' : 1 - O * O = O * sin t / (q * cos t)) by (rewrite <- X; field; lra).
  assert (A1 : cos (t - PI / 2) = sin t) by (rewrite cos_minus, cos_PI2, sin_PI2; ring).
  assert (A2 : sin (t - PI / 2) = - cos t) by (rewrite sin_minus, cos_PI2, sin_PI2; ring).
  assert (A3 : cos (t + PI / 2) = - sin t) by (rewrite cos_plus, cos_PI2, sin_PI2; ring).
  assert (A4 : sin (t + PI / 2) = cos t) by (rewrite sin_plus, cos_PI2, sin_PI2; ring).
  assert (A5 : cos (2 * t - PI) = sin t * sin t - cos t * cos t) by (rewrite cos_minus, cos_PI, sin_PI, cos_2a; ring).
  assert (A6 : sin (2 * t - PI) = - (2 * sin t * cos t)) by (rewrite sin_minus, cos_PI, sin_PI, sin_2a; ring).
  assert (V : forall k, In k [LowPass; HighPass; BandPass1; BandPass2; BandStop; AllPass] -> valid k (RbjQ sr f q)).
  { intros k Hk. cbn in Hk. decompose [or] Hk; subst; try contradiction; split; assumption. }
  repeat split; (apply nd_passes; [apply V; cbn; tauto|lra|]); cbn [centre nd sq_terms fst snd]; fold O;
    unfold cis, Cmult, RtoC; cbn [fst snd]; apply injective_projections; cbn [fst snd];
    rewrite ?A1, ?A2, ?A3, ?A4, ?A5, ?A6, ?X'; clearbody t O; clear - HO C0 N0 Hq;
    set (s := sin t) in *; set (c := cos t) in *; clearbody s c;
    assert (Q2 : s ^ 2 = 1 - c ^ 2) by (cbn [pow]; lra); assert (Q3 : s ^ 3 = s * (1 - c ^ 2)) by (rewrite <- Q2; ring).
  all: try (field; lra).
  all: field_simplify_eq; [rewrite ?Q3, ?Q2; try ring|lra].

Qed.
(*@PROP
Example C137_one_angle_hyps : valid_band 48000 1000 /\ 0 < 7 / 10 /\ 0 < 1 / 2 < PI.
Proof. unfold valid_band. assert (X := PI2_1). lra. Qed.
@*)

(** ** The angle *)
Lemma lean_lt sr f q w w' : valid_band sr f -> 0 < q -> 0 < w -> w < w' -> w' < PI -> lean sr f q w' < lean sr f q w.
Proof.
  intros Hb Hq H1 H2 H3. unfold lean. cbv zeta. apply atan_increasing. apply Rmult_lt_compat_l; [exact Hq|].
  assert (R0 := omega_range sr f Hb).
  assert (P := warped_pos (omega sr f) w R0 ltac:(lra)). assert (L := warped_lt (omega sr f) w w' R0 ltac:(lra) H2 H3).
  set (O := warped (omega sr f) w) in *. set (O' := warped (omega sr f) w') in *. clearbody O O'.
  assert (1 / O' < 1 / O); [|lra]. unfold Rdiv. rewrite !Rmult_1_l. apply Rinv_lt_contravar; [apply Rmult_lt_0_compat; lra|exact L].
Qed.

Lemma lean_le sr f q w w' : valid_band sr f -> 0 < q -> 0 < w -> w <= w' -> w' < PI -> lean sr f q w' <= lean sr f q w.
Proof.
  intros Hb Hq H1 [H2|E] H3; [left; apply lean_lt; assumption|]. rewrite E. apply Rle_refl.
Qed.

Lemma lean_bound sr f q w : - PI / 2 < lean sr f q w < PI / 2.
Proof. unfold lean. apply atan_bound. Qed.

Lemma lean_corner sr f q : valid_band sr f -> lean sr f q (omega sr f) = 0.
Proof.
  intros Hb. unfold lean. cbv zeta. rewrite warped_centre by (apply omega_range, Hb).
  replace (q * (1 / 1 - 1)) with 0 by field. apply atan_0.
Qed.

Lemma lean_onto sr f q u : valid_band sr f -> 0 < q -> - PI / 2 < u < PI / 2 -> exists w, 0 < w < PI /\ lean sr f q w = u.
Proof.
  intros Hb Hq Hu. set (x := tan u / q).
  assert (D : 0 <= x * x + 4) by (assert (0 <= x * x) by apply Rle_0_sqr; lra).
  assert (Sq := sqrt_sqrt _ D). set (r := sqrt (x * x + 4)) in *. assert (R0 : 0 <= r) by apply sqrt_pos.
  assert (Rx : Rabs x < r) by (apply Rsqr_incrst_0; [rewrite <- Rsqr_abs; unfold Rsqr; lra|apply Rabs_pos|exact R0]).
  assert (P : 0 < (r - x) / 2) by (assert (B := Rle_abs x); lra).
  destruct (unwarp (omega sr f) ((r - x) / 2) (omega_range _ _ Hb) P) as [w [Hw E]].
  exists w. split; [exact Hw|]. unfold lean. cbv zeta. rewrite E.
  replace (q * (1 / ((r - x) / 2) - (r - x) / 2)) with (tan u).
  - apply atan_tan; lra.
  - replace (tan u) with (q * x) by (unfold x; field; lra). f_equal.
    apply Rmult_eq_reg_r with ((r - x) / 2); [|lra]. field_simplify; [|lra].
    replace (r ^ 2) with (x * x + 4) by (rewrite <- Sq; ring). field.
Qed.

(** C137: the angle: it lies strictly between -90 and 90 degrees, strictly decreases as the
    frequency rises, is 0 at the corner only, and takes every value in between.  So the phase of a
    LowPass falls from 0 to -180 degrees, that of a BandPass from 90 to -90, that of a HighPass from
    180 to 0 and that of an AllPass from 0 to -360. *)
Lemma C137_angle_thm :
  forall sr f q, valid_band sr f -> 0 < q ->
    (forall w, - PI / 2 < lean sr f q w < PI / 2)
    /\ (forall w w', 0 < w -> w < w' -> w' < PI -> lean sr f q w' < lean sr f q w)
    /\ (forall w, 0 < w < PI -> (lean sr f q w = 0 <-> w = omega sr f))
    /\ (forall u, - PI / 2 < u < PI / 2 -> exists w, 0 < w < PI /\ lean sr f q w = u).
Proof.
  intros sr f q Hb Hq. split; [|split; [|split]].
  - intros w. apply lean_bound.
  - intros w w'. apply lean_lt; assumption.
  - intros w Hw. assert (Hr := omega_range sr f Hb). assert (C := lean_corner sr f q Hb). split; [|intros ->; exact C].
    intros E. destruct (Rtotal_order w (omega sr f)) as [L|[L|L]]; [|exact L|].
    + assert (X := lean_lt sr f q w (omega sr f) Hb Hq ltac:(lra) L ltac:(lra)). lra.
    + assert (X := lean_lt sr f q (omega sr f) w Hb Hq ltac:(lra) L ltac:(lra)). lra.
  - intros u Hu. apply lean_onto; assumption.
Qed.
(*@PROP
Example C137_angle_hyps : valid_band 48000 1000 /\ 0 < 7 / 10 /\ - PI / 2 < 1 < PI / 2 /\ omega 48000 12000 = PI / 2.
Proof. unfold valid_band, omega. assert (X := PI2_1). repeat split; lra. Qed.
@*)

(** ** The peak filter *)
Lemma same_side a b x : 0 < a -> 0 < b -> Rabs (atan (b * x) - atan (a * x)) < PI / 2.
Proof.
  intros Ha Hb. assert (B1 := atan_bound (a * x)). assert (B2 := atan_bound (b * x)).
  assert (M : forall c y, 0 < c -> (0 < y -> 0 < atan (c * y)) /\ (y < 0 -> atan (c * y) < 0)).
  { intros c y Hc. split; intros Hy; rewrite <- atan_0 at 1 || rewrite <- atan_0; apply atan_increasing; nra. }
  destruct (Rtotal_order x 0) as [L|[->|L]].
  - destruct (M a x Ha) as [_ X]. destruct (M b x Hb) as [_ Y]. specialize (X L). specialize (Y L). apply Rabs_def1; lra.
  - rewrite !Rmult_0_r, atan_0. rewrite Rminus_0_r, Rabs_R0. assert (0 < PI) by apply PI_RGT_0. lra.
  - destruct (M a x Ha) as [X _]. destruct (M b x Hb) as [Y _]. specialize (X L). specialize (Y L). apply Rabs_def1; lra.
Qed.

(** C137: gain and phase of the Peak filter; the phase is always less than 90 degrees. *)
Lemma C137_peak_thm :
  forall sr f db q w, valid_band sr f -> 0 < q -> 0 < w < PI ->
    let A := Rpower 10 (db / 40) in
    let t1 := lean sr f (q / A) w in
    let t2 := lean sr f (q * A) w in
    rbj_passes Peak (RbjGain sr f db q) w (A * A * cos t2 / cos t1) (t2 - t1)
    /\ Rabs (t2 - t1) < PI / 2 /\ 0 < cos t2 / cos t1.
Proof.
  intros sr f db q w Hb Hq Hw A t1 t2.
  assert (HA : 0 < A) by apply exp_pos.
  assert (HqA : 0 < q / A) by (apply Rdiv_lt_0_compat; assumption).
  assert (HqA' : 0 < q * A) by (apply Rmult_lt_0_compat; assumption).
  set (O := warped (omega sr f) w).
  assert (HO : 0 < O) by (apply warped_pos; [apply omega_range, Hb|exact Hw]).
  destruct (lean_facts (q / A * (1 / O - O))) as [C1 [S1 N1]].
  destruct (lean_facts (q * A * (1 / O - O))) as [C2 [S2 N2]].
  change (atan (q / A * (1 / O - O))) with t1 in *. change (atan (q * A * (1 / O - O))) with t2 in *.
  split; [|split; [apply (same_side (q / A) (q * A) (1 / O - O)); assumption|apply Rdiv_lt_0_compat; assumption]].
  apply nd_passes; [split; assumption|lra|]. cbn [centre]. fold O. cbn [nd fst snd].
  change (amp db) with A.
  unfold cis. rewrite cos_minus, sin_minus.
  assert (X1 : 1 - O * O = O * A * sin t1 / (q * cos t1)) by (rewrite S1; field; lra).
  assert (X2 : 1 - O * O = O * sin t2 / (q * A * cos t2)) by (rewrite S2; field; lra).
  transitivity ((RtoC (O * A / (q * cos t1)) * (sin t1, cos t1))%C).
  { rewrite X1. unfold Cmult, RtoC; cbn [fst snd]; apply injective_projections; cbn [fst snd]; field; lra. }
  rewrite X2. transitivity ((RtoC (O * A / (q * cos t1)) * (((cos t2 * cos t1 + sin t2 * sin t1)%R, (sin t2 * cos t1 - cos t2 * sin t1)%R) * (sin t2, cos t2)))%C).
  - f_equal. unfold Cmult, RtoC; cbn [fst snd]; apply injective_projections; cbn [fst snd].
    + replace (_ - _) with (sin t1 * (sin t2 * sin t2 + cos t2 * cos t2)) by ring. rewrite N2. ring.
    + replace (_ + _) with (cos t1 * (sin t2 * sin t2 + cos t2 * cos t2)) by ring. rewrite N2. ring.
  - unfold Cmult, RtoC; cbn [fst snd]; apply injective_projections; cbn [fst snd]; field; lra.
Qed.
(*@PROP
Example C137_peak_hyps : valid_band 44100 440 /\ 0 < 2 /\ 0 < 1 < PI.
Proof. unfold valid_band. assert (X := PI2_1). lra. Qed.
@*)

(** ** Phases are unique *)
(** C137: gain and phase are determined by the filter: the gain exactly, the phase up to whole
    turns. *)
Lemma C137_phase_unique_thm :
  forall kind args w g th g' th', 0 < w < PI -> 0 < g -> 0 < g' ->
    rbj_passes kind args w g th -> rbj_passes kind args w g' th' ->
    g = g' /\ exists k : Z, th' = th + 2 * PI * IZR k.
Proof.
  intros kind args w g th g' th' Hw Hg Hg' Hp Hp'.
  specialize (Hp 1 0). specialize (Hp' 1 0). unfold approaches in *.
  assert (H := is_lim_seq_minus' _ _ _ _ Hp' Hp).
  assert (H2 : is_lim_seq (fun n => (g * cos th - g' * cos th') * cos (INR n * w)
                                   - (g * sin th - g' * sin th') * sin (INR n * w)) 0).
  { replace (Finite 0) with (Finite (0 - 0)) by (f_equal; ring).
    eapply is_lim_seq_ext; [|exact H]. intros n. cbv beta. unfold sinusoid.
    replace (INR n * w + (0 + th)) with (INR n * w + th) by ring.
    replace (INR n * w + (0 + th')) with (INR n * w + th') by ring.
    rewrite !cos_plus. ring. }
  destruct (sinus_unique w _ _ Hw H2) as [E1 E2].
  assert (N := sin2_cos2 th). assert (N' := sin2_cos2 th'). unfold Rsqr in N, N'.
  assert (G : g = g').
  { apply sq_eq_nneg; [lra|lra|].
    replace (g * g) with ((g * sin th) * (g * sin th) + (g * cos th) * (g * cos th)) by (rewrite <- (Rmult_1_r (g * g)), <- N; ring).
    replace (g * sin th) with (g' * sin th') by lra. replace (g * cos th) with (g' * cos th') by lra.
    rewrite <- (Rmult_1_r (g' * g')), <- N'. ring. }
  split; [exact G|]. subst g'.
  assert (Ec : cos th = cos th') by (apply Rmult_eq_reg_l with g; lra).
  assert (Es : sin th = sin th') by (apply Rmult_eq_reg_l with g; lra).
  assert (C1 : cos (th' - th) = 1) by (rewrite cos_minus, Ec, Es; lra).
  assert (S0 : sin ((th' - th) / 2) = 0).
  { assert (X := cos_2a_sin ((th' - th) / 2)). replace (2 * ((th' - th) / 2)) with (th' - th) in X by field.
    rewrite C1 in X.
    destruct (Req_dec (sin ((th' - th) / 2)) 0) as [E|E]; [exact E|]. exfalso.
    assert (0 < sin ((th' - th) / 2) * sin ((th' - th) / 2)) by (apply Rsqr_pos_lt in E; exact E). lra. }
  destruct (sin_eq_0_0 _ S0) as [k Hk]. exists k. lra.
Qed.
(*@PROP
Example C137_phase_unique_hyps :
  let t := lean 48000 1000 (7 / 10) 1 in
  0 < 1 < PI /\ 0 < cos t /\ rbj_passes BandPass2 (RbjQ 48000 1000 (7 / 10)) 1 (cos t) t.
Proof.
  intros t. assert (X := PI2_1). split; [lra|]. split.
  - apply cos_gt_0; assert (B := lean_bound 48000 1000 (7 / 10) 1); fold t in B; lra.
  - destruct (C137_one_angle_thm 48000 1000 (7 / 10) 1) as [_ [_ [_ [P _]]]]; [unfold valid_band; lra|lra|lra|].
    exact P.
Qed.
@*)

(** ** The chain *)
Lemma passes_chain sr settings w : all_valid sr settings -> 0 < w < PI -> forall A phi u,
  approaches u (sinusoid A w phi) ->
  approaches (allpass_chain sr settings u) (sinusoid A w (phi + 2 * half_turn sr settings w)).
Proof.
  intros Hv Hw. induction Hv as [|[f q] settings [Hb Hq] Hv IH]; intros A phi u Hu; cbn [fst snd] in *.
  - cbn. rewrite Rmult_0_r, Rplus_0_r. exact Hu.
  - cbn [allpass_chain fold_left half_turn fold_right fst snd]. fold (half_turn sr settings w).
    replace (phi + 2 * (lean sr f q w - PI / 2 + half_turn sr settings w))
      with ((phi + (2 * lean sr f q w - PI)) + 2 * half_turn sr settings w) by field.
    apply IH. apply approaches_trans with (rbj_out AllPass (RbjQ sr f q) (sinusoid A w phi)).
    + destruct (norm_stable AllPass (RbjQ sr f q) (conj Hb Hq)) as [b0 [b1 [b2 [a1 [a2 [F St]]]]]].
      exact (settle _ _ _ _ _ _ _ _ _ _ _ F St Hu).
    + destruct (C137_one_angle_thm sr f q w Hb Hq Hw) as [_ [_ [_ [_ [_ P]]]]]. cbv zeta in P.
      specialize (P A phi). rewrite Rmult_1_l in P. exact P.
Qed.

(** C137: AllPass filters in series keep the amplitude and add up their phases; the mean of the
    signal and the output of the chain has the gain cos (half of the total phase). *)
Lemma C137_chain_thm :
  forall sr settings w, all_valid sr settings -> 0 < w < PI -> forall A phi,
    let t := half_turn sr settings w in
    approaches (allpass_chain sr settings (sinusoid A w phi)) (sinusoid A w (phi + 2 * t))
    /\ approaches (phaser sr settings (sinusoid A w phi)) (sinusoid (cos t * A) w (phi + t)).
Proof.
  intros sr settings w Hv Hw A phi t.
  assert (H : approaches (allpass_chain sr settings (sinusoid A w phi)) (sinusoid A w (phi + 2 * t))).
  { apply passes_chain; [exact Hv|exact Hw|]. unfold approaches. eapply is_lim_seq_ext; [|apply is_lim_seq_const].
    intros n. cbv beta. ring. }
  split; [exact H|]. unfold approaches in *.
  replace (Finite 0) with (Rbar_mult (/ 2) 0) by (cbn; f_equal; ring).
  eapply is_lim_seq_ext; [|exact (is_lim_seq_scal_l _ (/ 2) _ H)]. intros n. cbv beta. unfold phaser.
  cut (sinusoid A w phi n + sinusoid A w (phi + 2 * t) n = 2 * sinusoid (cos t * A) w (phi + t) n).
  { intros E. lra. }
  unfold sinusoid. set (a := INR n * w + (phi + t)).
  replace (INR n * w + phi) with (a - t) by (unfold a; ring). replace (INR n * w + (phi + 2 * t)) with (a + t) by (unfold a; ring).
  rewrite cos_minus, cos_plus. ring.
Qed.
(*@PROP
Example C137_chain_hyps : all_valid 48000 [(300, 1); (1000, 7 / 10); (1000, 1 / 2); (5000, 3)] /\ 0 < 1 < PI.
Proof.
  assert (X := PI2_1). split; [|lra]. unfold all_valid, valid_band.
  repeat (apply List.Forall_cons || apply List.Forall_nil); cbn [fst snd]; lra.
Qed.
@*)

(** ** The notches *)
Lemma half_turn_lt sr settings w w' : all_valid sr settings -> settings <> [] -> 0 < w -> w < w' -> w' < PI ->
  half_turn sr settings w' < half_turn sr settings w.
Proof.
  intros Hv Hn H1 H2 H3. induction Hv as [|[f q] settings [Hb Hq] Hv IH]; [contradiction|]. cbn [fst snd] in *.
  cbn [half_turn fold_right fst snd]. fold (half_turn sr settings w) (half_turn sr settings w').
  assert (L := lean_lt sr f q w w' Hb Hq H1 H2 H3). destruct settings as [|x settings].
  - cbn. lra.
  - assert (X := IH ltac:(discriminate)). lra.
Qed.

Lemma half_turn_range sr settings w : settings <> [] ->
  - INR (length settings) * PI < half_turn sr settings w < 0.
Proof.
  intros Hn. induction settings as [|[f q] settings IH]; [contradiction|]. cbn [length]. rewrite S_INR.
  cbn [half_turn fold_right fst snd]. fold (half_turn sr settings w).
  assert (B := lean_bound sr f q w). destruct settings as [|x settings].
  - cbn. lra.
  - assert (X := IH ltac:(discriminate)). lra.
Qed.

Lemma lean_cont sr f q w : valid_band sr f -> 0 < w < PI -> continuity_pt (lean sr f q) w.
Proof.
  intros Hb Hw. assert (R0 := omega_range sr f Hb).
  assert (P := warped_pos (omega sr f) w R0 Hw).
  change (lean sr f q) with (comp atan (fun w => q * (1 / warped (omega sr f) w - warped (omega sr f) w))).
  apply continuity_pt_comp; [|apply derivable_continuous_pt, derivable_pt_atan].
  apply continuity_pt_filterlim. apply (ex_derive_continuous (fun w => q * (1 / warped (omega sr f) w - warped (omega sr f) w)) w).
  unfold warped in *. unfold tan in *. auto_derive.
  assert (0 < cos (w / 2)) by (apply cos_gt_0; lra).
  assert (0 < cos (omega sr f / 2)) by (apply cos_gt_0; lra).
  repeat split; try lra.
Qed.

Lemma half_turn_cont sr settings w : all_valid sr settings -> 0 < w < PI -> continuity_pt (half_turn sr settings) w.
Proof.
  intros Hv Hw. induction Hv as [|[f q] settings [Hb Hq] Hv IH]; cbn [fst snd] in *.
  - apply continuity_pt_const. intros a b. reflexivity.
  - change (half_turn sr ((f, q) :: settings)) with
      (plus_fct (minus_fct (lean sr f q) (fct_cte (PI / 2))) (half_turn sr settings)).
    apply continuity_pt_plus; [|exact IH]. apply continuity_pt_minus; [apply lean_cont; assumption|].
    apply continuity_pt_const. intros a b. reflexivity.
Qed.

Lemma ends sr settings u : all_valid sr settings -> - PI / 2 < u < PI / 2 ->
  exists lo hi, 0 < lo /\ lo <= hi /\ hi < PI
    /\ INR (length settings) * (u - PI / 2) <= half_turn sr settings lo
    /\ half_turn sr settings hi <= INR (length settings) * (u - PI / 2)
    /\ (forall w, 0 < w <= lo -> INR (length settings) * (u - PI / 2) <= half_turn sr settings w)
    /\ (forall w, hi <= w < PI -> half_turn sr settings w <= INR (length settings) * (u - PI / 2)).
Proof.
  intros Hv Hu.
  cut (exists lo hi, 0 < lo /\ lo <= hi /\ hi < PI
    /\ (forall w, 0 < w <= lo -> INR (length settings) * (u - PI / 2) <= half_turn sr settings w)
    /\ (forall w, hi <= w < PI -> half_turn sr settings w <= INR (length settings) * (u - PI / 2))).
  { intros [lo [hi [H1 [H2 [H3 [H4 H5]]]]]]. exists lo, hi.
    repeat split; try assumption; [apply H4; lra|apply H5; lra]. }
  induction Hv as [|[f q] settings [Hb Hq] Hv IH]; cbn [fst snd] in *.
  - exists 1, 1. assert (X := PI2_1). cbn. repeat split; try lra; intros w Hw; lra.
  - destruct IH as [lo [hi [H1 [H2 [H3 [H4 H5]]]]]]. destruct (lean_onto sr f q u Hb Hq Hu) as [v [Hv1 Ev]].
    exists (Rmin lo v), (Rmax hi v). cbn [length]. rewrite S_INR.
    assert (M1 := Rmin_l lo v). assert (M2 := Rmin_r lo v). assert (M3 := Rmax_l hi v). assert (M4 := Rmax_r hi v).
    split; [apply Rmin_glb_lt; lra|]. split; [lra|]. split; [apply Rmax_lub_lt; lra|].
    cbn [half_turn fold_right fst snd]. split; intros w Hw; fold (half_turn sr settings w).
    + assert (X := H4 w ltac:(lra)). assert (Y := lean_le sr f q w v Hb Hq ltac:(lra) ltac:(lra) ltac:(lra)). lra.
    + assert (X := H5 w ltac:(lra)). assert (Y := lean_le sr f q v w Hb Hq ltac:(lra) ltac:(lra) ltac:(lra)). lra.
Qed.

Lemma half_turn_onto sr settings v : all_valid sr settings -> settings <> [] ->
  - INR (length settings) * PI < v < 0 -> exists w, 0 < w < PI /\ half_turn sr settings w = v.
Proof.
  intros Hv Hn Hr. assert (Np : 0 < INR (length settings)) by (apply lt_0_INR; destruct settings; [contradiction|cbn; lia]).
  set (N := INR (length settings)) in *. set (u := v / N + PI / 2).
  assert (Hu : - PI / 2 < u < PI / 2).
  { unfold u. assert (v / N < 0) by (apply Rmult_lt_reg_r with N; [exact Np|]; unfold Rdiv; rewrite Rmult_assoc, Rinv_l by lra; lra).
    assert (- PI < v / N) by (apply Rmult_lt_reg_r with N; [exact Np|]; unfold Rdiv; rewrite Rmult_assoc, Rinv_l by lra; lra). lra. }
  destruct (ends sr settings u Hv Hu) as [lo [hi [H1 [H2 [H3 [H4 [H5 _]]]]]]].
  fold N in H4, H5. replace (N * (u - PI / 2)) with v in H4, H5 by (unfold u; field; lra).
  destruct H4 as [H4|H4]; [|exists lo; split; [lra|auto]].
  destruct H5 as [H5|H5]; [|exists hi; split; [lra|auto]].
  assert (L : lo < hi) by (destruct H2 as [L|E]; [exact L|rewrite E in H4; lra]).
  destruct (Ranalysis5.IVT_interv (fun w => v - half_turn sr settings w) lo hi) as [z [Hz E]].
  - intros a Ha. change (fun w => v - half_turn sr settings w) with (minus_fct (fct_cte v) (half_turn sr settings)).
    apply continuity_pt_minus; [apply continuity_pt_const; intros x y; reflexivity|]. apply half_turn_cont; [exact Hv|lra].
  - exact L.
  - lra.
  - lra.
  - exists z. split; [lra|]. lra.
Qed.

Lemma pick sr settings vs : all_valid sr settings -> settings <> [] ->
  (forall v, In v vs -> - INR (length settings) * PI < v < 0) ->
  exists ws, map (half_turn sr settings) ws = vs /\ (forall w, In w ws -> 0 < w < PI).
Proof.
  intros Hv Hn. induction vs as [|v vs IH]; intros H.
  - exists []. split; [reflexivity|]. intros w [].
  - destruct IH as [ws [E R1]]. { intros x Hx. apply H. right. exact Hx. }
    destruct (half_turn_onto sr settings v Hv Hn (H v (or_introl eq_refl))) as [w [Hw Ew]].
    exists (w :: ws). cbn. rewrite Ew, E. split; [reflexivity|]. intros x [<-|Hx]; [exact Hw|apply R1, Hx].
Qed.

(** C137: a phaser of N AllPass filters has exactly N notches between 0 and Nyquist, wherever the
    corners are and whatever the q's. *)
Lemma C137_notches_thm :
  forall sr settings, all_valid sr settings ->
    exists notches, length notches = length settings /\ NoDup notches
      /\ (forall w, In w notches -> 0 < w < PI)
      /\ forall w, 0 < w < PI ->
         (In w notches <-> forall A phi, approaches (phaser sr settings (sinusoid A w phi)) (fun _ => 0)).
Proof.
  intros sr settings Hv.
  assert (Z : forall w, 0 < w < PI ->
     ((forall A phi, approaches (phaser sr settings (sinusoid A w phi)) (fun _ => 0)) <-> cos (half_turn sr settings w) = 0)).
  { intros w Hw. split.
    - intros H. destruct (C137_chain_thm sr settings w Hv Hw 1 (- half_turn sr settings w)) as [_ P]. cbv zeta in P.
      set (t := half_turn sr settings w) in *. specialize (H 1 (- t)). unfold approaches in *.
      assert (D := is_lim_seq_minus' _ _ _ _ H P).
      destruct (sinus_unique w (cos t) 0 Hw) as [E _]; [|exact E].
      replace (Finite 0) with (Finite (0 - 0)) by (f_equal; ring). eapply is_lim_seq_ext; [|exact D]. intros n. cbv beta.
      unfold sinusoid. replace (INR n * w + (- t + t)) with (INR n * w) by ring. ring.
    - intros E A phi. destruct (C137_chain_thm sr settings w Hv Hw A phi) as [_ P]. cbv zeta in P. rewrite E in P.
      unfold approaches in *. eapply is_lim_seq_ext; [|exact P]. intros n. cbv beta. unfold sinusoid. ring. }
  destruct settings as [|fq settings].
  { exists []. split; [reflexivity|]. split; [constructor|]. split; [intros w []|]. intros w Hw. split; [intros []|].
    intros Hc. apply (Z w Hw) in Hc. cbn in Hc. rewrite cos_0 in Hc. lra. }
  set (st := fq :: settings) in *. assert (Hn : st <> []) by discriminate. clearbody st.
  set (val := fun j : nat => - (INR j + / 2) * PI).
  assert (Hpi := PI_RGT_0).
  destruct (pick sr st (map val (seq 0 (length st))) Hv Hn) as [ws [E Hws]].
  { intros v Hin. apply in_map_iff in Hin. destruct Hin as [j [<- Hj]]. apply in_seq in Hj.
    assert (J0 := pos_INR j). assert (J1 : INR j + 1 <= INR (length st)) by (rewrite <- S_INR; apply le_INR; lia).
    unfold val. split; nra. }
  exists ws. split; [|split; [|split]].
  - rewrite <- (map_length (half_turn sr st)), E, map_length, seq_length. reflexivity.
  - apply (NoDup_map_inv (half_turn sr st)). rewrite E. apply FinFun.Injective_map_NoDup; [|apply seq_NoDup].
    intros a b Hab. unfold val in Hab. apply INR_eq. apply Rmult_eq_reg_r in Hab; lra.
  - exact Hws.
  - intros w Hw. rewrite (Z w Hw). split.
    + intros Hin. assert (Hm := in_map (half_turn sr st) _ _ Hin). rewrite E in Hm. apply in_map_iff in Hm.
      destruct Hm as [j [Ej _]]. rewrite <- Ej. unfold val. apply cos_eq_0_1. exists (- Z.of_nat (S j))%Z.
      rewrite opp_IZR, <- INR_IZR_INZ, S_INR. field.
    + intros Hc. destruct (cos_eq_0_0 _ Hc) as [k Hk]. assert (Rg := half_turn_range sr st w Hn). rewrite Hk in Rg.
      assert (K1 : IZR k < 0) by nra.
      assert (K2 : - INR (length st) - / 2 < IZR k) by nra.
      rewrite INR_IZR_INZ in K2. apply lt_IZR in K1.
      assert (K3 : (- Z.of_nat (length st) <= k)%Z).
      { apply Z.lt_pred_le. apply lt_IZR. rewrite <- Z.sub_1_r, minus_IZR, opp_IZR. lra. }
      assert (Hm : In (half_turn sr st w) (map (half_turn sr st) ws)).
      { rewrite E. apply in_map_iff. exists (Z.to_nat (- k - 1)). split; [|apply in_seq; lia].
        unfold val. rewrite INR_IZR_INZ, Z2Nat.id by lia. rewrite Hk, minus_IZR, opp_IZR. field. }
      apply in_map_iff in Hm. destruct Hm as [w' [Ew Hin]]. assert (Hw' := Hws w' Hin).
      destruct (Rtotal_order w w') as [L|[->|L]]; [|exact Hin|].
      * assert (X := half_turn_lt sr st w w' Hv Hn ltac:(lra) L ltac:(lra)). lra.
      * assert (X := half_turn_lt sr st w' w Hv Hn ltac:(lra) L ltac:(lra)). lra.
Qed.
(*@PROP
(* one filter: the notch is at its corner *)
Example C137_notches_one :
  forall A phi, approaches (phaser 48000 [(12000, 1)] (sinusoid A (PI / 2) phi)) (fun _ => 0).
Proof.
  assert (X := PI2_1). assert (V : valid_band 48000 12000) by (unfold valid_band; lra).
  assert (W : omega 48000 12000 = PI / 2) by (unfold omega; field).
  assert (L := lean_corner 48000 12000 1 V). rewrite W in L.
  intros A phi. destruct (C137_chain_thm 48000 [(12000, 1)] (PI / 2)) with (A := A) (phi := phi) as [_ P].
  - apply List.Forall_cons; [split; [exact V|cbn; lra]|apply List.Forall_nil].
  - lra.
  - cbv zeta in P. unfold half_turn in P. cbn [fold_right fst snd] in P. rewrite L in P.
    replace (0 - PI / 2 + 0) with (- (PI / 2)) in P by field. rewrite cos_neg, cos_PI2 in P.
    unfold approaches in *. eapply is_lim_seq_ext; [|exact P]. intros n. cbv beta. unfold sinusoid. ring.
Qed.
@*)
