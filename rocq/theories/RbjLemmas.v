(** Proofs of C37-C46. *)
From Coq Require Import Reals Lra Lia List Psatz.
From Coquelicot Require Import Coquelicot.
From Verif Require Import Num NumR FilterM RbjM Device Signal SignalFacts CoreLemmas FilterFacts
  FilterLemmas RbjSpec RbjFacts.
Import ListNotations.
Open Scope R_scope.

(*@PROP
(** Properties C37-C46 of the RBJ filters, exact arithmetic.

    Vocabulary: [Signal] and [RbjSpec]. *)
From Coq Require Import Reals List Lra.
From Coquelicot Require Import Coquelicot.
From Verif Require Import Num NumR FilterM RbjM Device Signal RbjSpec RbjLemmas.
Import ListNotations.
Open Scope R_scope.

(** Settings meeting the hypothesis of every theorem below. *)
Example valid_settings :
  valid_band 48000 1000
  /\ (forall kind, In kind [LowPass; HighPass; BandPass1; BandPass2; BandStop; AllPass] ->
        valid kind (RbjQ 48000 1000 0.7))
  /\ valid Peak (RbjGain 48000 1000 (-6) 2)
  /\ valid LowShelf (RbjGain 48000 1000 12 1) /\ valid HighShelf (RbjGain 48000 1000 12 1).
Proof.
  assert (Hb : valid_band 48000 1000) by (unfold valid_band; lra).
  assert (Hs : valid_slope 12 1).
  { unfold valid_slope. replace (1 / 1 - 1) with 0 by field. rewrite Rmult_0_r. lra. }
  split; [exact Hb|]. split; [|repeat split; (apply Hb || apply Hs || lra)].
  intros kind Hk. cbn in Hk.
  decompose [or] Hk; subst; try contradiction; (split; [exact Hb|lra]).
Qed.
@*)

(** C37: every valid setting gives coefficients in the stability region. *)
Lemma C37_rbj_stable_thm :
  forall (kind : rbj_kind) (args : rbj_args R), valid kind args ->
  exists b0 b1 b2 a1 a2,
    rbj_coeffs R_ops kind args = Some (b0, b1, b2, a1, a2) /\ stable a1 a2.
Proof.
  intros kind args H. rewrite (raw_coeffs kind args H). assert (Hs := raw_stable kind args H).
  destruct (raw kind args) as [[[[[b0 b1] b2] a0] a1] a2]. cbn in Hs.
  do 5 eexists. split; [reflexivity|]. apply stable_norm; apply Hs.
Qed.

(** C37: hence bounded input gives bounded output, ... *)
Lemma C37_rbj_bounded_thm :
  forall (kind : rbj_kind) (args : rbj_args R), valid kind args ->
  exists G : R, forall (x : signal) (M : R), (forall n, Rabs (x n) <= M) ->
    forall n, Rabs (rbj_out kind args x n) <= G * M.
Proof.
  intros kind args H. destruct (C37_rbj_stable_thm kind args H) as [b0 [b1 [b2 [a1 [a2 [E Hs]]]]]].
  apply (C34_bounded_thm _ _ (dev_rbj R_ops kind) args b0 b1 b2 a1 a2); [|exact Hs].
  apply fe_rbj. exact E.
Qed.

(** C37: ... and a sinusoid of any frequency is turned into a sinusoid of the same
    frequency. *)
Lemma C37_rbj_sinusoid_thm :
  forall (kind : rbj_kind) (args : rbj_args R) (w : R), valid kind args ->
  exists g theta, 0 <= g /\ rbj_passes kind args w g theta.
Proof.
  intros kind args w H.
  assert (Hs := raw_stable kind args H).
  assert (HD : snd (mag2 (raw kind args) w) <> 0).
  { destruct (raw kind args) as [[[[[b0 b1] b2] a0] a1] a2]. cbn [stable6 mag2 snd] in *.
    destruct Hs as [S0 [S2 S1]]. apply Rabs_def2 in S2. apply Rabs_def2 in S1.
    intros E.
    destruct (Rplus_sqr_eq_0 ((a0 + a2) * cos w + a1) ((a0 - a2) * sin w) E) as [E1 E2].
    assert (Es : sin w = 0) by (apply Rmult_integral in E2; destruct E2; [lra|assumption]).
    assert (Ec := sin2_cos2 w). unfold Rsqr in Ec. rewrite Es in Ec.
    assert (Hc : cos w = 1 \/ cos w = -1) by (assert (Em : (cos w - 1) * (cos w + 1) = 0) by lra; apply Rmult_integral in Em; destruct Em; [left|right]; lra).
    destruct Hc as [Hc|Hc]; rewrite Hc in E1; lra. }
  assert (HN : 0 <= fst (mag2 (raw kind args) w) /\ 0 <= snd (mag2 (raw kind args) w)).
  { destruct (raw kind args) as [[[[[b0 b1] b2] a0] a1] a2]. cbn.
    split; apply Rplus_le_le_0_compat; apply Rle_0_sqr. }
  set (N := fst (mag2 (raw kind args) w)) in *. set (D := snd (mag2 (raw kind args) w)) in *.
  assert (Hq : 0 <= N / D).
  { apply Rmult_le_pos; [lra|]. left. apply Rinv_0_lt_compat. lra. }
  exists (sqrt (N / D)).
  destruct (raw_gain kind args w (sqrt (N / D)) H (sqrt_pos _)) as [theta Ht].
  { fold N D. rewrite sqrt_sqrt by exact Hq. field. exact HD. }
  exists theta. split; [apply sqrt_pos|exact Ht].
Qed.

(** C37: every shelf slope in (0,1] is valid whatever the gain; above 1 the valid
    range depends on the gain. *)
Lemma C37_slope_range_thm :
  (forall g slope, 0 < slope <= 1 -> valid_slope g slope)
  /\ (forall slope, 1 < slope -> exists g, ~ valid_slope g slope).
Proof.
  split.
  - intros g slope [H0 H1]. unfold valid_slope. split; [exact H0|].
    assert (Ha := amp_pos g). unfold amp in Ha. set (a := Rpower 10 (g / 40)) in *.
    assert (0 < 1 / a) by (apply Rdiv_lt_0_compat; lra).
    assert (1 <= 1 / slope).
    { apply Rmult_le_reg_r with slope; [lra|]. replace (1 / slope * slope) with 1 by (field; lra). lra. }
    nra.
  - intros slope H. set (d := 1 - 1 / slope).
    assert (Hd : 0 < d).
    { unfold d. assert (1 / slope < 1); [|lra]. apply Rmult_lt_reg_r with slope; [lra|].
      replace (1 / slope * slope) with 1 by (field; lra). lra. }
    exists (40 * (ln (2 / d) / ln 10)). intros [_ Hv].
    assert (Hln : 0 < ln 10) by (rewrite <- ln_1; apply ln_increasing; lra).
    assert (E : Rpower 10 (40 * (ln (2 / d) / ln 10) / 40) = 2 / d).
    { unfold Rpower. replace (40 * (ln (2 / d) / ln 10) / 40 * ln 10) with (ln (2 / d)) by (field; lra).
      apply exp_ln. apply Rdiv_lt_0_compat; lra. }
    cbv zeta in Hv. rewrite E in Hv. replace (1 / slope - 1) with (- d) in Hv by (unfold d; ring).
    assert (0 < 1 / (2 / d)) by (apply Rdiv_lt_0_compat; [lra|apply Rdiv_lt_0_compat; lra]).
    assert (2 / d * d = 2) by (field; lra). nra.
Qed.

(** C38: LowPass. *)
Lemma C38_lowpass_thm :
  forall sr f q, valid LowPass (RbjQ sr f q) ->
    dc_gain LowPass (RbjQ sr f q) 1
    /\ nyquist_gain LowPass (RbjQ sr f q) 0
    /\ rbj_passes LowPass (RbjQ sr f q) (omega sr f) q (- (PI / 2)).
Proof.
  intros sr f q H. split; [|split].
  - apply raw_dc; [exact H|]. apply resp_dc. field.
  - apply raw_nyquist; [exact H|]. apply resp_nyquist. field.
  - apply raw_passes; [exact H|]. cbn [raw raw_q resp]. destruct H as [Hb Hq].
    assert (E := sin2_cos2 (omega sr f)). unfold Rsqr in E.
    rewrite cos_neg, sin_neg, cos_PI2, sin_PI2. unfold alpha_q.
    set (c := cos (omega sr f)) in *. set (s := sin (omega sr f)) in *. split.
    + transitivity (s * s); [|field; lra]. replace (s * s) with (1 - c * c) by lra. field.
    + ring.
Qed.

(** C39: HighPass. *)
Lemma C39_highpass_thm :
  forall sr f q, valid HighPass (RbjQ sr f q) ->
    dc_gain HighPass (RbjQ sr f q) 0
    /\ nyquist_gain HighPass (RbjQ sr f q) 1
    /\ rbj_passes HighPass (RbjQ sr f q) (omega sr f) q (PI / 2).
Proof.
  intros sr f q H. split; [|split].
  - apply raw_dc; [exact H|]. apply resp_dc. field.
  - apply raw_nyquist; [exact H|]. apply resp_nyquist. field.
  - apply raw_passes; [exact H|]. cbn [raw raw_q resp]. destruct H as [Hb Hq].
    assert (E := sin2_cos2 (omega sr f)). unfold Rsqr in E.
    rewrite cos_PI2, sin_PI2. unfold alpha_q.
    set (c := cos (omega sr f)) in *. set (s := sin (omega sr f)) in *. split.
    + transitivity (- (s * s)); [|field; lra]. replace (s * s) with (1 - c * c) by lra. field.
    + ring.
Qed.

(** C40: the two band passes. *)
Lemma C40_bandpass_thm :
  forall sr f q, valid BandPass1 (RbjQ sr f q) ->
    rbj_passes BandPass1 (RbjQ sr f q) (omega sr f) q 0
    /\ rbj_passes BandPass2 (RbjQ sr f q) (omega sr f) 1 0
    /\ dc_gain BandPass1 (RbjQ sr f q) 0 /\ dc_gain BandPass2 (RbjQ sr f q) 0
    /\ nyquist_gain BandPass1 (RbjQ sr f q) 0 /\ nyquist_gain BandPass2 (RbjQ sr f q) 0.
Proof.
  intros sr f q H. assert (H2 : valid BandPass2 (RbjQ sr f q)) by exact H.
  assert (H0 := H). destruct H0 as [Hb Hq].
  split; [|split; [|split; [|split; [|split]]]].
  - apply raw_passes; [exact H|]. cbn [raw raw_q resp]. rewrite cos_0, sin_0. unfold alpha_q. split.
    + field; lra.
    + field; lra.
  - apply raw_passes; [exact H2|]. cbn [raw raw_q resp]. rewrite cos_0, sin_0. unfold alpha_q. split.
    + field; lra.
    + field; lra.
  - apply raw_dc; [exact H|]. apply resp_dc. ring.
  - apply raw_dc; [exact H2|]. apply resp_dc. ring.
  - apply raw_nyquist; [exact H|]. apply resp_nyquist. ring.
  - apply raw_nyquist; [exact H2|]. apply resp_nyquist. ring.
Qed.

(** C41: BandStop. *)
Lemma C41_bandstop_thm :
  forall sr f q, valid BandStop (RbjQ sr f q) ->
    (forall A phi, is_lim_seq (rbj_out BandStop (RbjQ sr f q) (sinusoid A (omega sr f) phi)) 0)
    /\ dc_gain BandStop (RbjQ sr f q) 1 /\ nyquist_gain BandStop (RbjQ sr f q) 1.
Proof.
  intros sr f q H. split; [|split].
  - intros A phi. assert (HP : rbj_passes BandStop (RbjQ sr f q) (omega sr f) 0 0).
    { apply raw_passes; [exact H|]. cbn [raw raw_q resp]. split; ring. }
    specialize (HP A phi). unfold approaches in HP. eapply is_lim_seq_ext; [|exact HP].
    intros n. unfold rbj_out. replace (sinusoid (0 * A) (omega sr f) (phi + 0) n) with 0
      by (unfold sinusoid; ring). ring.
  - apply raw_dc; [exact H|]. apply resp_dc. ring.
  - apply raw_nyquist; [exact H|]. apply resp_nyquist. ring.
Qed.

(** C42: AllPass, at every frequency. *)
Lemma C42_allpass_thm :
  forall sr f q w, valid AllPass (RbjQ sr f q) ->
    exists theta, rbj_passes AllPass (RbjQ sr f q) w 1 theta.
Proof.
  intros sr f q w H. apply raw_gain; [exact H|lra|]. cbn [raw raw_q mag2 fst snd]. ring.
Qed.

Lemma amp2 g : amp g * amp g = db_factor g.
Proof.
  unfold amp, db_factor. rewrite <- Rpower_plus. f_equal. field.
Qed.

(** C43: Peak. *)
Lemma C43_peak_thm :
  forall sr f g q, valid Peak (RbjGain sr f g q) ->
    rbj_passes Peak (RbjGain sr f g q) (omega sr f) (db_factor g) 0
    /\ dc_gain Peak (RbjGain sr f g q) 1 /\ nyquist_gain Peak (RbjGain sr f g q) 1.
Proof.
  intros sr f g q H. assert (Ha := amp_pos g). split; [|split].
  - apply raw_passes; [exact H|]. cbn [raw raw_peak resp]. rewrite cos_0, sin_0, <- amp2. split.
    + field; lra.
    + field; lra.
  - apply raw_dc; [exact H|]. apply resp_dc. field. lra.
  - apply raw_nyquist; [exact H|]. apply resp_nyquist. field. lra.
Qed.

(** C44: the shelves. *)
Lemma C44_shelves_thm :
  forall sr f g slope, valid LowShelf (RbjGain sr f g slope) ->
    dc_gain LowShelf (RbjGain sr f g slope) (db_factor g)
    /\ nyquist_gain LowShelf (RbjGain sr f g slope) 1
    /\ dc_gain HighShelf (RbjGain sr f g slope) 1
    /\ nyquist_gain HighShelf (RbjGain sr f g slope) (db_factor g)
    /\ (exists theta, rbj_passes LowShelf (RbjGain sr f g slope) (omega sr f) (db_factor (g / 2)) theta)
    /\ (exists theta, rbj_passes HighShelf (RbjGain sr f g slope) (omega sr f) (db_factor (g / 2)) theta).
Proof.
  intros sr f g slope H. assert (H2 : valid HighShelf (RbjGain sr f g slope)) by exact H.
  assert (Ha := amp_pos g).
  assert (Eh : db_factor (g / 2) = amp g) by (unfold db_factor, amp; f_equal; field).
  assert (E := sin2_cos2 (omega sr f)). unfold Rsqr in E.
  split; [|split; [|split; [|split; [|split]]]].
  - apply raw_dc; [exact H|]. apply resp_dc. rewrite <- amp2. ring.
  - apply raw_nyquist; [exact H|]. apply resp_nyquist. ring.
  - apply raw_dc; [exact H2|]. apply resp_dc. ring.
  - apply raw_nyquist; [exact H2|]. apply resp_nyquist. rewrite <- amp2. ring.
  - rewrite Eh. apply raw_gain; [exact H|lra|]. cbn [raw raw_lowshelf mag2 fst snd].
    set (c := cos (omega sr f)) in *. set (s := sin (omega sr f)) in *.
    set (sp := shelf_sp sr f g slope). set (a := amp g) in *. ring.
  - rewrite Eh. apply raw_gain; [exact H2|lra|]. cbn [raw raw_highshelf mag2 fst snd].
    set (c := cos (omega sr f)) in *. set (s := sin (omega sr f)) in *.
    set (sp := shelf_sp sr f g slope). set (a := amp g) in *. ring.
Qed.

Ltac tup := repeat match goal with |- (_, _) = (_, _) => apply (f_equal2 (@pair _ _)) end.

(** C45: complementary filters, sample for sample on every input, for every setting whose
    normalising coefficient does not vanish (frequencies beyond the valid band and negative
    q included). *)
Lemma C45_complementary_thm :
  forall sr f q (x : signal) (n : nat),
    sr <> 0 -> q <> 0 -> 1 + sin (omega sr f) / (2 * q) <> 0 ->
    let o kind := rbj_out kind (RbjQ sr f q) x n in
    o LowPass + o HighPass = o BandStop
    /\ o BandStop + o BandPass2 = x n
    /\ o AllPass = o BandStop - o BandPass2
    /\ o BandPass1 = q * o BandPass2.
Proof.
  intros sr f q x n Hb Hq Ha o. unfold o. fold (alpha_q sr f q) in Ha.
  assert (VO : forall kind, In kind [LowPass; HighPass; BandPass1; BandPass2; BandStop; AllPass] ->
    obeys (norm6 (raw kind (RbjQ sr f q))) x (rbj_out kind (RbjQ sr f q) x)).
  { intros kind Hk. apply filter_obeys, fe_rbj. cbn in Hk.
    decompose [or] Hk; subst; try contradiction; reflexivity. }
  assert (L := VO LowPass ltac:(cbn; tauto)). assert (Hi := VO HighPass ltac:(cbn; tauto)).
  assert (B1 := VO BandPass1 ltac:(cbn; tauto)). assert (B2 := VO BandPass2 ltac:(cbn; tauto)).
  assert (BS := VO BandStop ltac:(cbn; tauto)). assert (AP := VO AllPass ltac:(cbn; tauto)).
  clear VO. cbn [raw raw_q norm6] in *.
  set (al := alpha_q sr f q) in *. set (c := cos (omega sr f)) in *.
  split; [|split; [|split]].
  - apply (obeys_unique _ x x (fun m => rbj_out LowPass (RbjQ sr f q) x m + rbj_out HighPass (RbjQ sr f q) x m)
      (rbj_out BandStop (RbjQ sr f q) x) (fun _ => eq_refl)) with (2 := BS).
    eapply obeys_cast; [|exact (obeys_sum _ _ _ _ _ _ _ _ _ _ _ L Hi)].
    tup; try reflexivity; field; lra.
  - apply (obeys_unique _ x x (fun m => rbj_out BandStop (RbjQ sr f q) x m + rbj_out BandPass2 (RbjQ sr f q) x m)
      x (fun _ => eq_refl)) with (2 := obeys_id (-2 * c / (1 + al)) ((1 - al) / (1 + al)) x).
    eapply obeys_cast; [|exact (obeys_sum _ _ _ _ _ _ _ _ _ _ _ BS B2)].
    tup; try reflexivity; field; lra.
  - apply (obeys_unique _ x x (rbj_out AllPass (RbjQ sr f q) x)
      (fun m => rbj_out BandStop (RbjQ sr f q) x m - rbj_out BandPass2 (RbjQ sr f q) x m)
      (fun _ => eq_refl)) with (1 := AP).
    assert (G := obeys_sum _ _ _ _ _ _ _ _ _ _ _ BS (obeys_scale (-1) _ _ _ _ _ _ _ B2)).
    intros m. specialize (G m). cbn beta in G.
    assert (Eb : forall j k, back j (fun m => rbj_out BandStop (RbjQ sr f q) x m - rbj_out BandPass2 (RbjQ sr f q) x m) k
      = back j (fun m => rbj_out BandStop (RbjQ sr f q) x m + -1 * rbj_out BandPass2 (RbjQ sr f q) x m) k).
    { intros j k. unfold back. destruct (j <=? k)%nat; ring. }
    rewrite !Eb.
    match goal with |- ?l = _ => replace l with
      (rbj_out BandStop (RbjQ sr f q) x m + -1 * rbj_out BandPass2 (RbjQ sr f q) x m) by ring end.
    rewrite G. field. lra.
  - apply (obeys_unique _ x x (rbj_out BandPass1 (RbjQ sr f q) x)
      (fun m => q * rbj_out BandPass2 (RbjQ sr f q) x m) (fun _ => eq_refl)) with (1 := B1).
    eapply obeys_cast; [|exact (obeys_scale q _ _ _ _ _ _ _ B2)].
    tup; try reflexivity; field; lra.
Qed.

Lemma amp_neg g : amp (- g) = / amp g.
Proof.
  unfold amp. replace (- g / 40) with (- (g / 40)) by field. apply Rpower_Ropp.
Qed.

Lemma amp_0 : amp 0 = 1.
Proof. unfold amp. replace (0 / 40) with 0 by field. apply Rpower_O. lra. Qed.

Lemma valid_neg kind sr f g y : kind = Peak \/ kind = LowShelf \/ kind = HighShelf ->
  valid kind (RbjGain sr f g y) -> valid kind (RbjGain sr f (- g) y).
Proof.
  intros Hk H. assert (Ha := amp_pos g).
  assert (G : valid_slope g y -> valid_slope (- g) y).
  { unfold valid_slope. fold (amp g) (amp (- g)). rewrite amp_neg. cbv zeta.
    replace (/ amp g + 1 / / amp g) with (amp g + 1 / amp g) by (field; lra). auto. }
  destruct Hk as [-> | [-> | ->]]; cbn in *; destruct H as [H1 H2]; auto.
Qed.

Lemma shelf_sp_neg sr f g y : shelf_sp sr f (- g) y = shelf_sp sr f g y / amp g.
Proof.
  assert (Ha := amp_pos g). unfold shelf_sp. rewrite amp_neg.
  replace (/ amp g + 1 / / amp g) with (amp g + 1 / amp g) by (field; lra).
  assert (Hs : 0 < sqrt (amp g)) by (apply sqrt_lt_R0; exact Ha).
  assert (Es : sqrt (amp g) * sqrt (amp g) = amp g) by (apply sqrt_sqrt; lra).
  assert (Ei : sqrt (/ amp g) = sqrt (amp g) / amp g).
  { rewrite sqrt_inv by exact Ha. rewrite <- Es at 3. field. lra. }
  rewrite Ei. field. lra.
Qed.

(*@PROP
(* a valid setting, and one above half the sample rate with a negative q *)
Example C45_complementary_hyps :
  1 + sin (omega 48000 12000) / (2 * 2) <> 0 /\ 1 + sin (omega 48000 36000) / (2 * -2) <> 0.
Proof.
  unfold omega. replace (2 * PI * 12000 / 48000) with (PI / 2) by field.
  replace (2 * PI * 36000 / 48000) with (3 * (PI / 2)) by field.
  rewrite sin_PI2, sin_3PI2. lra.
Qed.
@*)

(** C46: the filter with the opposite gain undoes the filter. *)
Lemma C46_opposite_gains_cancel_thm :
  forall (kind : rbj_kind) sr f g y (x : signal) (n : nat),
    kind = Peak \/ kind = LowShelf \/ kind = HighShelf ->
    valid kind (RbjGain sr f g y) ->
    rbj_out kind (RbjGain sr f (- g) y) (rbj_out kind (RbjGain sr f g y) x) n = x n.
Proof.
  intros kind sr f g y x n Hk H.
  assert (H' := valid_neg kind sr f g y Hk H).
  assert (Ha := amp_pos g).
  assert (O1 := valid_obeys kind _ x H).
  set (z := rbj_out kind (RbjGain sr f g y) x) in *.
  assert (O2 := valid_obeys kind _ z H').
  assert (S1 := raw_stable kind _ H). assert (S2 := raw_stable kind _ H').
  apply (obeys_unique _ z z _ x (fun _ => eq_refl)) with (1 := O2).
  clear O2. destruct Hk as [-> | [-> | ->]]; cbn [raw raw_peak raw_lowshelf raw_highshelf norm6 stable6] in *.
  - rewrite amp_neg in *. set (A := amp g) in *. set (al := alpha_q sr f y) in *.
    set (c := cos (omega sr f)) in *.
    assert (N1 : 1 + al / A <> 0) by lra. 
    assert (N2 : 1 + al / / A <> 0) by lra.
    replace (al / / A) with (al * A) in * by (field; lra).
    assert (N3 : A + al <> 0). { intros E. apply N1. replace al with (- A) by lra. field. lra. }
    eapply obeys_cast; [|apply obeys_inverse; [|exact O1]].
    + tup; field; lra.
    + intros E. apply N2. apply Rmult_eq_reg_r with (/ (1 + al / A)); [|apply Rinv_neq_0_compat; lra].
      rewrite Rmult_0_l. exact E.
  - rewrite amp_neg, shelf_sp_neg in *. set (A := amp g) in *. set (sp := shelf_sp sr f g y) in *.
    set (c := cos (omega sr f)) in *.
    assert (N1 : A + 1 + (A - 1) * c + sp <> 0) by lra.
    assert (N2 : A + 1 - (A - 1) * c + sp <> 0).
    { intros E. destruct S2 as [S2 _].
      replace (/ A + 1 + (/ A - 1) * c + sp / A) with ((A + 1 - (A - 1) * c + sp) / A) in S2 by (field; lra).
      rewrite E in S2. unfold Rdiv in S2. lra. }
    eapply obeys_cast; [|apply obeys_inverse; [|exact O1]].
    + tup; field; repeat split; lra.
    + intros E. apply Rmult_integral in E. destruct E as [E|E].
      * apply Rmult_integral in E. destruct E; lra.
      * apply Rinv_neq_0_compat in N1. lra.
  - rewrite amp_neg, shelf_sp_neg in *. set (A := amp g) in *. set (sp := shelf_sp sr f g y) in *.
    set (c := cos (omega sr f)) in *.
    assert (N1 : A + 1 - (A - 1) * c + sp <> 0) by lra.
    assert (N2 : A + 1 + (A - 1) * c + sp <> 0).
    { intros E. destruct S2 as [S2 _].
      replace (/ A + 1 - (/ A - 1) * c + sp / A) with ((A + 1 + (A - 1) * c + sp) / A) in S2 by (field; lra).
      rewrite E in S2. unfold Rdiv in S2. lra. }
    eapply obeys_cast; [|apply obeys_inverse; [|exact O1]].
    + tup; field; repeat split; lra.
    + intros E. apply Rmult_integral in E. destruct E as [E|E].
      * apply Rmult_integral in E. destruct E; lra.
      * apply Rinv_neq_0_compat in N1. lra.
Qed.

(** C46: zero gain changes nothing. *)
Lemma C46_zero_gain_thm :
  forall (kind : rbj_kind) sr f y (x : signal) (n : nat),
    kind = Peak \/ kind = LowShelf \/ kind = HighShelf ->
    valid kind (RbjGain sr f 0 y) -> rbj_out kind (RbjGain sr f 0 y) x n = x n.
Proof.
  intros kind sr f y x n Hk H.
  assert (O1 := valid_obeys kind _ x H). assert (S1 := raw_stable kind _ H).
  apply (obeys_unique _ x x _ x (fun _ => eq_refl)) with (1 := O1). clear O1.
  destruct Hk as [-> | [-> | ->]]; cbn [raw raw_peak raw_lowshelf raw_highshelf norm6 stable6] in *;
    rewrite amp_0 in *.
  - eapply obeys_cast; [|apply (obeys_id (-2 * cos (omega sr f) / (1 + alpha_q sr f y / 1))
      ((1 - alpha_q sr f y / 1) / (1 + alpha_q sr f y / 1)))].
    tup; field; lra.
  - eapply obeys_cast; [|apply obeys_id]. tup; try reflexivity; field; lra.
  - eapply obeys_cast; [|apply obeys_id]. tup; try reflexivity; field; lra.
Qed.
