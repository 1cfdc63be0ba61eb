(** Proofs of C87-C89: the setters of the RBJ filters in floating point. *)
From Coq Require Import ZArith NArith Nnat Reals List Bool Lra Lia.
From Flocq Require Import Core.Core Mult_error IEEE754.BinarySingleNaN.
From Verif Require Import Base Num NumF FloatSpec FloatFacts Witness CrLibm FilterM RbjM Device Signal FltFilterSpec
  FltFilterFacts ConstLemmas RbjFltSpec RbjFltFacts RbjFltFacts2 RbjShelfFacts BlowFacts.
Import ListNotations.
Open Scope R_scope.

(*@PROP
(** Properties C87-C89: the setters of the RBJ filters in [f32] and [f64].

    Vocabulary: [RbjFltSpec], [FltFilterSpec], [FloatSpec]. *)
From Coq Require Import ZArith Reals List Bool Lra Lia.
From Flocq Require Import Core.Core IEEE754.BinarySingleNaN.
From Verif Require Import Base Num NumF FloatSpec FloatFacts Witness CrLibm FilterM RbjM Device Signal FltFilterSpec
  RbjFltSpec RbjFltLemmas.
Import ListNotations.
Open Scope R_scope.

@*)

(** The filter is mute: its memories are zeros and stay so. *)
Section Mute.
  Context (prec emax : Z) {Hp : Prec_gt_0 prec} {Hm : Prec_lt_emax prec emax}
    (pim pie sz : Z) (lm : libm (binary_float prec emax)) (nn : bool).
  Notation F := (binary_float prec emax).
  Notation O := (ieee_ops prec emax pim pie sz lm nn).
  Notation V := (ieee_view prec emax).
  Notation iz := (is_zero prec emax).

  Lemma mul_zero_r x z : is_finite x = true -> iz z -> iz (f_mul prec emax x z).
  Proof. intros Hx [s ->]. destruct x; try discriminate; eexists; reflexivity. Qed.

  Definition mute (s : biquad2 F) : Prop :=
    (iz (b2_b0 s) /\ iz (b2_b1 s) /\ iz (b2_b2 s) /\ is_finite (b2_a1 s) = true /\ is_finite (b2_a2 s) = true)
    /\ iz (b2_z1 s) /\ iz (b2_z2 s) /\ iz (b2_output s).

  Lemma mute_step s x : mute s -> is_finite x = true ->
    mute (fst (biquad2_process O s x)) /\ iz (snd (biquad2_process O s x)).
  Proof.
    intros [[H0 [H1 [H2 [H3 H4]]]] [Z1 [Z2 Zo]]] Hx. unfold mute.
    cbn [biquad2_process fst snd b2_b0 b2_b1 b2_b2 b2_a1 b2_a2 b2_z1 b2_z2 b2_output n_add n_sub n_mul ieee_ops].
    assert (Y : iz (f_add prec emax (f_mul prec emax (b2_b0 s) x) (b2_z1 s))).
    { apply zero_add; [apply mul_zero; assumption|exact Z1]. }
    split; [|exact Y]. split; [repeat split; assumption|]. split; [|split; [|exact Y]].
    - apply zero_sub; [apply zero_add; [apply mul_zero; assumption|exact Z2]|apply mul_zero_r; assumption].
    - apply zero_sub; [apply mul_zero; assumption|apply mul_zero_r; assumption].
  Qed.

  Lemma mute_run kind (calls : list (call (rbj_args F) F)) :
    (forall k, ~ In (CSet k) calls) -> (forall x, In (CProcess x) calls -> is_finite x = true) ->
    forall s, mute s ->
    List.Forall (fun r => r = None \/ exists y, r = Some y /\ is_finite y = true /\ B2R y = 0)
      (map snd (snd (d_run (dev_rbj O kind) s calls))).
  Proof.
    induction calls as [|c calls IH]; intros N X s M; [constructor|]. cbn [d_run].
    assert (St : mute (fst (d_step (dev_rbj O kind) s c))
      /\ (snd (d_step (dev_rbj O kind) s c) = None \/ exists y, snd (d_step (dev_rbj O kind) s c) = Some y /\ iz y)).
    { destruct c as [x| |k|].
      - assert (G := mute_step s x M (X x (or_introl eq_refl))).
        cbn [d_step d_process dev_rbj].
        assert (E : rbj_process O kind s x = biquad2_process O s x) by (destruct kind; reflexivity). rewrite E.
        destruct (biquad2_process O s x) as [s' y]. cbn [fst snd] in *. destruct G as [G1 G2].
        split; [exact G1|right; exists y; split; [reflexivity|exact G2]].
      - cbn [d_step d_clear dev_rbj fst snd]. split; [|left; reflexivity].
        assert (E : rbj_clear O kind s = biquad2_clear O s) by (destruct kind; reflexivity). rewrite E.
        destruct M as [M0 _]. split; [exact M0|]. cbn. repeat split; exists false; reflexivity.
      - exfalso. exact (N k (or_introl eq_refl)).
      - cbn [d_step d_last_out dev_rbj fst snd]. split; [exact M|right]. exists (b2_output s).
        split; [destruct kind; reflexivity|apply M]. }
    destruct (d_step (dev_rbj O kind) s c) as [s1 o]. cbn [fst snd] in St. destruct St as [S1 S2].
    assert (IH' := IH (fun k Hk => N k (or_intror Hk)) (fun x Hx => X x (or_intror Hx)) s1 S1).
    destruct (d_run (dev_rbj O kind) s1 calls) as [s2 log]. cbn [fst snd map] in *. constructor; [|exact IH'].
    destruct S2 as [S2|[y [S2 S3]]]; [left; exact S2|right; exists y; split; [exact S2|exact (is_zero_finite _ _ _ S3)]].
  Qed.

  Lemma mute_set kind s a c : rbj_coeffs O kind a = Some c ->
    (let '(b0, b1, b2, a1, a2) := c in iz b0 /\ iz b1 /\ iz b2 /\ is_finite a1 = true /\ is_finite a2 = true) ->
    mute (d_set (dev_rbj O kind) s a).
  Proof.
    intros E H. destruct c as [[[[b0 b1] b2] a1] a2]. cbn [d_set dev_rbj]. unfold rbj_set_coefficients. rewrite E.
    match goal with |- mute (rbj_clear _ _ ?t) => assert (C : rbj_clear O kind t = biquad2_clear O t) by (destruct kind; reflexivity); rewrite C end.
    split; [exact H|]. cbn. repeat split; exists false; reflexivity.
  Qed.
End Mute.

Lemma after_app {S K T} (D : device S K T) cs k : after D (cs ++ [CSet k]) = d_set D (after D cs) k.
Proof.
  unfold after. generalize (d_new D) as s. induction cs as [|c cs IH]; intros s; [reflexivity|].
  cbn [app d_run]. destruct (d_step D s c) as [s1 o]. specialize (IH s1).
  destruct (d_run D s1 (cs ++ [CSet k])) as [s2 l2]. destruct (d_run D s1 cs) as [s3 l3]. exact IH.
Qed.

(** C87: [LowPass] turns into a mute when its cutoff is below the 2^-15th part of the
    sample rate in [f32] (1.3 Hz at 44100 Hz; 2^-30 in [f64]): whatever happened before
    and whatever finite samples follow, it returns nothing but zeros.  (With real
    numbers a constant passes unchanged, C38.) *)
Lemma C87_low_cutoff_passes_refuted_thm :
  forall (T : Type) (O : num_ops T) (V : float_view T), ieee O V -> trig_rounded O V ->
  forall sr f q, usual_rate V sr -> fin V f = true -> 0 <= val V f <= lost V * val V sr ->
    fin V q = true -> / 1024 <= val V q <= 1024 ->
  forall before calls,
    (forall k, ~ In (CSet k) calls) -> (forall x, In (CProcess x) calls -> fin V x = true) ->
    List.Forall (fun r => r = None \/ exists y, r = Some y /\ fin V y = true /\ val V y = 0)
      (returns (dev_rbj O LowPass) (before ++ [CSet (RbjQ sr f q)]) calls).
Proof.
  intros T O V HO HT sr f q Hr Ff Hf Fq Hq before calls N X.
  destruct (C86_constants_thm T O V HO) as [P1 [P2 _]]. unfold returns. rewrite after_app.
  destruct HO.
  - apply mute_run; try assumption. eapply mute_set; [reflexivity|].
    exact (lost_coeffs 24 128 ltac:(lia) ltac:(lia) 13176795 (-22) 4 lm b P1 P2 sr f q HT Hr Ff Hf Fq Hq).
  - apply mute_run; try assumption. eapply mute_set; [reflexivity|].
    exact (lost_coeffs 53 1024 ltac:(lia) ltac:(lia) 7074237752028440 (-51) 8 lm b P1 P2 sr f q HT Hr Ff Hf Fq Hq).
Qed.
(** C88: an [f32] filter can be unstable.  At 48000 Hz with a cutoff of 1 Hz and
    Q = 1/sqrt 2 the six filters with a Q get feedback coefficients with
    1 + a1 + a2 < 0, so the exact difference equation with them has a growing
    solution.  (The ideal filter is stable, C37.) *)
Lemma C88_float_setting_stable_refuted_thm :
  forall (lm : libm f32) (b : bool), let O := f32_ops lm b in let V := ieee_view 24 128 in trig_rounded O V ->
  forall kind b0 b1 b2 a1 a2,
    rbj_coeffs O kind (RbjQ (fl32 48000 0) (fl32 1 0) (fl32 11863283 (-24))) = Some (b0, b1, b2, a1, a2) ->
    fin V a1 = true /\ fin V a2 = true /\ 1 + val V a1 + val V a2 < 0 /\ ~ stable (val V a1) (val V a2).
Proof.
  intros lm b O V HT kind b0 b1 b2 a1 a2 E.
  assert (G : B2SF a1 = SpecFloat.S754_finite true 16775664 (-23) /\ B2SF a2 = SpecFloat.S754_finite false 16774111 (-24)).
  { destruct kind; cbn [rbj_coeffs] in E; try discriminate;
      unfold lowpass_coeffs, highpass_coeffs, bandpass1_coeffs, bandpass2_coeffs, bandstop_coeffs, allpass_coeffs, normalised in E;
      cbv zeta in E; unfold O in E; rewrite (cos_w lm b HT), (sin_w lm b HT) in E;
      apply feedback_eq in E; destruct E as [<- <-]; split; vm_compute; reflexivity. }
  destruct G as [G1 G2]. cbn [fin val ieee_view V].
  assert (S : 1 + B2R a1 + B2R a2 < 0).
  { rewrite <- (SF2R_B2SF _ _ a1), <- (SF2R_B2SF _ _ a2), G1, G2. cbn. unfold F2R. cbn. lra. }
  split; [exact (sf_finite _ _ _ _ G1)|]. split; [exact (sf_finite _ _ _ _ G2)|].
  split; [exact S|]. intros [_ H]. apply Rabs_def2 in H. lra.
Qed.
(** C88: and it does grow in [f32] arithmetic: one sample of 1 followed by silence
    makes [HighPass] return more than 500 after 96000 samples (2 seconds). *)
Lemma C88_click_dies_out_refuted_thm :
  forall (lm : libm f32) (b : bool), let O := f32_ops lm b in let V := ieee_view 24 128 in trig_rounded O V ->
  let y := stream (dev_rbj O HighPass) (RbjQ (fl32 48000 0) (fl32 1 0) (fl32 11863283 (-24))) (click O) in
  exists n, Z.of_nat n = 96000%Z /\ fin V (y n) = true /\ 500 <= val V (y n).
Proof.
  intros lm b O V HT y.
  exists (S (N.to_nat 95999)). split; [rewrite Nat2Z.inj_succ, N_nat_Z; reflexivity|].
  assert (G := sf_loud _ _ (click_out lm b HT 95999 _ eq_refl) run_loud).
  split; [exact (sf_finite _ _ _ _ G)|]. cbn [val ieee_view V].
  rewrite <- (SF2R_B2SF _ _ (y _)). unfold y, O. rewrite G. cbn. unfold F2R. cbn. lra.
Qed.
(** C89: in the safe band (2^-10 of the sample rate away from 0 and from half the
    sample rate in [f32], 2^-24 in [f64]) the six filters with a Q from 1/64 to 1024 get
    finite coefficients whose feedback is stable, although the setter rounds. *)
Lemma C89_float_setting_stable_thm :
  forall (T : Type) (O : num_ops T) (V : float_view T), ieee O V -> trig_close O V ->
  forall kind sr f q b0 b1 b2 a1 a2, safe_band V sr f -> fin V q = true -> / 64 <= val V q <= 1024 ->
    rbj_coeffs O kind (RbjQ sr f q) = Some (b0, b1, b2, a1, a2) ->
    all_finite V (b0, b1, b2, a1, a2) /\ stable (val V a1) (val V a2).
Proof.
  intros T O V HO HT kind sr f q b0 b1 b2 a1 a2 HB Fq Hq E.
  destruct (C86_constants_thm T O V HO) as [P1 [P2 _]]. destruct HO.
  - assert (G := q_kinds 24 128 ltac:(lia) ltac:(lia) 13176795 (-22) 4 lm b P1 P2 kind sr f q HT HB Fq Hq).
    change (ieee_ops 24 128 13176795 (-22) 4 lm b) with (f32_ops lm b) in G. rewrite E in G. exact G.
  - assert (G := q_kinds 53 1024 ltac:(lia) ltac:(lia) 7074237752028440 (-51) 8 lm b P1 P2 kind sr f q HT HB Fq Hq).
    change (ieee_ops 53 1024 7074237752028440 (-51) 8 lm b) with (f64_ops lm b) in G. rewrite E in G. exact G.
Qed.
(** C89, continued: [Peak] (Q from 1/16 to 256) and the shelves (slope from 1/16 to 1)
    with a gain of at most 24 dB either way. *)
Lemma C89_float_gain_setting_stable_thm :
  forall (T : Type) (O : num_ops T) (V : float_view T), ieee O V -> trig_close O V -> pow10_rounded O V ->
  forall kind sr f g x b0 b1 b2 a1 a2, safe_band V sr f -> fin V g = true -> Rabs (val V g) <= 24 -> fin V x = true ->
    (kind = Peak /\ / 16 <= val V x <= 256 \/ (kind = LowShelf \/ kind = HighShelf) /\ / 16 <= val V x <= 1) ->
    rbj_coeffs O kind (RbjGain sr f g x) = Some (b0, b1, b2, a1, a2) ->
    all_finite V (b0, b1, b2, a1, a2) /\ stable (val V a1) (val V a2).
Proof.
  intros T O V HO HT HP kind sr f g x b0 b1 b2 a1 a2 HB Fg Hg Fx Hk E.
  destruct (C86_constants_thm T O V HO) as [P1 [P2 _]]. destruct HO.
  - assert (T1 : is_finite (n_of_f64 (f32_ops lm b) (F64lit 10 1)) = true /\ B2R (n_of_f64 (f32_ops lm b) (F64lit 10 1)) = 10).
    { split; [vm_compute; reflexivity|]. lit. cbn. lra. }
    assert (T2 : is_finite (n_of_f64 (f32_ops lm b) (F64lit 40 1)) = true /\ B2R (n_of_f64 (f32_ops lm b) (F64lit 40 1)) = 40).
    { split; [vm_compute; reflexivity|]. lit. cbn. lra. }
    destruct Hk as [[-> Hx]|[Hk Hx]].
    + assert (G := peak_kind 24 128 ltac:(lia) ltac:(lia) 13176795 (-22) 4 lm b P1 P2 T1 T2 sr f g x HT HP HB Fx Fg Hx Hg).
      change (ieee_ops 24 128 13176795 (-22) 4 lm b) with (f32_ops lm b) in G. rewrite E in G. exact G.
    + assert (G := shelf_kinds 24 128 ltac:(lia) ltac:(lia) 13176795 (-22) 4 lm b P1 P2 T1 T2 kind sr f g x Hk HT HP HB Fx Fg Hx Hg).
      change (ieee_ops 24 128 13176795 (-22) 4 lm b) with (f32_ops lm b) in G. rewrite E in G. exact G.
  - assert (T1 : is_finite (n_of_f64 (f64_ops lm b) (F64lit 10 1)) = true /\ B2R (n_of_f64 (f64_ops lm b) (F64lit 10 1)) = 10).
    { split; [vm_compute; reflexivity|]. lit. cbn. lra. }
    assert (T2 : is_finite (n_of_f64 (f64_ops lm b) (F64lit 40 1)) = true /\ B2R (n_of_f64 (f64_ops lm b) (F64lit 40 1)) = 40).
    { split; [vm_compute; reflexivity|]. lit. cbn. lra. }
    destruct Hk as [[-> Hx]|[Hk Hx]].
    + assert (G := peak_kind 53 1024 ltac:(lia) ltac:(lia) 7074237752028440 (-51) 8 lm b P1 P2 T1 T2 sr f g x HT HP HB Fx Fg Hx Hg).
      change (ieee_ops 53 1024 7074237752028440 (-51) 8 lm b) with (f64_ops lm b) in G. rewrite E in G. exact G.
    + assert (G := shelf_kinds 53 1024 ltac:(lia) ltac:(lia) 7074237752028440 (-51) 8 lm b P1 P2 T1 T2 kind sr f g x Hk HT HP HB Fx Fg Hx Hg).
      change (ieee_ops 53 1024 7074237752028440 (-51) 8 lm b) with (f64_ops lm b) in G. rewrite E in G. exact G.
Qed.

(** A library with correctly rounded functions meets the assumptions. *)
Lemma rounded_close {T} (O : num_ops T) (V : float_view T) : ieee O V -> trig_rounded O V -> trig_close O V.
Proof.
  intros HO HT x Fx _. destruct (HT x Fx) as [[S1 S2] [C1 C2]].
  assert (G : forall z, -1 <= z <= 1 -> Rabs (rnd V z - z) <= bpow radix2 (1 - fprec V) /\ Rabs (rnd V z) <= 1).
  { assert (K : forall prec emax (Hp : Prec_gt_0 prec) (Hm : Prec_lt_emax prec emax), (24 <= prec)%Z -> (prec + 100 <= emax)%Z -> forall z, -1 <= z <= 1 ->
      Rabs (rnd (ieee_view prec emax) z - z) <= bpow radix2 (1 - fprec (ieee_view prec emax)) /\ Rabs (rnd (ieee_view prec emax) z) <= 1).
    { intros prec emax Hp Hm Hp24 Hbig z Hz. cbn [rnd fprec ieee_view]. assert (U := u_small prec Hp24). assert (E := et_small prec emax Hbig).
      assert (Ez : Rabs (round radix2 (SpecFloat.fexp prec emax) (round_mode mode_NE) z - z) <= uro prec * 1 + eta prec emax)
        by (apply (err prec emax Hp24), Rabs_le; lra).
      split.
      - eapply Rle_trans; [exact Ez|]. replace (1 - prec)%Z with (1 + - prec)%Z by lia. rewrite bpow_plus. change (bpow radix2 1) with 2.
        change (bpow radix2 (- prec)) with (uro prec). nra.
      - apply (RN_abs_le prec emax); [apply (format_F2R_1 prec emax)|apply Rabs_le; lra]. }
    destruct HO; [exact (K 24%Z 128%Z _ _ ltac:(lia) ltac:(lia))|exact (K 53%Z 1024%Z _ _ ltac:(lia) ltac:(lia))]. }
  destruct (G _ (SIN_bound (val V x))) as [G1 G2]. destruct (G _ (COS_bound (val V x))) as [G3 G4].
  rewrite S2, C2. repeat split; assumption.
Qed.

Section Cr.
  Context (prec emax : Z) {Hp : Prec_gt_0 prec} {Hm : Prec_lt_emax prec emax} (Hm1 : (1 <= emax)%Z)
    (pim pie sz : Z) (nn : bool).
  Notation O := (ieee_ops prec emax pim pie sz (cr_libm prec emax) nn).
  Notation V := (ieee_view prec emax).
  Lemma cr_trig : trig_rounded O V.
  Proof.
    intros x Fx. assert (K : forall g : R -> R, (forall z, -1 <= g z <= 1) ->
      is_finite (lift1 prec emax g x) = true
      /\ B2R (lift1 prec emax g x) = round radix2 (SpecFloat.fexp prec emax) (round_mode mode_NE) (g (B2R x))).
    { intros g Hg.
      assert (E : lift1 prec emax g x = R2F prec emax (g (B2R x))) by (destruct x; try discriminate; reflexivity).
      rewrite E. apply R2F_ok. apply Rle_lt_trans with 1.
      - apply (RN_abs_le prec emax); [apply (format_F2R_1 prec emax)|apply Rabs_le, Hg].
      - change 1 with (bpow radix2 0). apply bpow_lt. lia. }
    split; apply K; [apply SIN_bound|apply COS_bound].
  Qed.
  Lemma cr_pow10 : pow10_rounded O V.
  Proof.
    intros ten y Ft Vt Fy Hr. cbn [val fin rnd fmax ieee_view n_powf ieee_ops] in *.
    assert (E : m_powf (cr_libm prec emax) ten y = R2F prec emax (Rpower 10 (B2R y))).
    { rewrite <- Vt. destruct ten as [s|s| |s m e H]; try discriminate; [cbn in Vt; lra|]. destruct s.
      - exfalso. assert (P := F2R_lt_0 radix2 (Float radix2 (Z.neg m) e) eq_refl).
        change (F2R (Float radix2 (Z.neg m) e)) with (B2R (B754_finite true m e H)) in P. lra.
      - destruct y; try discriminate; reflexivity. }
    rewrite E. apply R2F_ok. eapply Rle_lt_trans; [exact Hr|].
    assert (P1 := bpow_gt_0 radix2 (- prec)). assert (P2 := bpow_gt_0 radix2 emax). nra.
  Qed.
End Cr.

Lemma C87_hyps_aux : let O := f32_ops (cr_libm 24 128) false in let V := ieee_view 24 128 in
  ieee O V /\ trig_rounded O V
  /\ usual_rate V (fl32 44100 0) /\ 0 <= val V (fl32 1 0) <= lost V * val V (fl32 44100 0)
  /\ fin V (fl32 11 (-4)) = true /\ / 1024 <= val V (fl32 11 (-4)) <= 1024.
Proof.
  cbv zeta. split; [constructor|]. split; [apply cr_trig; lia|]. unfold usual_rate, lost. cbn [fprec fin val ieee_view].
  change ((24 + 1) / 2)%Z with 12%Z.
  split; [split; [vm_compute; reflexivity|lit; cbn; lra]|].
  split; [lit; cbn; lra|]. split; [vm_compute; reflexivity|lit; cbn; lra].
Qed.
Lemma C89_hyps_aux : let O := f32_ops (cr_libm 24 128) false in let V := ieee_view 24 128 in
  ieee O V /\ trig_close O V /\ pow10_rounded O V /\ safe_band V (fl32 44100 0) (fl32 1000 0)
  /\ safe_band V (fl32 44100 0) (fl32 20000 0)
  /\ fin V (fl32 11 (-4)) = true /\ / 16 <= val V (fl32 11 (-4)) <= 1
  /\ fin V (fl32 (-12) 0) = true /\ Rabs (val V (fl32 (-12) 0)) <= 24.
Proof.
  cbv zeta. split; [constructor|]. split; [apply rounded_close; [constructor|apply cr_trig; lia]|]. split; [apply cr_pow10|].
  unfold safe_band, usual_rate, margin. cbn [fprec fin val ieee_view]. change (2 - 24 / 2)%Z with (-10)%Z.
  split; [split; [split; [vm_compute; reflexivity|lit; cbn; lra]|split; [vm_compute; reflexivity|lit; cbn; lra]]|].
  split; [split; [split; [vm_compute; reflexivity|lit; cbn; lra]|split; [vm_compute; reflexivity|lit; cbn; lra]]|].
  split; [vm_compute; reflexivity|]. split; [lit; cbn; lra|]. split; [vm_compute; reflexivity|]. apply Rabs_le. lit; cbn; lra.
Qed.
(*@PROP
(** C87 is met by a library with correctly rounded functions, 44100 Hz, a cutoff of
    1 Hz and Q = 0.6875 in [f32]. *)
Example C87_hyps : let O := f32_ops (cr_libm 24 128) false in let V := ieee_view 24 128 in
  ieee O V /\ trig_rounded O V
  /\ usual_rate V (fl32 44100 0) /\ 0 <= val V (fl32 1 0) <= lost V * val V (fl32 44100 0)
  /\ fin V (fl32 11 (-4)) = true /\ / 1024 <= val V (fl32 11 (-4)) <= 1024.
Proof. exact C87_hyps_aux. Qed.

(** C89 is met by the same library, 44100 Hz, 1 kHz and 20 kHz, Q or slope 0.6875, -12 dB. *)
Example C89_hyps : let O := f32_ops (cr_libm 24 128) false in let V := ieee_view 24 128 in
  ieee O V /\ trig_close O V /\ pow10_rounded O V /\ safe_band V (fl32 44100 0) (fl32 1000 0)
  /\ safe_band V (fl32 44100 0) (fl32 20000 0)
  /\ fin V (fl32 11 (-4)) = true /\ / 16 <= val V (fl32 11 (-4)) <= 1
  /\ fin V (fl32 (-12) 0) = true /\ Rabs (val V (fl32 (-12) 0)) <= 24.
Proof. exact C89_hyps_aux. Qed.
@*)
(*@PROP
(** C88 is met by a library with correctly rounded functions. *)
Example C88_hyps : trig_rounded (f32_ops (cr_libm 24 128) false) (ieee_view 24 128).
Proof. apply cr_trig. lia. Qed.
@*)
