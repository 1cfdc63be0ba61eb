(** Lemmas behind properties C104 and C105.  The [@PROP] blocks are copied into [PropSym.v]. *)
(*@PROP
(** Properties C104 and C105: symmetries of the RBJ settings, and settings outside the
    documented range.

    Vocabulary: [SymSpec], [RbjSpec] ([rbj_out], [omega], [db_factor]), [SysSpec] ([impulse],
    [bounded]), [FloatSpec], [Device]. *)
From Coq Require Import ZArith Reals List Lra Lia.
From Flocq Require Import Core.Core IEEE754.BinarySingleNaN.
From Verif Require Import Base Num NumR NumF FloatSpec RbjM Device Signal RbjSpec SysSpec Witness SymSpec SymMain.
Import ListNotations.
Open Scope R_scope.
@*)
From Coq Require Import ZArith Reals List Lra Lia Psatz.
From Flocq Require Import Core.Core IEEE754.BinarySingleNaN.
From Verif Require Import Base Num NumR NumF FloatSpec FilterM RbjM Device Signal RbjSpec SysSpec SignalFacts FilterFacts RbjFacts
  SysLemmas SymSpec SymLemmas SymFacts SymFltFacts FloatFacts ConstLemmas Witness.
Import ListNotations.
Open Scope R_scope.

(*@PROP
(** C104: turning the spectrum of the input upside down (inverting every other sample) and
    using the mirrored filter (low pass for high pass, low shelf for high shelf, at half the
    sample rate minus the frequency) turns the spectrum of the output upside down: sample for
    sample, for every input and every setting. *)
@*)
Lemma C104_mirror_thm :
  forall (kind : rbj_kind) (a : rbj_args R) (x : signal), rate_of a <> 0 ->
    forall n, rbj_out (mirror_kind kind) (mirror_setting a) (alternated x) n = alternated (rbj_out kind a x) n.
Proof. intros kind a x H n. apply mirror_thm, H. Qed.

(*@PROP
(** C104: only the ratio of the frequency to the sample rate matters. *)
@*)
Lemma C104_rescale_thm :
  forall (kind : rbj_kind) (a : rbj_args R) (k : R), rate_of a <> 0 -> k <> 0 ->
    same_setting (dev_rbj R_ops kind) (moved (k * rate_of a) (k * freq_of a) a) a.
Proof. intros. now apply rescale_thm. Qed.

(*@PROP
(** C104: frequencies that differ by a multiple of the sample rate give the same filter. *)
@*)
Lemma C104_alias_thm :
  forall (kind : rbj_kind) (a : rbj_args R) (k : Z), rate_of a <> 0 ->
    same_setting (dev_rbj R_ops kind) (moved (rate_of a) (freq_of a + IZR k * rate_of a) a) a.
Proof. intros. now apply alias_thm. Qed.

(*@PROP
(** C104 in [f32] and [f64]: multiplying the sample rate and the frequency by the same power
    of two (an oversampled copy of a processor) changes no bit of any later output, as long as
    the frequencies are normal numbers and 16 times them does not overflow. *)
@*)
Lemma C104_rescale_float_thm :
  forall (T : Type) (O : num_ops T) (V : float_view T) (kind : rbj_kind) (a : rbj_args T) (sr' f' : T) (k : Z),
    ieee O V ->
    fin V (rate_of a) = true -> fin V sr' = true -> fin V (freq_of a) = true -> fin V f' = true ->
    val V sr' = val V (rate_of a) * powerRZ 2 k -> val V f' = val V (freq_of a) * powerRZ 2 k ->
    val V (rate_of a) <> 0 ->
    fmin V <= Rabs (val V (freq_of a)) <= fmax V / 16 -> fmin V <= Rabs (val V f') <= fmax V / 16 ->
    same_setting (dev_rbj O kind) (moved sr' f' a) a.
Proof.
  intros T O V kind a sr' f' k HO Fs Fs' Ff Ff' Es Ef Hs Hf Hf'. apply only_w0.
  change (powerRZ 2 k) with (powerRZ (IZR radix2) k) in *. rewrite <- bpow_powerRZ in *.
  assert (M : forall prec emax : Z, (0 < prec)%Z -> fmax (ieee_view prec emax) / 16 <= bpow radix2 (emax - 4)).
  { intros prec emax Hp. cbn [fmax ieee_view]. unfold Zminus. rewrite bpow_plus. change (bpow radix2 (- (4))) with (/ 16).
    assert (0 < bpow radix2 (- prec)) by apply bpow_gt_0. assert (0 < bpow radix2 emax) by apply bpow_gt_0. nra. }
  destruct HO.
  - assert (M' := M 24%Z 128%Z ltac:(lia)).
    cbn [fin val fmin ieee_view] in *. cbn [n_div n_mul f32_ops ieee_ops].
    apply (angle_scale 24 128 _ _ _ _ _ k); try assumption; try lra.
    + reflexivity.
    + lit. cbn. lra.
  - assert (M' := M 53%Z 1024%Z ltac:(lia)).
    cbn [fin val fmin ieee_view] in *. cbn [n_div n_mul f64_ops ieee_ops].
    apply (angle_scale 53 1024 _ _ _ _ _ k); try assumption; try lra.
    + reflexivity.
    + lit. cbn. lra.
Qed.

Lemma fl32_val_44100 : val (ieee_view 24 128) (fl32 44100 0) = 44100.
Proof. cbn [val ieee_view]. lit. cbn. lra. Qed.
Lemma fl32_val_88200 : val (ieee_view 24 128) (fl32 88200 0) = 88200.
Proof. cbn [val ieee_view]. lit. cbn. lra. Qed.
Lemma fl32_val_1000 : val (ieee_view 24 128) (fl32 1000 0) = 1000.
Proof. cbn [val ieee_view]. lit. cbn. lra. Qed.
Lemma fl32_val_2000 : val (ieee_view 24 128) (fl32 2000 0) = 2000.
Proof. cbn [val ieee_view]. lit. cbn. lra. Qed.
Lemma range_1000 : fmin (ieee_view 24 128) <= 1000 /\ 2000 <= fmax (ieee_view 24 128) / 16.
Proof.
  cbn [fmin fmax ieee_view]. split.
  - apply Rle_trans with (bpow radix2 0); [apply bpow_le; lia|cbn; lra].
  - apply Rle_trans with (/ 2 * bpow radix2 16 / 16); [cbn; lra|].
    assert (bpow radix2 (-24) <= / 2) by (apply (bpow_le radix2 (-24) (-1)); lia).
    assert (bpow radix2 16 <= bpow radix2 128) by (apply bpow_le; lia).
    assert (0 < bpow radix2 16) by apply bpow_gt_0. change (- (24))%Z with (-24)%Z. nra.
Qed.

(*@PROP
(** A low pass at 1 kHz and 44.1 kHz; its copy at twice the rate. *)
Example C104_hyps :
  let a := RbjQ (fl32 44100 0) (fl32 1000 0) (fl32 1 0) in
  let V := ieee_view 24 128 in
  rate_of (RbjQ 44100 1000 1) <> 0
  /\ mirror_setting (RbjQ 44100 1000 1) = RbjQ 44100 (44100 / 2 - 1000) 1
  /\ moved (fl32 88200 0) (fl32 2000 0) a = RbjQ (fl32 88200 0) (fl32 2000 0) (fl32 1 0)
  /\ val V (fl32 88200 0) = val V (rate_of a) * powerRZ 2 1
  /\ val V (fl32 2000 0) = val V (freq_of a) * powerRZ 2 1
  /\ fmin V <= Rabs (val V (freq_of a)) <= fmax V / 16 /\ fmin V <= Rabs (val V (fl32 2000 0)) <= fmax V / 16.
Proof.
  intros a V. unfold a, V. cbn [rate_of freq_of]. rewrite fl32_val_88200, fl32_val_44100, fl32_val_2000, fl32_val_1000.
  destruct range_1000 as [R1 R2]. rewrite !Rabs_pos_eq by lra.
  change (powerRZ 2 1) with (2 * 1). repeat split; try reflexivity; lra.
Qed.
@*)

(** ** C105 *)
Lemma pick x y z : 0 < z -> y = x * z -> (0 < x <-> 0 < y) /\ (x < 0 <-> y < 0).
Proof. intros Hz ->. split; split; intros H; nra. Qed.

Lemma odd_way kind a : proper kind a ->
  (right_way kind a -> 0 < odd_part kind a) /\ (~ right_way kind a -> odd_part kind a < 0).
Proof.
  intros [Ht [Hs [H0 Hk]]].
  assert (Q : forall s q, s <> 0 -> q <> 0 -> (0 < s * q -> 0 < s / (2 * q)) /\ (~ 0 < s * q -> s / (2 * q) < 0)).
  { intros s q Ns Nq.
    assert (Qq : 0 < / (2 * q * q)) by (apply Rinv_0_lt_compat; nra).
    replace (s / (2 * q)) with (s * q * / (2 * q * q)) by (field; exact Nq).
    assert (s * q <> 0) by (apply Rmult_integral_contrapositive_currified; assumption).
    generalize dependent (s * q). generalize dependent (/ (2 * q * q)). intros i Qi X NX. split; intros H1.
    - apply Rmult_lt_0_compat; assumption.
    - assert (0 < (- X) * i) by (apply Rmult_lt_0_compat; lra). lra. }
  assert (Z : forall sr f g sl, valid_slope g sl -> sin (omega sr f) <> 0 ->
      (0 < sin (omega sr f) -> 0 < shelf_sp sr f g sl) /\ (~ 0 < sin (omega sr f) -> shelf_sp sr f g sl < 0)).
  { intros sr f g sl [V1 V2] Ns. fold (amp g) in V2. unfold shelf_sp.
    assert (S1 := sqrt_lt_R0 _ V2). assert (S2 := sqrt_lt_R0 _ (amp_pos g)).
    set (r := sqrt (amp g)) in *. set (t := sqrt ((amp g + 1 / amp g) * (1 / sl - 1) + 2)) in *. assert (0 < t * r) by (apply Rmult_lt_0_compat; assumption).
    replace (2 * r * (sin (omega sr f) / 2 * t)) with (sin (omega sr f) * (t * r)) by field. split; intros HH; [apply Rmult_lt_0_compat; assumption|assert (0 < (- sin (omega sr f)) * (t * r)) by (apply Rmult_lt_0_compat; lra); lra]. }
  destruct kind, a; cbn in Ht; try contradiction; cbn [right_way odd_part rate_of freq_of] in *; unfold alpha_q.
  1-6: apply Q; assumption.
  - destruct Hk as [Hq Hg]. destruct (Q _ _ Hs Hq) as [Q1 Q2]. assert (A := amp_pos db_gain).
    assert (I : 0 < / amp db_gain) by (apply Rinv_0_lt_compat; exact A).
    split; intros H; [specialize (Q1 H)|specialize (Q2 H)]; unfold Rdiv in *; nra.
  - apply Z; [apply Hk|exact Hs].
  - apply Z; [apply Hk|exact Hs].
Qed.

(*@PROP
(** C105: set to a frequency on the wrong side (for positive q and the shelves: between half
    the sample rate and the sample rate, or any alias of that), every RBJ filter answers a
    single click with an output that exceeds every bound. *)
@*)
Lemma C105_click_thm :
  forall (kind : rbj_kind) (a : rbj_args R), proper kind a -> ~ right_way kind a ->
    ~ bounded (rbj_out kind a impulse).
Proof.
  intros kind a H W. assert (S := proper_split kind a H). destruct (odd_way kind a H) as [_ O].
  assert (U := split_unstable _ _ _ S (O W)). assert (G := rbj_obeys kind a impulse).
  rewrite (raw_coef kind a (proj1 H)) in G. destruct (norm6 (raw kind a)) as [[[[b0 b1] b2] a1] a2].
  destruct U as [U1 [U2 U3]]. exact (click_grows _ _ _ _ _ _ G U1 U2 U3).
Qed.

(*@PROP
(** C105: and that is the only way to make it unstable: every bounded input gives a bounded
    output exactly if the frequency is on the right side. *)
@*)
Lemma C105_bounded_iff_thm :
  forall (kind : rbj_kind) (a : rbj_args R), proper kind a ->
    ((forall x, bounded x -> bounded (rbj_out kind a x)) <-> right_way kind a).
Proof.
  intros kind a H. assert (S := proper_split kind a H). destruct (odd_way kind a H) as [P _]. split.
  - intros B. assert (D : right_way kind a \/ ~ right_way kind a).
    { destruct kind, a; cbn [right_way]; match goal with |- ?x < ?y \/ _ => destruct (Rlt_dec x y); tauto end. }
    destruct D as [D|D]; [exact D|exfalso]. apply (C105_click_thm kind a H D). apply B.
    exists 1. intros [|n]; cbn; [rewrite Rabs_R1|rewrite Rabs_R0]; lra.
  - intros W x [M HM]. assert (St := split_stable _ _ _ S (P W)). assert (G := rbj_obeys kind a x).
    rewrite (raw_coef kind a (proj1 H)) in G. destruct (norm6 (raw kind a)) as [[[[b0 b1] b2] a1] a2].
    destruct (obeys_bound a1 a2 St) as [K [_ HK]]. exists ((Rabs b0 + Rabs b1 + Rabs b2) * K * M).
    intros n. exact (HK _ _ _ _ _ _ G HM n).
Qed.

(*@PROP
(** C105, in everyday terms: a frequency above half the sample rate and below the sample rate
    is a broken setting for every kind of filter with otherwise meaningful parameters. *)
@*)
Lemma C105_above_nyquist_thm :
  forall (kind : rbj_kind) (a : rbj_args R), takes kind a ->
    rate_of a / 2 < freq_of a < rate_of a -> cookbook_a0 kind a <> 0 ->
    match kind, a with
    | (LowShelf | HighShelf), RbjGain _ _ g slope => valid_slope g slope /\ g <> 0
    | _, RbjGain _ _ g q => 0 < q /\ g <> 0
    | _, RbjQ _ _ q => 0 < q
    end ->
    ~ bounded (rbj_out kind a impulse).
Proof.
  intros kind a Ht Hf H0 Hk.
  assert (N : sin (omega (rate_of a) (freq_of a)) < 0).
  { unfold omega. set (sr := rate_of a) in *. set (f := freq_of a) in *.
    assert (P := PI_RGT_0). assert (0 < sr) by lra.
    assert (E : f = f / sr * sr) by (field; lra). set (t := f / sr) in *.
    assert (/ 2 < t < 1) by (split; nra).
    replace (2 * PI * f / sr) with (2 * PI * t) by (unfold t; field; lra). apply sin_lt_0; nra. }
  assert (Q : match kind, a with
     | (LowShelf | HighShelf), RbjGain _ _ g slope => valid_slope g slope /\ g <> 0
     | _, RbjGain _ _ g q => q <> 0 /\ g <> 0
     | _, RbjQ _ _ q => q <> 0
     end).
  { destruct kind, a; cbn in Ht; try contradiction; try exact Hk.
    1-6: apply Rgt_not_eq; exact Hk.
    split; [apply Rgt_not_eq|]; apply Hk. }
  assert (P : proper kind a) by (split; [exact Ht|split; [lra|split; [exact H0|exact Q]]]).
  assert (W : ~ right_way kind a).
  { destruct kind, a; cbn in Ht; try contradiction; cbn [right_way rate_of freq_of] in *; nra. }
  exact (C105_click_thm kind a P W).
Qed.

Lemma edge_out kind a x g : takes kind a ->
  (let '(b0, b1, b2, a0, a1, a2) := raw kind a in a0 <> 0 /\ b0 = g * a0 /\ b1 = g * a1 /\ b2 = g * a2) ->
  forall n, rbj_out kind a x n = g * x n.
Proof.
  intros Ht H n. assert (G := rbj_obeys kind a x). rewrite (raw_coef kind a Ht) in G.
  destruct (raw kind a) as [[[[[b0 b1] b2] a0] a1] a2]. destruct H as [Z [-> [-> ->]]]. cbn [norm6] in G.
  apply (obeys_unique (g * a0 / a0, g * a1 / a0, g * a2 / a0, a1 / a0, a2 / a0) x x (rbj_out kind a x) (fun n => g * x n)); [reflexivity|exact G|].
  apply (obeys_cast (g * 1, g * (a1 / a0), g * (a2 / a0), a1 / a0, a2 / a0)).
  - repeat apply (f_equal2 pair); field; exact Z.
  - apply obeys_scale, obeys_id.
Qed.

Lemma amp_sq g : amp g * amp g = db_factor g.
Proof. unfold amp, db_factor. rewrite <- Rpower_plus. f_equal. field. Qed.

(*@PROP
(** C105: set to frequency 0 or to half the sample rate, every RBJ filter multiplies every
    sample by one fixed number: silence, the unchanged input or the gain of the shelf. *)
@*)
Lemma C105_edges_thm :
  forall (kind : rbj_kind) (a : rbj_args R) (x : signal), takes kind a -> rate_of a <> 0 ->
    (freq_of a = 0 -> forall n, rbj_out kind a x n = gain_at_zero kind a * x n)
    /\ (freq_of a = rate_of a / 2 -> forall n, rbj_out kind a x n = gain_at_nyquist kind a * x n).
Proof.
  intros kind a x Ht Hr.
  assert (W0 : freq_of a = 0 -> cos (omega (rate_of a) (freq_of a)) = 1 /\ sin (omega (rate_of a) (freq_of a)) = 0).
  { intros ->. unfold omega. replace (2 * PI * 0 / rate_of a) with 0 by (field; exact Hr). split; [apply cos_0|apply sin_0]. }
  assert (W1 : freq_of a = rate_of a / 2 -> cos (omega (rate_of a) (freq_of a)) = -1 /\ sin (omega (rate_of a) (freq_of a)) = 0).
  { intros ->. unfold omega. replace (2 * PI * (rate_of a / 2) / rate_of a) with PI by (field; exact Hr). split; [apply cos_PI|apply sin_PI]. }
  assert (SP : forall sr f g sl, sin (omega sr f) = 0 -> shelf_sp sr f g sl = 0).
  { intros sr f g sl E. unfold shelf_sp. rewrite E. unfold Rdiv. ring. }
  assert (AL : forall sr f q, sin (omega sr f) = 0 -> alpha_q sr f q = 0).
  { intros sr f q E. unfold alpha_q. rewrite E. unfold Rdiv. ring. }
  split; intros E; [destruct (W0 E) as [C S]|destruct (W1 E) as [C S]]; apply edge_out; try exact Ht.
  all: destruct kind, a; cbn in Ht; try contradiction; cbn [rate_of freq_of] in *;
    cbn [raw raw_q gain_at_zero gain_at_nyquist]; unfold raw_q, raw_peak, raw_lowshelf, raw_highshelf;
    rewrite C, ?SP, ?AL by exact S; repeat split; try lra.
  all: assert (A := amp_pos db_gain); rewrite <- ?amp_sq; try lra; try (field; lra); unfold Rdiv; lra.
Qed.

(*@PROP
(** A low pass at three quarters of the sample rate, and one at a quarter. *)
Example C105_hyps :
  proper LowPass (RbjQ 44100 33075 1) /\ ~ right_way LowPass (RbjQ 44100 33075 1)
  /\ proper LowPass (RbjQ 44100 11025 1) /\ right_way LowPass (RbjQ 44100 11025 1)
  /\ takes LowShelf (RbjGain 44100 22050 6 1) /\ freq_of (RbjGain 44100 22050 6 1) = rate_of (RbjGain 44100 22050 6 1) / 2.
Proof.
  unfold proper, right_way, takes, rate_of, freq_of, cookbook_a0, omega.
  replace (2 * PI * 33075 / 44100) with (3 * (PI / 2)) by field.
  replace (2 * PI * 11025 / 44100) with (PI / 2) by field.
  rewrite sin_3PI2, sin_PI2. repeat apply conj; try exact I; lra.
Qed.
@*)
