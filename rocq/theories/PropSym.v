(** Properties C104 and C105: symmetries of the RBJ settings, and settings outside the
    documented range.

    Vocabulary: [SymSpec], [RbjSpec] ([rbj_out], [omega], [db_factor]), [SysSpec] ([impulse],
    [bounded]), [FloatSpec], [Device]. *)
From Coq Require Import ZArith Reals List Lra Lia.
From Flocq Require Import Core.Core IEEE754.BinarySingleNaN.
From Verif Require Import Base Num NumR NumF FloatSpec RbjM Device Signal RbjSpec SysSpec Witness SymSpec SymMain.
Import ListNotations.
Open Scope R_scope.

(** C104: turning the spectrum of the input upside down (inverting every other sample) and
    using the mirrored filter (low pass for high pass, low shelf for high shelf, at half the
    sample rate minus the frequency) turns the spectrum of the output upside down: sample for
    sample, for every input and every setting. *)

Theorem C104_mirror :
  forall (kind : rbj_kind) (a : rbj_args R) (x : signal), rate_of a <> 0 ->
    forall n, rbj_out (mirror_kind kind) (mirror_setting a) (alternated x) n = alternated (rbj_out kind a x) n.
Proof. exact C104_mirror_thm. Qed.
Print Assumptions C104_mirror.

(** C104: only the ratio of the frequency to the sample rate matters. *)

Theorem C104_rescale :
  forall (kind : rbj_kind) (a : rbj_args R) (k : R), rate_of a <> 0 -> k <> 0 ->
    same_setting (dev_rbj R_ops kind) (moved (k * rate_of a) (k * freq_of a) a) a.
Proof. exact C104_rescale_thm. Qed.
Print Assumptions C104_rescale.

(** C104: frequencies that differ by a multiple of the sample rate give the same filter. *)

Theorem C104_alias :
  forall (kind : rbj_kind) (a : rbj_args R) (k : Z), rate_of a <> 0 ->
    same_setting (dev_rbj R_ops kind) (moved (rate_of a) (freq_of a + IZR k * rate_of a) a) a.
Proof. exact C104_alias_thm. Qed.
Print Assumptions C104_alias.

(** C104 in [f32] and [f64]: multiplying the sample rate and the frequency by the same power
    of two (an oversampled copy of a processor) changes no bit of any later output, as long as
    the frequencies are normal numbers and 16 times them does not overflow. *)

Theorem C104_rescale_float :
  forall (T : Type) (O : num_ops T) (V : float_view T) (kind : rbj_kind) (a : rbj_args T) (sr' f' : T) (k : Z),
    ieee O V ->
    fin V (rate_of a) = true -> fin V sr' = true -> fin V (freq_of a) = true -> fin V f' = true ->
    val V sr' = val V (rate_of a) * powerRZ 2 k -> val V f' = val V (freq_of a) * powerRZ 2 k ->
    val V (rate_of a) <> 0 ->
    fmin V <= Rabs (val V (freq_of a)) <= fmax V / 16 -> fmin V <= Rabs (val V f') <= fmax V / 16 ->
    same_setting (dev_rbj O kind) (moved sr' f' a) a.
Proof. exact C104_rescale_float_thm. Qed.
Print Assumptions C104_rescale_float.

(** A low pass at 1 kHz and 44.1 kHz; its copy at twice the rate. *)
Example C104_hyps :
  let a := RbjQ (fl32 44100 0) (fl32 1000 0) (fl32 1 0) in
  let V := ieee_view 24 128 in
  rate_of (RbjQ 44100 1000 1) <> 0
  /\ mirror_setting (RbjQ 44100 1000 1) = RbjQ 44100 (44100 / 2 - 1000) 1
  /\ moved (fl32 88200 0) (fl32 2000 0) a = RbjQ (fl32 88200 0) (fl32 2000 0) (fl32 1 0)
  /\ val V (fl32 88200 0) = val V (rate_of a) * powerRZ 2 1
  /\ val V (fl32 2000 0) = val V (freq_of a) * powerRZ 2 1
  /\ fmin V <= Rabs (val V (freq_of a)) <= fmax V / 16 /\ fmin V <= Rabs (val V (fl32 2000 0)) <= fmax V / 16.
Proof.
  intros a V. unfold a, V. cbn [rate_of freq_of]. rewrite fl32_val_88200, fl32_val_44100, fl32_val_2000, fl32_val_1000.
  destruct range_1000 as [R1 R2]. rewrite !Rabs_pos_eq by lra.
  change (powerRZ 2 1) with (2 * 1). repeat split; try reflexivity; lra.
Qed.

(** C105: set to a frequency on the wrong side (for positive q and the shelves: between half
    the sample rate and the sample rate, or any alias of that), every RBJ filter answers a
    single click with an output that exceeds every bound. *)

Theorem C105_click :
  forall (kind : rbj_kind) (a : rbj_args R), proper kind a -> ~ right_way kind a ->
    ~ bounded (rbj_out kind a impulse).
Proof. exact C105_click_thm. Qed.
Print Assumptions C105_click.

(** C105: and that is the only way to make it unstable: every bounded input gives a bounded
    output exactly if the frequency is on the right side. *)

Theorem C105_bounded_iff :
  forall (kind : rbj_kind) (a : rbj_args R), proper kind a ->
    ((forall x, bounded x -> bounded (rbj_out kind a x)) <-> right_way kind a).
Proof. exact C105_bounded_iff_thm. Qed.
Print Assumptions C105_bounded_iff.

(** C105, in everyday terms: a frequency above half the sample rate and below the sample rate
    is a broken setting for every kind of filter with otherwise meaningful parameters. *)

Theorem C105_above_nyquist :
  forall (kind : rbj_kind) (a : rbj_args R), takes kind a ->
    rate_of a / 2 < freq_of a < rate_of a -> cookbook_a0 kind a <> 0 ->
    match kind, a with
    | (LowShelf | HighShelf), RbjGain _ _ g slope => valid_slope g slope /\ g <> 0
    | _, RbjGain _ _ g q => 0 < q /\ g <> 0
    | _, RbjQ _ _ q => 0 < q
    end ->
    ~ bounded (rbj_out kind a impulse).
Proof. exact C105_above_nyquist_thm. Qed.
Print Assumptions C105_above_nyquist.

(** C105: set to frequency 0 or to half the sample rate, every RBJ filter multiplies every
    sample by one fixed number: silence, the unchanged input or the gain of the shelf. *)

Theorem C105_edges :
  forall (kind : rbj_kind) (a : rbj_args R) (x : signal), takes kind a -> rate_of a <> 0 ->
    (freq_of a = 0 -> forall n, rbj_out kind a x n = gain_at_zero kind a * x n)
    /\ (freq_of a = rate_of a / 2 -> forall n, rbj_out kind a x n = gain_at_nyquist kind a * x n).
Proof. exact C105_edges_thm. Qed.
Print Assumptions C105_edges.

(** A low pass at three quarters of the sample rate, and one at a quarter. *)
Example C105_hyps :
  proper LowPass (RbjQ 44100 33075 1) /\ ~ right_way LowPass (RbjQ 44100 33075 1)
  /\ proper LowPass (RbjQ 44100 11025 1) /\ right_way LowPass (RbjQ 44100 11025 1)
  /\ takes LowShelf (RbjGain 44100 22050 6 1) /\ freq_of (RbjGain 44100 22050 6 1) = rate_of (RbjGain 44100 22050 6 1) / 2.
Proof.
  unfold proper, right_way, takes, rate_of, freq_of, cookbook_a0, omega.
  replace (2 * PI * 33075 / 44100) with (3 * (PI / 2)) by field.
  replace (2 * PI * 11025 / 44100) with (PI / 2) by field.
  rewrite sin_3PI2, sin_PI2. repeat apply conj; try exact I; lra.
Qed.
