(** Vocabulary of the properties about symmetric, rescaled and out-of-range settings of the
    RBJ filters (C104, C105). *)
From Coq Require Import Reals List.
From Verif Require Import Num NumR RbjM Device Signal RbjSpec.
Import ListNotations.
Open Scope R_scope.

(** Every session that makes the setting [a] at some point returns the same values if it
    makes the setting [a'] instead. *)
Definition same_setting {S K T} (D : device S K T) (a a' : K) : Prop :=
  forall before later, returns D before (CSet a :: later) = returns D before (CSet a' :: later).

(** The sample rate and the frequency of a setting. *)
Definition rate_of {T} (a : rbj_args T) : T :=
  match a with RbjQ sr _ _ => sr | RbjGain sr _ _ _ => sr end.
Definition freq_of {T} (a : rbj_args T) : T :=
  match a with RbjQ _ f _ => f | RbjGain _ f _ _ => f end.

(** The same setting at another sample rate and frequency. *)
Definition moved {T} (sr f : T) (a : rbj_args T) : rbj_args T :=
  match a with RbjQ _ _ q => RbjQ sr f q | RbjGain _ _ g q => RbjGain sr f g q end.

(** The filter that treats high frequencies the way this one treats low ones. *)
Definition mirror_kind (kind : rbj_kind) : rbj_kind :=
  match kind with
  | LowPass => HighPass | HighPass => LowPass
  | LowShelf => HighShelf | HighShelf => LowShelf
  | k => k
  end.
Definition mirror_setting (a : rbj_args R) : rbj_args R :=
  moved (rate_of a) (rate_of a / 2 - freq_of a) a.

(** Every other sample inverted: the spectrum upside down. *)
Definition alternated (x : signal) : signal := fun n => (-1) ^ n * x n.

(** The kind takes this form of arguments. *)
Definition takes {T} (kind : rbj_kind) (a : rbj_args T) : Prop :=
  match kind, a with
  | (Peak | LowShelf | HighShelf), RbjGain _ _ _ _ => True
  | (LowPass | HighPass | BandPass1 | BandPass2 | BandStop | AllPass), RbjQ _ _ _ => True
  | _, _ => False
  end.

(** ** Settings outside the documented range *)

(** The gain of a filter whose frequency is 0 ... *)
Definition gain_at_zero (kind : rbj_kind) (a : rbj_args R) : R :=
  match kind, a with
  | (LowPass | BandPass1 | BandPass2), _ => 0
  | HighShelf, RbjGain _ _ g _ => db_factor g
  | _, _ => 1
  end.
(** ... and of one whose frequency is half the sample rate. *)
Definition gain_at_nyquist (kind : rbj_kind) (a : rbj_args R) : R :=
  match kind, a with
  | (HighPass | BandPass1 | BandPass2), _ => 0
  | LowShelf, RbjGain _ _ g _ => db_factor g
  | _, _ => 1
  end.

(** The settings of which the Cookbook's formulas make sense and do something: [q] not 0, the
    slope positive and with a real steepness, the gain not 0 dB, the frequency not a multiple
    of half the sample rate, and the divisor [a0] not 0. *)
Definition cookbook_a0 (kind : rbj_kind) (a : rbj_args R) : R :=
  match kind, a with
  | LowShelf, RbjGain sr f g slope =>
      let A := Rpower 10 (g / 40) in
      (A + 1) + (A - 1) * cos (omega sr f)
      + 2 * sqrt A * (sin (omega sr f) / 2 * sqrt ((A + 1 / A) * (1 / slope - 1) + 2))
  | HighShelf, RbjGain sr f g slope =>
      let A := Rpower 10 (g / 40) in
      (A + 1) - (A - 1) * cos (omega sr f)
      + 2 * sqrt A * (sin (omega sr f) / 2 * sqrt ((A + 1 / A) * (1 / slope - 1) + 2))
  | _, RbjGain sr f g q => 1 + sin (omega sr f) / (2 * q) / Rpower 10 (g / 40)
  | _, RbjQ sr f q => 1 + sin (omega sr f) / (2 * q)
  end.

Definition proper (kind : rbj_kind) (a : rbj_args R) : Prop :=
  takes kind a /\ sin (omega (rate_of a) (freq_of a)) <> 0 /\ cookbook_a0 kind a <> 0
  /\ match kind, a with
     | (LowShelf | HighShelf), RbjGain _ _ g slope => valid_slope g slope /\ g <> 0
     | _, RbjGain _ _ g q => q <> 0 /\ g <> 0
     | _, RbjQ _ _ q => q <> 0
     end.

(** The frequency lies in the first half of a turn, between an even and the next odd multiple
    of half the sample rate, for positive q; in the second half for negative q. *)
Definition right_way (kind : rbj_kind) (a : rbj_args R) : Prop :=
  match kind, a with
  | (LowShelf | HighShelf), RbjGain sr f _ _ => 0 < sin (omega sr f)
  | _, RbjGain sr f _ q => 0 < sin (omega sr f) * q
  | _, RbjQ sr f q => 0 < sin (omega sr f) * q
  end.
