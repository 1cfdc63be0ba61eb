(** Vocabulary of the RBJ properties (exact arithmetic). *)
From Coq Require Import Reals List.
From Verif Require Import Num NumR RbjM Device Signal.
Import ListNotations.
Open Scope R_scope.

(** Radians per sample of a frequency in Hz. *)
Definition omega (sample_rate frequency : R) : R := 2 * PI * frequency / sample_rate.

(** The amplitude factor of a gain in dB. *)
Definition db_factor (db : R) : R := Rpower 10 (db / 20).

(** Meaningful settings: a frequency strictly between 0 and half the sample rate;
    positive q; for the shelves a positive slope for which the steepness is real
    (any slope up to 1 is, see C37). *)
Definition valid_band (sample_rate frequency : R) : Prop :=
  0 < sample_rate /\ 0 < frequency < sample_rate / 2.

Definition valid_slope (db_gain slope : R) : Prop :=
  let a := Rpower 10 (db_gain / 40) in
  0 < slope /\ 0 < (a + 1 / a) * (1 / slope - 1) + 2.

Definition valid (kind : rbj_kind) (args : rbj_args R) : Prop :=
  match kind, args with
  | LowShelf, RbjGain sr f g slope | HighShelf, RbjGain sr f g slope =>
      valid_band sr f /\ valid_slope g slope
  | Peak, RbjGain sr f g q => valid_band sr f /\ 0 < q
  | (LowPass | HighPass | BandPass1 | BandPass2 | BandStop | AllPass), RbjQ sr f q =>
      valid_band sr f /\ 0 < q
  | _, _ => False
  end.

(** The output signal of an RBJ filter of kind [kind] after
    [set_coefficients(args)], fed [x]. *)
Definition rbj_out (kind : rbj_kind) (args : rbj_args R) (x : signal) : signal :=
  out (dev_rbj R_ops kind) (configured (dev_rbj R_ops kind) args) x.

(** Gain [g] and phase shift [theta] for sinusoids of [w] radians per sample. *)
Definition rbj_passes (kind : rbj_kind) (args : rbj_args R) (w g theta : R) : Prop :=
  passes (dev_rbj R_ops kind) (configured (dev_rbj R_ops kind) args) w g theta.

(** Constant and alternating inputs of any level come out multiplied by [g]. *)
Definition dc_gain (kind : rbj_kind) (args : rbj_args R) (g : R) : Prop :=
  forall c, approaches (rbj_out kind args (fun _ => c)) (fun _ => g * c).
Definition nyquist_gain (kind : rbj_kind) (args : rbj_args R) (g : R) : Prop :=
  forall c, approaches (rbj_out kind args (fun n => (-1) ^ n * c)) (fun n => g * ((-1) ^ n * c)).
