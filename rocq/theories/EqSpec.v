(** The analog prototypes of the "Audio EQ Cookbook", which the RBJ filters name
    as their source (rbj/mod.rs:1-4), transcribed from the Cookbook's list of
    transfer functions (not from the code), and the energy of a signal. *)
From Coq Require Import Reals.
From Coquelicot Require Import Coquelicot.
From Verif Require Import Num NumR RbjM Device Signal RbjSpec.
Open Scope R_scope.

(** Centre (or corner) frequency of the settings, in radians per sample. *)
Definition centre (args : rbj_args R) : R :=
  match args with
  | RbjQ sr f _ => omega sr f
  | RbjGain sr f _ _ => omega sr f
  end.

(** The bilinear transform maps the digital frequency [w] to this analog
    frequency, normalised so that the centre frequency [w0] maps to 1. *)
Definition warped (w0 w : R) : R := tan (w / 2) / tan (w0 / 2).

(** 1/Q of a shelf of the given slope: sqrt ((A + 1/A)(1/S - 1) + 2). *)
Definition inverse_q (A slope : R) : R := sqrt ((A + 1 / A) * (1 / slope - 1) + 2).

(** The Cookbook's H(s), for a normalised analog frequency; A = 10^(dB/40). *)
Definition prototype (kind : rbj_kind) (args : rbj_args R) (s : C) : C :=
  (match kind, args with
   | LowPass, RbjQ _ _ q => 1 / (s * s + s / RtoC q + 1)
   | HighPass, RbjQ _ _ q => (s * s) / (s * s + s / RtoC q + 1)
   | BandPass1, RbjQ _ _ q => s / (s * s + s / RtoC q + 1)
   | BandPass2, RbjQ _ _ q => (s / RtoC q) / (s * s + s / RtoC q + 1)
   | BandStop, RbjQ _ _ q => (s * s + 1) / (s * s + s / RtoC q + 1)
   | AllPass, RbjQ _ _ q => (s * s - s / RtoC q + 1) / (s * s + s / RtoC q + 1)
   | Peak, RbjGain _ _ db q =>
       let A := RtoC (Rpower 10 (db / 40)) in
       (s * s + s * (A / RtoC q) + 1) / (s * s + s / (A * RtoC q) + 1)
   | LowShelf, RbjGain _ _ db slope =>
       let A := RtoC (Rpower 10 (db / 40)) in
       let k := RtoC (sqrt (Rpower 10 (db / 40)) * inverse_q (Rpower 10 (db / 40)) slope) in
       A * ((s * s + k * s + A) / (A * (s * s) + k * s + 1))
   | HighShelf, RbjGain _ _ db slope =>
       let A := RtoC (Rpower 10 (db / 40)) in
       let k := RtoC (sqrt (Rpower 10 (db / 40)) * inverse_q (Rpower 10 (db / 40)) slope) in
       A * ((A * (s * s) + k * s + 1) / (s * s + k * s + A))
   | _, _ => 0
   end)%C.

(** The prototype on the imaginary axis at the warped frequency. *)
Definition analog_response (kind : rbj_kind) (args : rbj_args R) (w : R) : C :=
  prototype kind args (0, warped (centre args) w).

(** [gain kind args w g]: the filter's gain for sinusoids of [w] radians per
    sample is [g]. *)
Definition gain (kind : rbj_kind) (args : rbj_args R) (w g : R) : Prop :=
  0 <= g /\ exists theta, rbj_passes kind args w g theta.

(** Energy of the first [n] samples. *)
Fixpoint energy (x : signal) (n : nat) : R :=
  match n with
  | O => 0
  | S n' => energy x n' + x n' * x n'
  end.
