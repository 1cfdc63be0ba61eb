(** Vocabulary of property C140: Butterworth filters of any even order from LowPass or HighPass
    filters in series. *)
From Coq Require Import Reals List.
From Verif Require Import Num NumR RbjM Device Signal RbjSpec EqSpec.
Import ListNotations.
Open Scope R_scope.

(** Filters of one kind in series, with the same corner [f], one for every q. *)
Definition cascade (kind : rbj_kind) (sr f : R) (qs : list R) (x : signal) : signal :=
  fold_left (fun y q => rbj_out kind (RbjQ sr f q) y) qs x.

(** The textbook q of section [k] = 0 ... [N] - 1 of a Butterworth filter of order 2 [N]. *)
Definition butter_q (N k : nat) : R := 1 / (2 * cos ((2 * INR k + 1) * PI / (4 * INR N))).

(** The Butterworth filter of order 2 [N]. *)
Definition butterworth (kind : rbj_kind) (N : nat) (sr f : R) (x : signal) : signal :=
  cascade kind sr f (map (butter_q N) (seq 0 N)) x.

(** Its gain for sinusoids of [w] radians per sample is [g]. *)
Definition butter_gain (kind : rbj_kind) (N : nat) (sr f w g : R) : Prop :=
  0 <= g /\ exists theta, forall A phi,
    approaches (butterworth kind N sr f (sinusoid A w phi)) (sinusoid (g * A) w (phi + theta)).
