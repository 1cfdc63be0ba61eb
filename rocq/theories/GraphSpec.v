(** Vocabulary of property C141: equalisers made of Peak, LowShelf and HighShelf filters in
    series. *)
From Coq Require Import Reals List.
From Verif Require Import Num NumR RbjM Device Signal RbjSpec.
Import ListNotations.
Open Scope R_scope.

(** One band: the filter, its frequency, its gain in decibels, and its q or slope. *)
Record band := { b_kind : rbj_kind; b_freq : R; b_db : R; b_shape : R }.

Definition b_args (sr : R) (b : band) : rbj_args R := RbjGain sr (b_freq b) (b_db b) (b_shape b).

(** A meaningful setting; shelves without overshoot (slope at most 1). *)
Definition good_band (sr : R) (b : band) : Prop :=
  (b_kind b = Peak \/ (b_kind b = LowShelf \/ b_kind b = HighShelf) /\ b_shape b <= 1)
  /\ valid (b_kind b) (b_args sr b).

(** The bands in series. *)
Definition equaliser (sr : R) (bands : list band) (x : signal) : signal :=
  fold_left (fun y b => rbj_out (b_kind b) (b_args sr b) y) bands x.

(** Its gain for sinusoids of [w] radians per sample is [g]. *)
Definition eq_gain (sr : R) (bands : list band) (w g : R) : Prop :=
  0 <= g /\ exists theta, forall A phi,
    approaches (equaliser sr bands (sinusoid A w phi)) (sinusoid (g * A) w (phi + theta)).

(** All boosts together, and all cuts together, in decibels. *)
Definition boosts (bands : list band) : R := fold_right (fun b s => Rmax 0 (b_db b) + s) 0 bands.
Definition cuts (bands : list band) : R := fold_right (fun b s => Rmin 0 (b_db b) + s) 0 bands.

(** The same band with the opposite gain. *)
Definition flip (b : band) : band :=
  {| b_kind := b_kind b; b_freq := b_freq b; b_db := - b_db b; b_shape := b_shape b |}.
