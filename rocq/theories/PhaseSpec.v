(** Vocabulary of property C137: the phases of the RBJ filters, and a phaser. *)
From Coq Require Import Reals List.
From Verif Require Import Num NumR RbjM Device Signal RbjSpec EqSpec.
Import ListNotations.
Open Scope R_scope.

(** How far, and on which side, the frequency [w] (radians per sample) is from the corner [f]:
    the arc tangent of q (1/O - O), where O is the warped frequency.  Positive below the corner,
    0 at the corner, negative above it. *)
Definition lean (sr f q w : R) : R :=
  let O := warped (omega sr f) w in atan (q * (1 / O - O)).

(** AllPass filters in series, one for every pair (f, q). *)
Definition allpass_chain (sr : R) (settings : list (R * R)) (x : signal) : signal :=
  fold_left (fun y fq => rbj_out AllPass (RbjQ sr (fst fq) (snd fq)) y) settings x.

(** A phaser: the mean of the signal and of what the chain makes of it. *)
Definition phaser (sr : R) (settings : list (R * R)) (x : signal) : signal :=
  fun n => (x n + allpass_chain sr settings x n) / 2.

(** Half the turn of the whole chain: the sum of lean - PI/2 over the settings. *)
Definition half_turn (sr : R) (settings : list (R * R)) (w : R) : R :=
  fold_right (fun fq s => (lean sr (fst fq) (snd fq) w - PI / 2) + s) 0 settings.

(** Every setting of the list is meaningful. *)
Definition all_valid (sr : R) (settings : list (R * R)) : Prop :=
  List.Forall (fun fq => valid_band sr (fst fq) /\ 0 < snd fq) settings.
