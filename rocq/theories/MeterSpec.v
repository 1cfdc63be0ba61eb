(** Vocabulary of property C98: detectors as level meters for periodic signals. *)
From Coq Require Import Reals List.
From Verif Require Import NumR AnalysisM Device Signal AnaSpec.
Import ListNotations.
Open Scope R_scope.

(** The level a detector meters: magnitude for [PeakEnvDetector], power for
    [RmsEnvDetector].  Its readings are on the same scale: a reading [y] stands
    for the level [level y]. *)
Inductive meters : forall {S : Type}, detector S R -> (R -> R) -> Prop :=
| mt_peak : meters (peak_detector R_ops) Rabs
| mt_rms : meters (rms_detector R_ops) Rsqr.

(** [x] repeats itself every [P] samples. *)
Definition periodic (P : nat) (x : signal) : Prop :=
  (0 < P)%nat /\ forall n, x (n + P)%nat = x n.

(** x[n] + ... + x[n + k - 1] *)
Fixpoint total (k : nat) (x : signal) (n : nat) : R :=
  match k with
  | O => 0
  | Datatypes.S k' => total k' x n + x (n + k')%nat
  end.

(** The mean of the [P] samples from [n] on. *)
Definition mean (P : nat) (x : signal) (n : nat) : R := total P x n / INR P.

(** The levels of a signal. *)
Definition levels (level : R -> R) (x : signal) : signal := fun n => level (x n).

(** The calls [history], then [set_attack(la)] and [set_release(lr)]. *)
Definition with_times (history : list (call (det_set R) R)) (la lr : R) : list (call (det_set R) R) :=
  (history ++ [CSet (SetAttack la); CSet (SetRelease lr)])%list.
