(** Vocabulary of C85: what is left in a recursive processor when the input stops. *)
From Coq Require Import ZArith Reals List Bool.
From Verif Require Import Base Num NumF FloatSpec FilterM AnalysisM Device AnaSpec.
Import ListNotations.
Open Scope R_scope.

(** [decays O V D k g y]: with the setting [k] and the last output [y], and silence at
    its input, [D] multiplies what it remembers by the gain [g] (or -[g]) at every
    sample.  (The detectors do so if their gain, an exponential, and the envelope are
    not negative; with a sensible exponential they never are, see C51 and C52.) *)
Inductive decays {T : Type} (O : num_ops T) (V : float_view T)
  : forall {S K : Type}, device S K T -> K -> T -> T -> Prop :=
| decays_one_pole b0 a1 y : fin V b0 = true -> decays O V (dev_one_pole O) (b0, a1) a1 y
| decays_leaky alpha y : unit_interval V alpha -> decays O V (dev_leaky O) alpha alpha y
| decays_peak len y : good_length V len -> 0 <= val V (gain_of O len) -> 0 <= val V y ->
    decays O V (dev_peak O) (SetRelease len) (gain_of O len) y
| decays_rms len y : good_length V len -> 0 <= val V (gain_of O len) ->
    decays O V (dev_rms O) (SetRelease len) (gain_of O len) y.

(** Any calls, then the setting [k], then some samples. *)
Definition configured_and_fed {K T : Type} (history : list (call K T)) (k : K) (samples : list T)
  : list (call K T) :=
  history ++ [CSet k] ++ map CProcess samples.

(** [n] samples of silence. *)
Definition silence {K T : Type} (O : num_ops T) (n : nat) : list (call K T) :=
  repeat (CProcess (n_zero O)) n.
