(** Vocabulary of the integrator and detector properties (C47-C56, C70, C71). *)
From Coq Require Import ZArith Reals List Bool.
From Verif Require Import Base Num NumR NumF FloatSpec AnalysisM Device.
Import ListNotations.
Open Scope R_scope.

(** ** The two detectors *)
Inductive phase := Attack | Release.
Definition other (ph : phase) : phase := match ph with Attack => Release | Release => Attack end.
(** [set_attack(len)] / [set_release(len)] *)
Definition set_phase {T} (ph : phase) (len : T) : det_set T :=
  match ph with Attack => SetAttack len | Release => SetRelease len end.

(** A detector with its two getters, [get_attack_gain] and [get_release_gain]. *)
Record detector (S T : Type) := Detector {
  det_dev : device S (det_set T) T;
  det_gain : phase -> S -> T
}.
Arguments Detector {S T}.
Arguments det_dev {S T}.
Arguments det_gain {S T}.

Section Lib.
  Context {T : Type} (O : num_ops T).
  Definition peak_detector : detector (peak T) T :=
    Detector (dev_peak O) (fun ph => match ph with Attack => peak_get_attack_gain | Release => peak_get_release_gain end).
  Definition rms_detector : detector (rms T) T :=
    Detector (dev_rms O) (fun ph => match ph with Attack => rms_get_attack_gain | Release => rms_get_release_gain end).
  Inductive lib_detector : forall {S : Type}, detector S T -> Prop :=
  | ld_peak : lib_detector peak_detector
  | ld_rms : lib_detector rms_detector.

  (** The gain the documentation derives from a length in samples: exp(-1/len). *)
  Definition gain_of (len : T) : T := n_exp O (n_div O (n_neg O (n_one O)) len).
End Lib.

(** The length given to a setter. *)
Definition set_length {T} (k : det_set T) : T := match k with SetAttack l | SetRelease l => l end.

(** ** Histories of floats *)
Section Floats.
  Context {T : Type} (O : num_ops T) (V : float_view T).

  (** A length a setter accepts: a positive number. *)
  Definition good_length (len : T) : Prop := fin V len = true /\ 0 < val V len.

  (** A number in [0, 1). *)
  Definition unit_interval (a : T) : Prop := fin V a = true /\ 0 <= val V a < 1.

  (** Every processed sample satisfies [P], and every accepted length gives a gain
      in [0, 1). *)
  Definition calls_ok (P : T -> Prop) (cs : list (call (det_set T) T)) : Prop :=
    Forall (fun c => match c with
                     | CProcess x => P x
                     | CSet k => good_length (set_length k) -> unit_interval (gain_of O (set_length k))
                     | _ => True
                     end) cs.

  (** Every processed sample satisfies [P] (calls of the integrator). *)
  Definition samples_ok {K} (P : T -> Prop) (cs : list (call K T)) : Prop :=
    Forall (fun c => match c with CProcess x => P x | _ => True end) cs.

  (** A finite sample with value in [lo, hi]. *)
  Definition within (lo hi : R) (x : T) : Prop := fin V x = true /\ lo <= val V x <= hi.

  (** Everything a list of calls returned satisfies [P]. *)
  Definition all_returned (P : T -> Prop) (rs : list (option T)) : Prop :=
    Forall (fun r => forall y, r = Some y -> P y) rs.

  (** The exponential maps the floats up to zero, minus infinity included, into
      [0, 1]. *)
  Definition exp_sound : Prop :=
    forall x, n_le O x (n_zero O) = true -> fin V (n_exp O x) = true /\ 0 <= val V (n_exp O x) <= 1.

  (** The exponential is correctly rounded wherever it does not overflow. *)
  Definition exp_rounded : Prop :=
    forall x, fin V x = true -> Rabs (rnd V (exp (val V x))) <= fmax V ->
      fin V (n_exp O x) = true /\ val V (n_exp O x) = rnd V (exp (val V x)).
End Floats.

(** The same call, up to the sign of a processed sample. *)
Inductive same_up_to_sign {K T : Type} (O : num_ops T) : call K T -> call K T -> Prop :=
| sus_same c : same_up_to_sign O c c
| sus_neg x : same_up_to_sign O (CProcess x) (CProcess (n_neg O x)).

(** The same call, with a processed sample at least as loud. *)
Inductive louder {K : Type} : call K R -> call K R -> Prop :=
| lo_same c : louder c c
| lo_more x x' : Rabs x <= Rabs x' -> louder (CProcess x) (CProcess x').
