(** The ideal integrator and detectors: vocabulary of C90. *)
From Coq Require Import ZArith Reals List.
From Flocq Require Import Core.Core.
From Verif Require Import Num NumF FloatSpec Device CrLibm Witness.
Import ListNotations.
Open Scope R_scope.

Section Ideal.
  Context {T : Type} (V : float_view T).

  (** An envelope follower in exact arithmetic: two gains and the envelope.  [mag] is
      the detected quantity: the magnitude, or the square. *)
  Record follower := Follower { f_attack : R; f_release : R; f_env : R }.

  Definition follow (mag : R -> R) (s : follower) (c : call (det_set T) T) : follower :=
    match c with
    | CProcess x =>
        let m := mag (val V x) in
        let gain := if Rlt_dec (f_env s) m then f_attack s else f_release s in
        Follower (f_attack s) (f_release s) (m + gain * (f_env s - m))
    | CClear => Follower (f_attack s) (f_release s) 0
    | CSet (SetAttack len) => Follower (exp (-1 / val V len)) (f_release s) (f_env s)
    | CSet (SetRelease len) => Follower (f_attack s) (exp (-1 / val V len)) (f_env s)
    | CLastOut => s
    end.

  (** The envelope after a list of calls on a new detector. *)
  Definition ideal_envelope (mag : R -> R) (cs : list (call (det_set T) T)) : R :=
    f_env (fold_left (follow mag) cs (Follower 0 0 0)).

  (** The exact leaky integrator: gain and memory. *)
  Definition leak (s : R * R) (c : call T T) : R * R :=
    match c with
    | CProcess x => (fst s, val V x + fst s * (snd s - val V x))
    | CClear => (fst s, 0)
    | CSet gain => (val V gain, snd s)
    | CLastOut => s
    end.
  Definition ideal_leaky (cs : list (call T T)) : R := snd (fold_left leak cs (0, 0)).

  (** Finite samples of magnitude at most [M], lengths from one sample to [L]. *)
  Definition detector_calls (M L : R) (cs : list (call (det_set T) T)) : Prop :=
    Forall (fun c => match c with
                     | CProcess x => fin V x = true /\ Rabs (val V x) <= M
                     | CSet (SetAttack len | SetRelease len) => fin V len = true /\ 1 <= val V len <= L
                     | _ => True
                     end) cs.

  (** Finite samples of magnitude at most [M], gains from zero to [g]. *)
  Definition leaky_calls (M g : R) (cs : list (call T T)) : Prop :=
    Forall (fun c => match c with
                     | CProcess x => fin V x = true /\ Rabs (val V x) <= M
                     | CSet gain => fin V gain = true /\ 0 <= val V gain <= g
                     | _ => True
                     end) cs.

  (** Half a unit in the last place of 1, and of the smallest normal number. *)
  Definition half_ulp : R := bpow radix2 (- fprec V).
  Definition half_tiny : R := half_ulp * fmin V.
End Ideal.

(** The example: [f32] with a correctly rounded exponential, one second at 48 kHz. *)
Definition O90 : num_ops f32 := f32_ops (cr_libm 24 128) false.
Definition V90 : float_view f32 := ieee_view 24 128.
Definition one_second : f32 := fl32 48000 0.
Definition history90 : list (call (det_set f32) f32) :=
  [CSet (SetAttack one_second); CProcess (fl32 1 0); CSet (SetRelease one_second); CProcess (fl32 (-1) (-1)); CLastOut].
