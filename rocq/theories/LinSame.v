(** Specification: the same calls on a [LinearDelay] and on a [Delay] (C27, C69). *)
From Coq Require Import ZArith Reals List.
From Flocq Require Import IEEE754.BinarySingleNaN.
From Verif Require Import Base NumF DelaySpec.
Import ListNotations.
Open Scope Z_scope.

(** The same call with a whole number of samples wherever a delay is asked for, on
    lines of at most [lim] slots, with finite samples. *)
Inductive same_call {T : Type} (fin : T -> bool) (lim : Z) : dl_op f32 T -> dl_op Z T -> Prop :=
| same_process x : fin x = true -> same_call fin lim (DProcess x) (DProcess x)
| same_clear : same_call fin lim DClear DClear
| same_set_delay d k : is_finite d = true -> B2R d = IZR k -> is_usize k ->
    same_call fin lim (DSetDelay d) (DSetDelay k)
| same_set_max m : is_usize m -> m + 1 <= lim -> same_call fin lim (DSetMaxDelay m) (DSetMaxDelay m)
| same_get_delay : same_call fin lim DGetDelay DGetDelay
| same_get_max : same_call fin lim DGetMaxDelay DGetMaxDelay
| same_last : same_call fin lim DLastOut DLastOut
| same_tap_out t : is_usize t -> same_call fin lim (DTapOut t) (DTapOut t)
| same_tap_in v t : fin v = true -> is_usize t -> same_call fin lim (DTapIn v t) (DTapIn v t).

(** The same observation: samples are finite and have the same value (a zero may
    differ in sign), delays and sizes are the same number. *)
Inductive same_obs {T : Type} (fin : T -> bool) (val : T -> R) : obs f32 T -> obs Z T -> Prop :=
| same_none : same_obs fin val ONone ONone
| same_sample y z : fin y = true -> fin z = true -> val y = val z ->
    same_obs fin val (OSample y) (OSample z)
| same_size n : same_obs fin val (OSize n) (OSize n)
| same_delay d k : is_finite d = true -> B2R d = IZR k -> same_obs fin val (ODelay d) (OSize k).

(** The same call, whatever delays are asked for and whatever is peeked. *)
Inductive same_line_call {C T : Type} : dl_op C T -> dl_op Z T -> Prop :=
| sline_process x : same_line_call (DProcess x) (DProcess x)
| sline_clear : same_line_call DClear DClear
| sline_set_delay d k : same_line_call (DSetDelay d) (DSetDelay k)
| sline_set_max m : same_line_call (DSetMaxDelay m) (DSetMaxDelay m)
| sline_get_delay : same_line_call DGetDelay DGetDelay
| sline_get_max : same_line_call DGetMaxDelay DGetMaxDelay
| sline_next : same_line_call DNextOut DNextOut
| sline_last : same_line_call DLastOut DLastOut
| sline_tap_out t : same_line_call (DTapOut t) (DTapOut t)
| sline_tap_in v t : same_line_call (DTapIn v t) (DTapIn v t)
| sline_add_to v t : same_line_call (DAddTo v t) (DAddTo v t).

(** Taps and the maximum delay answer the same; other answers are not compared. *)
Definition same_tap_obs {C T : Type} (op : dl_op C T) (o : obs C T) (o' : obs Z T) : Prop :=
  match op with
  | DTapOut _ | DAddTo _ _ => exists v, o = OSample v /\ o' = OSample v
  | DGetMaxDelay => exists n, o = OSize n /\ o' = OSize n
  | _ => True
  end.
