(** Vocabulary of property C135: two delay lines given corresponding calls. *)
From Coq Require Import ZArith Reals List.
From Flocq Require Import Core.Core.
From Verif Require Import Base Num NumF FloatSpec DelaySpec LinRun.
Import ListNotations.
Open Scope R_scope.

(** Both programs complete, with results related by [P], or both panic. *)
Definition alike {A B : Type} (P : A -> B -> Prop) (x : outcome A) (y : outcome B) : Prop :=
  match x, y with
  | Ok a, Ok b => P a b
  | Panic, Panic => True
  | _, _ => False
  end.

Section Pair.
  Context {D T T' : Type} (r : T -> T' -> Prop).

  (** The same call, with samples related by [r]. *)
  Definition same_call (op : dl_op D T) (op' : dl_op D T') : Prop :=
    match op, op' with
    | DProcess x, DProcess x' => r x x'
    | DClear, DClear => True
    | DSetDelay d, DSetDelay d' => d = d'
    | DSetMaxDelay m, DSetMaxDelay m' => m = m'
    | DGetDelay, DGetDelay => True
    | DGetMaxDelay, DGetMaxDelay => True
    | DNextOut, DNextOut => True
    | DLastOut, DLastOut => True
    | DTapOut t, DTapOut t' => t = t'
    | DTapIn v t, DTapIn v' t' => r v v' /\ t = t'
    | DAddTo v t, DAddTo v' t' => r v v' /\ t = t'
    | _, _ => False
    end.

  (** The same answer, with samples related by [r]. *)
  Definition same_answer (o : obs D T) (o' : obs D T') : Prop :=
    match o, o' with
    | ONone, ONone => True
    | OSample x, OSample x' => r x x'
    | OSize n, OSize n' => n = n'
    | ODelay d, ODelay d' => d = d'
    | _, _ => False
    end.
End Pair.

(** The line never grows beyond [lim] slots. *)
Definition stays_short {D T : Type} (lim : Z) (op : dl_op D T) : Prop :=
  match op with DSetMaxDelay m => (0 <= m)%Z /\ short lim m | _ => True end.

(** Every call but [add_to]. *)
Definition no_sum {D T : Type} (op : dl_op D T) : Prop := match op with DAddTo _ _ => False | _ => True end.

Section Louder.
  Context {T : Type} (V : float_view T).

  (** [x'] is 2^e times [x]; [x] is a multiple of 2^24 times the smallest normal number (in [f32] of 2^-102, which every number not
      below 2^-79 is). *)
  Definition raised (e : Z) (x x' : T) : Prop :=
    fin V x = true /\ fin V x' = true /\ val V x' = val V x * bpow radix2 e
    /\ exists k : Z, val V x = IZR k * (bpow radix2 24 * fmin V).

  (** Where [y'] is finite, so is [y], and [y'] is exactly 2^e times [y]. *)
  Definition raised_answer (e : Z) (y y' : T) : Prop :=
    fin V y' = true -> fin V y = true /\ val V y' = val V y * bpow radix2 e.
End Louder.

Section Types.
  Context {T T' : Type} (V : float_view T) (V' : float_view T').

  (** The same number, of magnitude at most [M], in both types. *)
  Definition same_sample (M : R) (x : T) (x' : T') : Prop :=
    fin V x = true /\ fin V' x' = true /\ val V x = val V' x' /\ Rabs (val V x) <= M.

  (** Finite numbers within [E] of each other. *)
  Definition near_answer (E : R) (y : T) (y' : T') : Prop :=
    fin V y = true /\ fin V' y' = true /\ Rabs (val V y - val V' y') <= E.
End Types.
