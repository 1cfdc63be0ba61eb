(** Vocabulary of C118 for the delay lines. *)
From Coq Require Import ZArith Reals List Bool.
From Flocq Require Import Core.Core IEEE754.BinarySingleNaN.
From Verif Require Import Base Num NumF FloatSpec DelaySpec OrderSpec.
Import ListNotations.
Open Scope R_scope.

Section OrderLine.
  Context {T : Type} (V : float_view T).

  (** The same call, or one that stores or adds a sample that is not smaller. *)
  Inductive raised_op {D : Type} : dl_op D T -> dl_op D T -> Prop :=
  | ro_same op : raised_op op op
  | ro_process x y : below V x y -> raised_op (DProcess x) (DProcess y)
  | ro_tap_in x y t : below V x y -> raised_op (DTapIn x t) (DTapIn y t)
  | ro_add_to x y t : below V x y -> raised_op (DAddTo x t) (DAddTo y t).

  (** What two calls returned: samples in order, everything else the same. *)
  Definition obs_below {D : Type} (o o' : obs D T) : Prop :=
    match o, o' with OSample x, OSample y => below V x y | _, _ => o = o' end.

  (** Two sessions that end the same way, with answers in order. *)
  Definition session_below {D S : Type} (r r' : outcome (S * list (obs D T))) : Prop :=
    match r, r' with
    | Ok (_, os), Ok (_, os') => Forall2 obs_below os os'
    | Panic, Panic => True
    | Hang, Hang => True
    | _, _ => False
    end.
End OrderLine.

(** [LinearDelay<f32>] and [LinearDelay<f64>]: the delay is an [f32] in both cases. *)
Inductive ieee_line : forall {T : Type}, ctl_ops f32 T -> num_ops T -> float_view T -> Prop :=
| il_f32 lm b : ieee_line f32_ctl_f32 (f32_ops lm b) (ieee_view 24 128)
| il_f64 lm b : ieee_line f32_ctl_f64 (f64_ops lm b) (ieee_view 53 1024).

(** A delay that is a whole multiple of 2^-j samples. *)
Definition on_grid (j : Z) (d : f32) : Prop :=
  is_finite d = true /\ exists k : Z, B2R d = IZR k / IZR (2 ^ j).

(** Calls whose delays are on that grid and whose lengths do not exceed [n]. *)
Definition grid_op {T : Type} (j n : Z) (op : dl_op f32 T) : Prop :=
  match op with
  | DSetDelay d => on_grid j d
  | DSetMaxDelay m => (0 <= m <= n)%Z
  | DTapOut t | DTapIn _ t | DAddTo _ t => is_usize t
  | _ => True
  end.
