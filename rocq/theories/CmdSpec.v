(** Sessions that survive panics: the caller catches the panic of a call and goes
    on using the same object. *)
From Coq Require Import ZArith List.
From Verif Require Import Base Num DelaySpec DelayRun LinSpec LinRun CmdM.
Import ListNotations.
Open Scope Z_scope.

Section Caught.
  Context {S K A : Type} (call : K -> cmd S A).

  (** The calls [ops] in turn, whatever each of them does; how each ended. *)
  Fixpoint caught (s : S) (ops : list K) : S * list (outcome A) :=
    match ops with
    | [] => (s, [])
    | op :: rest =>
        let (s1, r) := call op s in
        let (s2, rs) := caught s1 rest in
        (s2, r :: rs)
    end.
End Caught.

(** The calls that returned, and what they returned. *)
Fixpoint returned {K A : Type} (ops : list K) (rs : list (outcome A)) : list K * list A :=
  match ops, rs with
  | op :: ops', Ok a :: rs' => let (ks, vs) := returned ops' rs' in (op :: ks, a :: vs)
  | _ :: ops', _ :: rs' => returned ops' rs'
  | _, _ => ([], [])
  end.

(** A call that ends with [r] did what [o] says: the same state and result if it
    returned, otherwise the same failure (whatever it left behind). *)
Definition ends_as {S A : Type} (o : outcome (S * A)) (r : S * outcome A) : Prop :=
  match o with
  | Ok (s', a) => r = (s', Ok a)
  | Panic => snd r = Panic
  | Hang => snd r = Hang
  end.

(** The only calls on a delay line that can panic: taps, and length requests that
    cannot be allocated. *)
Definition may_panic {D T : Type} (O : num_ops T) (op : dl_op D T) : Prop :=
  match op with
  | DTapOut _ | DTapIn _ _ | DAddTo _ _ => True
  | DSetMaxDelay m => ~ fits O m
  | _ => False
  end.

(** Calls on a [LinearDelay] that never make it longer than [lim] slots. *)
Definition modest {C T : Type} (O : num_ops T) (lim : Z) (op : dl_op C T) : Prop :=
  lin_sane op
  /\ match op with DSetMaxDelay m => short lim m \/ ~ fits O m | _ => True end.
