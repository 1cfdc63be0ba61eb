(** Histories of [LinearDelay]: running a list of API calls on the model. *)
From Coq Require Import ZArith List.
From Verif Require Import Base Num DelayM LinDelayM DelaySpec LinSpec.
Import ListNotations.
Open Scope Z_scope.

Section Run.
  Context {C T : Type} (K : ctl_ops C T) (O : num_ops T) (p : profile).

  (** One call of the public API of [LinearDelay] (linear_delay.rs:25-196). *)
  Definition lin_step (s : lin_delay C T) (op : dl_op C T) : outcome (lin_delay C T * obs C T) :=
    match op with
    | DProcess x => let* (s', y) := lin_process O p s x in Ok (s', OSample y)
    | DClear => Ok (lin_clear O s, ONone)
    | DSetDelay d => let* s' := lin_set_delay K O p s d in Ok (s', ONone)
    | DSetMaxDelay m => let* s' := lin_set_max_delay O p s m in Ok (s', ONone)
    | DGetDelay => Ok (s, ODelay (lin_get_delay s))
    | DGetMaxDelay => let* n := lin_get_max_delay p s in Ok (s, OSize n)
    | DNextOut => let* (s', x) := lin_next_out O p s in Ok (s', OSample x)
    | DLastOut => Ok (s, OSample (lin_last_out s))
    | DTapOut t => let* x := lin_tap_out p s t in Ok (s, OSample x)
    | DTapIn v t => let* s' := lin_tap_in p s v t in Ok (s', ONone)
    | DAddTo v t => let* (s', x) := lin_add_to O p s v t in Ok (s', OSample x)
    end.

  Fixpoint lin_run (s : lin_delay C T) (ops : list (dl_op C T))
    : outcome (lin_delay C T * list (obs C T)) :=
    match ops with
    | [] => Ok (s, [])
    | op :: rest =>
        let* (s1, o) := lin_step s op in
        let* (s2, os) := lin_run s1 rest in
        Ok (s2, o :: os)
    end.

  (** [let mut s = LinearDelay::new(d, m);] followed by the calls [ops]. *)
  Definition lin_session (d : C) (m : Z) (ops : list (dl_op C T))
    : outcome (lin_delay C T * list (obs C T)) :=
    let* s := lin_new K O p d m in lin_run s ops.

  (** Arguments are [usize] values, and no length request is [usize::MAX]. *)
  Definition lin_sane (op : dl_op C T) : Prop :=
    op_usize_lin op /\ op <> DSetMaxDelay usize_max.

  (** [s] is the state after a completed session. *)
  Definition lin_history (d : C) (m : Z) (ops : list (dl_op C T)) (s : lin_delay C T) : Prop :=
    is_usize m /\ m <> usize_max /\ Forall lin_sane ops
    /\ exists os, lin_session d m ops = Ok (s, os).
End Run.

(** [v] is the value [k] samples behind [x] when [x] is about to be processed:
    [x] itself, or what [tap_out(k - 1)] shows. *)
Definition value_behind {C T} (p : profile) (s : lin_delay C T) (x : T) (k : Z) (v : T) : Prop :=
  if k =? 0 then v = x else lin_tap_out p s (k - 1) = Ok v.

(** Sample [n - j] of [x], zero before the start. *)
Definition behind {T} (zero : T) (x : nat -> T) (j n : nat) : T :=
  if (j <=? n)%nat then x (n - j)%nat else zero.

Section NormalUse.
  Context {C T : Type}.

  (** A line with a maximum delay of [m] has at most [lim] slots. *)
  Definition short (lim m : Z) : Prop := m + 1 <= lim.

  (** Calls within the documented domain on a line whose current maximum delay
      is [m] and which never grows beyond [lim] slots. *)
  Fixpoint lin_use (lim m : Z) (ops : list (dl_op C T)) : Prop :=
    match ops with
    | [] => True
    | op :: rest =>
        match op with
        | DSetMaxDelay m' => short lim m' /\ lin_use lim (Z.max m m') rest
        | DTapOut t | DTapIn _ t | DAddTo _ t => t <= m /\ lin_use lim m rest
        | _ => lin_use lim m rest
        end
    end.

  (** No call of [ops] asks for another maximum length. *)
  Definition lin_fixed (ops : list (dl_op C T)) : Prop :=
    Forall (fun op => forall m, op <> DSetMaxDelay m) ops.

  (** Number of [process] calls in [ops]. *)
  Definition lin_count (ops : list (dl_op C T)) : Z :=
    Z.of_nat (length (filter (fun op => match op with DProcess _ => true | _ => false end) ops)).

  (** No [set_max_delay] since the last [set_delay] (or since [new]). *)
  Definition lin_trusted (ops : list (dl_op C T)) : Prop :=
    fold_left (fun b op => match op with
                           | DSetMaxDelay _ => false
                           | DSetDelay _ => true
                           | _ => b
                           end) ops true = true.

  (** No [next_out] since the last [process] (or since [new]). *)
  Definition unpeeked (ops : list (dl_op C T)) : Prop :=
    fold_left (fun b op => match op with
                           | DNextOut => false
                           | DProcess _ => true
                           | _ => b
                           end) ops true = true.
End NormalUse.
