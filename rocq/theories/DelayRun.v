(** Histories of [Delay]: running a list of API calls on the model. *)
From Coq Require Import ZArith List.
From Verif Require Import Base Num DelayM DelaySpec.
Import ListNotations.
Open Scope Z_scope.

Section Run.
  Context {T : Type} (O : num_ops T) (p : profile).

  (** One call of the public API of [Delay] (delay/mod.rs:24-159). *)
  Definition dl_step (s : delay T) (op : dl_op Z T) : outcome (delay T * obs Z T) :=
    match op with
    | DProcess x => let* (s', y) := delay_process p s x in Ok (s', OSample y)
    | DClear => Ok (delay_clear O s, ONone)
    | DSetDelay d => let* s' := delay_set_delay p s d in Ok (s', ONone)
    | DSetMaxDelay m => let* s' := delay_set_max_delay O p s m in Ok (s', ONone)
    | DGetDelay => Ok (s, OSize (delay_get_delay s))
    | DGetMaxDelay => let* n := delay_get_max_delay p s in Ok (s, OSize n)
    | DNextOut => let* x := delay_next_out s in Ok (s, OSample x)
    | DLastOut => Ok (s, OSample (delay_last_out s))
    | DTapOut t => let* x := delay_tap_out p s t in Ok (s, OSample x)
    | DTapIn v t => let* s' := delay_tap_in p s v t in Ok (s', ONone)
    | DAddTo v t => let* (s', x) := delay_add_to O p s v t in Ok (s', OSample x)
    end.

  Fixpoint dl_run (s : delay T) (ops : list (dl_op Z T)) : outcome (delay T * list (obs Z T)) :=
    match ops with
    | [] => Ok (s, [])
    | op :: rest =>
        let* (s1, o) := dl_step s op in
        let* (s2, os) := dl_run s1 rest in
        Ok (s2, o :: os)
    end.
End Run.

Section Session.
  Context {T : Type} (O : num_ops T) (p : profile).

  (** [let mut s = Delay::new(d, m);] followed by the calls [ops]. *)
  Definition dl_session (d m : Z) (ops : list (dl_op Z T)) : outcome (delay T * list (obs Z T)) :=
    let* s := delay_new O p d m in dl_run O p s ops.

  (** Arguments are [usize] values, and no length request is [usize::MAX]
      (that case is theorem C18). *)
  Definition op_sane (op : dl_op Z T) : Prop :=
    op_usize op /\ op <> DSetMaxDelay usize_max.

  (** [s] is the state after a completed session. *)
  Definition dl_history (d m : Z) (ops : list (dl_op Z T)) (s : delay T) : Prop :=
    is_usize d /\ is_usize m /\ m <> usize_max /\ Forall op_sane ops
    /\ exists os, dl_session d m ops = Ok (s, os).

  (** No call of [ops] asks for another maximum length. *)
  Definition fixed_length (ops : list (dl_op Z T)) : Prop :=
    Forall (fun op => forall m, op <> DSetMaxDelay m) ops.

  Definition is_process (op : dl_op Z T) : bool :=
    match op with DProcess _ => true | _ => false end.

  (** Number of [process] calls in [ops]. *)
  Definition process_count (ops : list (dl_op Z T)) : Z :=
    Z.of_nat (length (filter is_process ops)).
End Session.

Section NormalUse.
  Context {T : Type} (O : num_ops T).

  (** A buffer for a maximum delay of [m] samples can be allocated. *)
  Definition fits (m : Z) : Prop := (m + 1) * n_size_of O <= isize_max.

  (** The largest number of slots that can be allocated. *)
  Definition max_slots : Z := isize_max / n_size_of O.

  (** Calls that stay within the documented domain on a line whose current
      maximum delay is [m]: taps not beyond the maximum, growth within the
      allocation limit. *)
  Fixpoint normal_use (m : Z) (ops : list (dl_op Z T)) : Prop :=
    match ops with
    | [] => True
    | op :: rest =>
        match op with
        | DSetMaxDelay m' => fits m' /\ normal_use (Z.max m m') rest
        | DTapOut t | DTapIn _ t | DAddTo _ t => t <= m /\ normal_use m rest
        | _ => normal_use m rest
        end
    end.

  (** No [set_max_delay] since the last [set_delay] (or since [new]). *)
  Definition timing_trusted (ops : list (dl_op Z T)) : Prop :=
    fold_left (fun b op => match op with
                           | DSetMaxDelay _ => false
                           | DSetDelay _ => true
                           | _ => b
                           end) ops true = true.
End NormalUse.
