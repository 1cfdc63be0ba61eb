(** Statement-level model of the delay lines: what is stored, and when.

    The models in [DelayM] and [LinDelayM] return the new state of a call that
    completes and forget the state of a call that panics.  Here every call is the
    sequence of its statements, each of which reads the fields, may panic, and
    stores into one field; a panic keeps what was stored before it.  This is what
    a caller sees who catches the panic ([std::panic::catch_unwind]) and goes on
    using the line.

    [Vec::resize] is one statement: it panics on a capacity overflow before it
    touches the buffer. *)
From Coq Require Import ZArith List Bool.
From Verif Require Import Base Num DelayM LinDelayM DelaySpec.
Import ListNotations.
Open Scope Z_scope.

(** A call on a mutable [S]: the state it leaves behind, and how it ended. *)
Definition cmd (S A : Type) : Type := S -> S * outcome A.

(** An expression: reads the state, may panic, stores nothing. *)
Definition eval {S A} (e : S -> outcome A) : cmd S A := fun s => (s, e s).

(** Statements in sequence; a panic ends the call where it is. *)
Definition andthen {S A B} (m : cmd S A) (k : A -> cmd S B) : cmd S B :=
  fun s => match m s with
           | (s', Ok a) => k a s'
           | (s', Panic) => (s', Panic)
           | (s', Hang) => (s', Hang)
           end.

(** The assignment [self.field = e]: evaluates [e], then stores it. *)
Definition assign {S A} (store : S -> A -> S) (e : S -> outcome A) : cmd S unit :=
  fun s => match e s with
           | Ok a => (store s a, Ok tt)
           | Panic => (s, Panic)
           | Hang => (s, Hang)
           end.

Notation "'run' x '<-' m ';;' k" :=
  (andthen m (fun x => k)) (at level 100, x pattern, m at level 99, k at level 200, right associativity).
Notation "m ';;' k" := (andthen m (fun _ => k)) (at level 100, k at level 200, right associativity).

(** Stores into the fields of [Delay] (delay/mod.rs:14-22). *)
Section DelayFields.
  Context {T : Type}.
  Definition put_memory (s : delay T) v :=
    MkDelay v (dl_output s) (dl_read s) (dl_write s) (dl_delay s).
  Definition put_output (s : delay T) v :=
    MkDelay (dl_memory s) v (dl_read s) (dl_write s) (dl_delay s).
  Definition put_read (s : delay T) v :=
    MkDelay (dl_memory s) (dl_output s) v (dl_write s) (dl_delay s).
  Definition put_write (s : delay T) v :=
    MkDelay (dl_memory s) (dl_output s) (dl_read s) v (dl_delay s).
  Definition put_delay (s : delay T) v :=
    MkDelay (dl_memory s) (dl_output s) (dl_read s) (dl_write s) v.
End DelayFields.

(** Stores into the fields of [LinearDelay] (linear_delay.rs:10-23). *)
Section LinFields.
  Context {C T : Type}.
  Definition lput_memory (s : lin_delay C T) v :=
    MkLin v (ld_output s) (ld_read s) (ld_write s) (ld_delay s)
          (ld_do_next_out s) (ld_next_out s) (ld_alpha s) (ld_om_alpha s).
  Definition lput_output (s : lin_delay C T) v :=
    MkLin (ld_memory s) v (ld_read s) (ld_write s) (ld_delay s)
          (ld_do_next_out s) (ld_next_out s) (ld_alpha s) (ld_om_alpha s).
  Definition lput_read (s : lin_delay C T) v :=
    MkLin (ld_memory s) (ld_output s) v (ld_write s) (ld_delay s)
          (ld_do_next_out s) (ld_next_out s) (ld_alpha s) (ld_om_alpha s).
  Definition lput_write (s : lin_delay C T) v :=
    MkLin (ld_memory s) (ld_output s) (ld_read s) v (ld_delay s)
          (ld_do_next_out s) (ld_next_out s) (ld_alpha s) (ld_om_alpha s).
  Definition lput_delay (s : lin_delay C T) (v : C) : lin_delay C T :=
    MkLin (ld_memory s) (ld_output s) (ld_read s) (ld_write s) v
          (ld_do_next_out s) (ld_next_out s) (ld_alpha s) (ld_om_alpha s).
  Definition lput_do_next_out (s : lin_delay C T) v :=
    MkLin (ld_memory s) (ld_output s) (ld_read s) (ld_write s) (ld_delay s)
          v (ld_next_out s) (ld_alpha s) (ld_om_alpha s).
  Definition lput_next_out (s : lin_delay C T) v :=
    MkLin (ld_memory s) (ld_output s) (ld_read s) (ld_write s) (ld_delay s)
          (ld_do_next_out s) v (ld_alpha s) (ld_om_alpha s).
  Definition lput_alpha (s : lin_delay C T) v :=
    MkLin (ld_memory s) (ld_output s) (ld_read s) (ld_write s) (ld_delay s)
          (ld_do_next_out s) (ld_next_out s) v (ld_om_alpha s).
  Definition lput_om_alpha (s : lin_delay C T) v :=
    MkLin (ld_memory s) (ld_output s) (ld_read s) (ld_write s) (ld_delay s)
          (ld_do_next_out s) (ld_next_out s) (ld_alpha s) v.
End LinFields.

Section DelayCalls.
  Context {T : Type} (O : num_ops T) (p : profile).
  Local Notation zero := (n_zero O).

  (** delay/mod.rs:65-70 *)
  Definition c_set_max_delay (d : Z) : cmd (delay T) unit :=
    run n <- eval (fun s => Ok (vlen (dl_memory s))) ;;
    if d <? n then eval (fun _ => Ok tt)
    else assign put_memory (fun s => let* n := uadd p d 1 in
                                     vec_resize (n_size_of O) (dl_memory s) n zero).

  (** delay/mod.rs:80-95 *)
  Definition c_set_delay (d : Z) : cmd (delay T) unit :=
    run max_delay_samples <- eval (fun s => usub p (vlen (dl_memory s)) 1) ;;
    let delay_time := if max_delay_samples <? d then max_delay_samples else d in
    run w <- eval (fun s => Ok (dl_write s)) ;;
    (if delay_time <=? w
     then assign put_read (fun s => usub p (dl_write s) delay_time)
     else assign put_read (fun s => let* t := uadd p (vlen (dl_memory s)) (dl_write s) in
                                    usub p t delay_time)) ;;
    assign put_delay (fun _ => Ok delay_time).

  (** delay/mod.rs:109-120 *)
  Definition c_process (sample : T) : cmd (delay T) T :=
    assign put_memory (fun s => vset (dl_memory s) (dl_write s) sample) ;;
    assign put_write (fun s => uadd p (dl_write s) 1) ;;
    assign put_write (fun s => urem (dl_write s) (vlen (dl_memory s))) ;;
    assign put_output (fun s => vget (dl_memory s) (dl_read s)) ;;
    assign put_read (fun s => uadd p (dl_read s) 1) ;;
    assign put_read (fun s => urem (dl_read s) (vlen (dl_memory s))) ;;
    eval (fun s => Ok (dl_output s)).

  (** delay/mod.rs:122-127; the loop over the memory is one statement (it cannot
      panic) *)
  Definition c_clear : cmd (delay T) unit :=
    assign put_memory (fun s => Ok (map (fun _ => zero) (dl_memory s))) ;;
    assign put_output (fun _ => Ok zero).

  (** The position of a tap, delay/mod.rs:136-139, 144-147 and 152-155. *)
  Definition c_tap (tap_delay : Z) : cmd (delay T) Z :=
    eval (fun s => tap_index p (dl_write s) (vlen (dl_memory s)) tap_delay).

  (** delay/mod.rs:143-149 *)
  Definition c_tap_in (value : T) (tap_delay : Z) : cmd (delay T) unit :=
    run tap <- c_tap tap_delay ;;
    assign put_memory (fun s => vset (dl_memory s) tap value).

  (** delay/mod.rs:151-158 *)
  Definition c_add_to (value : T) (tap_delay : Z) : cmd (delay T) T :=
    run tap <- c_tap tap_delay ;;
    assign put_memory (fun s => let* old := vget (dl_memory s) tap in
                                vset (dl_memory s) tap (n_add O old value)) ;;
    eval (fun s => vget (dl_memory s) tap).

  (** One call of the public API of [Delay]; the calls that take [&self] are
      expressions (delay/mod.rs:73-75, 98-105, 129-131, 135-141). *)
  Definition c_call (op : dl_op Z T) : cmd (delay T) (obs Z T) :=
    match op with
    | DProcess x => run y <- c_process x ;; eval (fun _ => Ok (OSample y))
    | DClear => c_clear ;; eval (fun _ => Ok ONone)
    | DSetDelay d => c_set_delay d ;; eval (fun _ => Ok ONone)
    | DSetMaxDelay m => c_set_max_delay m ;; eval (fun _ => Ok ONone)
    | DGetDelay => eval (fun s => Ok (OSize (delay_get_delay s)))
    | DGetMaxDelay => eval (fun s => let* n := delay_get_max_delay p s in Ok (OSize n))
    | DNextOut => eval (fun s => let* x := delay_next_out s in Ok (OSample x))
    | DLastOut => eval (fun s => Ok (OSample (delay_last_out s)))
    | DTapOut t => eval (fun s => let* x := delay_tap_out p s t in Ok (OSample x))
    | DTapIn v t => c_tap_in v t ;; eval (fun _ => Ok ONone)
    | DAddTo v t => run x <- c_add_to v t ;; eval (fun _ => Ok (OSample x))
    end.
End DelayCalls.

Section LinCalls.
  Context {C T : Type} (K : ctl_ops C T) (O : num_ops T) (p : profile).
  Local Notation zero := (n_zero O).

  (** linear_delay.rs:74-77 *)
  Definition cl_set_max_delay (d : Z) : cmd (lin_delay C T) unit :=
    run n <- eval (fun s => Ok (vlen (ld_memory s))) ;;
    if d <? n then eval (fun _ => Ok tt)
    else assign lput_memory (fun s => let* n := uadd p d 1 in
                                      vec_resize (n_size_of O) (ld_memory s) n zero).

  (** linear_delay.rs:87-113; the delay is stored before the loop
      (linear_delay.rs:98), the loop has the 64 tests of [lin_set_delay] *)
  Definition cl_set_delay (d : C) : cmd (lin_delay C T) unit :=
    run max_delay_samples <- eval (fun s => usub p (vlen (ld_memory s)) 1) ;;
    let delay_time := clip_delay K d max_delay_samples in
    run start <- eval (fun s => Ok (c_sub K (c_of_usize K (ld_write s)) delay_time)) ;;
    assign lput_delay (fun _ => Ok delay_time) ;;
    run pos <- eval (fun s => norm_loop K 64 (vlen (ld_memory s)) start) ;;
    assign lput_read (fun _ => Ok (c_to_usize K pos)) ;;
    assign lput_read (fun s => Ok (if ld_read s =? vlen (ld_memory s) then 0 else ld_read s)) ;;
    assign lput_alpha (fun s => Ok (c_cast K (c_sub K pos (c_of_usize K (ld_read s))))) ;;
    assign lput_om_alpha (fun s => Ok (n_sub O (n_one O) (ld_alpha s))).

  (** linear_delay.rs:121-138: the cached value is stored after the first half of
      the interpolation and again after the second *)
  Definition cl_next_out : cmd (lin_delay C T) T :=
    run b <- eval (fun s => Ok (ld_do_next_out s)) ;;
    (if b then
       assign lput_next_out
         (fun s => let* m0 := vget (ld_memory s) (ld_read s) in
                   Ok (n_mul O m0 (ld_om_alpha s))) ;;
       run last <- eval (fun s => usub p (vlen (ld_memory s)) 1) ;;
       run r <- eval (fun s => Ok (ld_read s)) ;;
       (if r <? last
        then assign lput_next_out
               (fun s => let* r1 := uadd p (ld_read s) 1 in
                         let* m1 := vget (ld_memory s) r1 in
                         Ok (n_add O (ld_next_out s) (n_mul O m1 (ld_alpha s))))
        else assign lput_next_out
               (fun s => let* m1 := vget (ld_memory s) 0 in
                         Ok (n_add O (ld_next_out s) (n_mul O m1 (ld_alpha s))))) ;;
       assign lput_do_next_out (fun _ => Ok false)
     else eval (fun _ => Ok tt)) ;;
    eval (fun s => Ok (ld_next_out s)).

  (** linear_delay.rs:142-157 *)
  Definition cl_process (sample : T) : cmd (lin_delay C T) T :=
    assign lput_memory (fun s => vset (ld_memory s) (ld_write s) sample) ;;
    assign lput_write (fun s => uadd p (ld_write s) 1) ;;
    assign lput_write (fun s => urem (ld_write s) (vlen (ld_memory s))) ;;
    run y <- cl_next_out ;;
    assign lput_output (fun _ => Ok y) ;;
    assign lput_do_next_out (fun _ => Ok true) ;;
    assign lput_read (fun s => uadd p (ld_read s) 1) ;;
    assign lput_read (fun s => urem (ld_read s) (vlen (ld_memory s))) ;;
    eval (fun s => Ok (ld_output s)).

  (** linear_delay.rs:159-164 *)
  Definition cl_clear : cmd (lin_delay C T) unit :=
    assign lput_memory (fun s => Ok (map (fun _ => zero) (ld_memory s))) ;;
    assign lput_output (fun _ => Ok zero).

  (** linear_delay.rs:173-176, 181-184 and 189-192 *)
  Definition cl_tap (tap_delay : Z) : cmd (lin_delay C T) Z :=
    eval (fun s => tap_index p (ld_write s) (vlen (ld_memory s)) tap_delay).

  (** linear_delay.rs:180-186 *)
  Definition cl_tap_in (value : T) (tap_delay : Z) : cmd (lin_delay C T) unit :=
    run tap <- cl_tap tap_delay ;;
    assign lput_memory (fun s => vset (ld_memory s) tap value).

  (** linear_delay.rs:188-195 *)
  Definition cl_add_to (value : T) (tap_delay : Z) : cmd (lin_delay C T) T :=
    run tap <- cl_tap tap_delay ;;
    assign lput_memory (fun s => let* old := vget (ld_memory s) tap in
                                 vset (ld_memory s) tap (n_add O old value)) ;;
    eval (fun s => vget (ld_memory s) tap).

  (** One call of the public API of [LinearDelay]; the calls that take [&self]
      are expressions (linear_delay.rs:80-82, 116-118, 166-168, 172-178). *)
  Definition cl_call (op : dl_op C T) : cmd (lin_delay C T) (obs C T) :=
    match op with
    | DProcess x => run y <- cl_process x ;; eval (fun _ => Ok (OSample y))
    | DClear => cl_clear ;; eval (fun _ => Ok ONone)
    | DSetDelay d => cl_set_delay d ;; eval (fun _ => Ok ONone)
    | DSetMaxDelay m => cl_set_max_delay m ;; eval (fun _ => Ok ONone)
    | DGetDelay => eval (fun s => Ok (ODelay (lin_get_delay s)))
    | DGetMaxDelay => eval (fun s => let* n := lin_get_max_delay p s in Ok (OSize n))
    | DNextOut => run x <- cl_next_out ;; eval (fun _ => Ok (OSample x))
    | DLastOut => eval (fun s => Ok (OSample (lin_last_out s)))
    | DTapOut t => eval (fun s => let* x := lin_tap_out p s t in Ok (OSample x))
    | DTapIn v t => cl_tap_in v t ;; eval (fun _ => Ok ONone)
    | DAddTo v t => run x <- cl_add_to v t ;; eval (fun _ => Ok (OSample x))
    end.
End LinCalls.

(** [process_block], traits.rs:39-44, for any processor: the slice is overwritten
    sample by sample, so a panic leaves the samples before it replaced and the
    others as they were.  Returns the processor, the slice, and how the call
    ended. *)
Section Block.
  Context {S T : Type} (process : T -> cmd S T).

  Fixpoint c_each (s : S) (samples : list T) : S * list T * outcome unit :=
    match samples with
    | [] => (s, [], Ok tt)
    | x :: rest =>
        match process x s with
        | (s1, Ok y) => let '(s2, ys, r) := c_each s1 rest in (s2, y :: ys, r)
        | (s1, Panic) => (s1, x :: rest, Panic)
        | (s1, Hang) => (s1, x :: rest, Hang)
        end
    end.

  Definition c_block (s : S) (samples : list T) : S * list T * outcome T :=
    match c_each s samples with
    | (s', ys, Ok _) =>
        (s', ys, match ys with [] => Panic | y :: ys' => Ok (last ys' y) end)
    | (s', ys, Panic) => (s', ys, Panic)
    | (s', ys, Hang) => (s', ys, Hang)
    end.
End Block.
