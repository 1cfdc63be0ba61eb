(** Model of /repo/src/delay/linear_delay.rs: [LinearDelay].

    The delay time is an [f32] whatever the sample type [T] is; [C] with
    [ctl_ops C T] stands for that [f32] (see [Num.ctl_ops]). *)
From Coq Require Import ZArith List Bool.
From Verif Require Import Base Num DelayM.
Import ListNotations.
Open Scope Z_scope.

(** [struct LinearDelay<T>], linear_delay.rs:10-23 *)
Record lin_delay (C T : Type) := MkLin {
  ld_memory : list T;
  ld_output : T;
  ld_read : Z;
  ld_write : Z;
  ld_delay : C;
  ld_do_next_out : bool;
  ld_next_out : T;
  ld_alpha : T;
  ld_om_alpha : T
}.
Arguments MkLin {C T}.
Arguments ld_memory {C T}.
Arguments ld_output {C T}.
Arguments ld_read {C T}.
Arguments ld_write {C T}.
Arguments ld_delay {C T}.
Arguments ld_do_next_out {C T}.
Arguments ld_next_out {C T}.
Arguments ld_alpha {C T}.
Arguments ld_om_alpha {C T}.

Section LinDelay.
  Context {C T : Type} (K : ctl_ops C T) (O : num_ops T) (p : profile).
  Local Notation zero := (n_zero O).
  Local Infix "+." := (n_add O) (at level 50, left associativity).
  Local Infix "*." := (n_mul O) (at level 40, left associativity).

  (** The loop [while read_ptr_integer < 0f32 { read_ptr_integer +=
      self.memory.len() as f32; }], linear_delay.rs:100-102, with fuel: [Hang]
      if it has not stopped after [fuel] tests of its condition. *)
  Fixpoint norm_loop (fuel : nat) (len : Z) (r : C) : outcome C :=
    match fuel with
    | 0%nat => Hang
    | S fuel' =>
        if c_lt K r (c_zero K) then norm_loop fuel' len (c_add K r (c_of_usize K len))
        else Ok r
    end.

  (** Clipping, linear_delay.rs:48-54 ([m] = max_delay) and 88-95
      ([m] = self.memory.len() - 1). *)
  Definition clip_delay (d : C) (m : Z) : C :=
    let d1 := if c_lt K (c_of_usize K m) d then c_of_usize K m else d in
    if c_lt K d1 (c_zero K) then c_zero K else d1.

  (** linear_delay.rs:87-113, with [fuel] for the loop *)
  Definition lin_set_delay_fuel (fuel : nat) (s : lin_delay C T) (d : C)
    : outcome (lin_delay C T) :=
    let* max_delay_samples := usub p (vlen (ld_memory s)) 1 in
    let delay_time := clip_delay d max_delay_samples in
    let start := c_sub K (c_of_usize K (ld_write s)) delay_time in
    let* pos := norm_loop fuel (vlen (ld_memory s)) start in
    let read0 := c_to_usize K pos in
    let read := if read0 =? vlen (ld_memory s) then 0 else read0 in
    let alpha := c_cast K (c_sub K pos (c_of_usize K read)) in
    Ok (MkLin (ld_memory s) (ld_output s) read (ld_write s) delay_time
              (ld_do_next_out s) (ld_next_out s) alpha (n_sub O (n_one O) alpha)).

  (** The model's [set_delay] gives the loop 64 tests; theorem C19 shows that
      two always suffice on a non-empty line, and that no number suffices on the
      empty line that [max_delay = usize::MAX] produces in release builds. *)
  Definition lin_set_delay := lin_set_delay_fuel 64.

  (** linear_delay.rs:46-71, with [fuel] for the loop of [set_delay] *)
  Definition lin_new_fuel (fuel : nat) (d : C) (max_delay : Z) : outcome (lin_delay C T) :=
    let delay_time := clip_delay d max_delay in
    let* n := uadd p max_delay 1 in
    let* memory := vec_repeat (n_size_of O) zero n in
    lin_set_delay_fuel fuel (MkLin memory zero 0 0 (c_zero K) true zero zero zero) delay_time.
  Definition lin_new := lin_new_fuel 64.

  (** linear_delay.rs:74-77 *)
  Definition lin_set_max_delay (s : lin_delay C T) (d : Z) : outcome (lin_delay C T) :=
    if d <? vlen (ld_memory s) then Ok s
    else
      let* n := uadd p d 1 in
      let* memory := vec_resize (n_size_of O) (ld_memory s) n zero in
      Ok (MkLin memory (ld_output s) (ld_read s) (ld_write s) (ld_delay s)
                (ld_do_next_out s) (ld_next_out s) (ld_alpha s) (ld_om_alpha s)).

  (** linear_delay.rs:80-82 *)
  Definition lin_get_max_delay (s : lin_delay C T) : outcome Z :=
    usub p (vlen (ld_memory s)) 1.

  (** linear_delay.rs:116-118 *)
  Definition lin_get_delay (s : lin_delay C T) : C := ld_delay s.

  (** linear_delay.rs:121-138; takes [&mut self]: the peeked value is cached *)
  Definition lin_next_out (s : lin_delay C T) : outcome (lin_delay C T * T) :=
    if ld_do_next_out s then
      let* m0 := vget (ld_memory s) (ld_read s) in
      let first := m0 *. ld_om_alpha s in
      let* last := usub p (vlen (ld_memory s)) 1 in
      let* value :=
        (if ld_read s <? last then
           let* r1 := uadd p (ld_read s) 1 in
           let* m1 := vget (ld_memory s) r1 in
           Ok (first +. m1 *. ld_alpha s)
         else
           let* m1 := vget (ld_memory s) 0 in
           Ok (first +. m1 *. ld_alpha s)) in
      Ok (MkLin (ld_memory s) (ld_output s) (ld_read s) (ld_write s) (ld_delay s)
                false value (ld_alpha s) (ld_om_alpha s), value)
    else Ok (s, ld_next_out s).

  (** linear_delay.rs:142-157 *)
  Definition lin_process (s : lin_delay C T) (sample : T) : outcome (lin_delay C T * T) :=
    let* memory := vset (ld_memory s) (ld_write s) sample in
    let* w1 := uadd p (ld_write s) 1 in
    let* write := urem w1 (vlen memory) in
    let s1 := MkLin memory (ld_output s) (ld_read s) write (ld_delay s)
                    (ld_do_next_out s) (ld_next_out s) (ld_alpha s) (ld_om_alpha s) in
    let* (s2, output) := lin_next_out s1 in
    let* r1 := uadd p (ld_read s2) 1 in
    let* read := urem r1 (vlen (ld_memory s2)) in
    Ok (MkLin (ld_memory s2) output read (ld_write s2) (ld_delay s2)
              true (ld_next_out s2) (ld_alpha s2) (ld_om_alpha s2), output).

  (** linear_delay.rs:159-164 *)
  Definition lin_clear (s : lin_delay C T) : lin_delay C T :=
    MkLin (map (fun _ => zero) (ld_memory s)) zero (ld_read s) (ld_write s) (ld_delay s)
          (ld_do_next_out s) (ld_next_out s) (ld_alpha s) (ld_om_alpha s).

  (** linear_delay.rs:166-168 *)
  Definition lin_last_out (s : lin_delay C T) : T := ld_output s.

  (** linear_delay.rs:172-178 *)
  Definition lin_tap_out (s : lin_delay C T) (tap_delay : Z) : outcome T :=
    let* tap := tap_index p (ld_write s) (vlen (ld_memory s)) tap_delay in
    vget (ld_memory s) tap.

  (** linear_delay.rs:180-186 *)
  Definition lin_tap_in (s : lin_delay C T) (value : T) (tap_delay : Z)
    : outcome (lin_delay C T) :=
    let* tap := tap_index p (ld_write s) (vlen (ld_memory s)) tap_delay in
    let* memory := vset (ld_memory s) tap value in
    Ok (MkLin memory (ld_output s) (ld_read s) (ld_write s) (ld_delay s)
              (ld_do_next_out s) (ld_next_out s) (ld_alpha s) (ld_om_alpha s)).

  (** linear_delay.rs:188-195 *)
  Definition lin_add_to (s : lin_delay C T) (value : T) (tap_delay : Z)
    : outcome (lin_delay C T * T) :=
    let* tap := tap_index p (ld_write s) (vlen (ld_memory s)) tap_delay in
    let* old := vget (ld_memory s) tap in
    let* memory := vset (ld_memory s) tap (old +. value) in
    let* r := vget memory tap in
    Ok (MkLin memory (ld_output s) (ld_read s) (ld_write s) (ld_delay s)
              (ld_do_next_out s) (ld_next_out s) (ld_alpha s) (ld_om_alpha s), r).
End LinDelay.
