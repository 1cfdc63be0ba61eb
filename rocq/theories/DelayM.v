(** Model of /repo/src/delay/mod.rs: [Delay]. *)
From Coq Require Import ZArith List Bool.
From Verif Require Import Base Num.
Import ListNotations.
Open Scope Z_scope.

(** [struct Delay<T>], delay/mod.rs:14-22 *)
Record delay (T : Type) := MkDelay {
  dl_memory : list T;
  dl_output : T;
  dl_read : Z;
  dl_write : Z;
  dl_delay : Z
}.
Arguments MkDelay {T}.
Arguments dl_memory {T}.
Arguments dl_output {T}.
Arguments dl_read {T}.
Arguments dl_write {T}.
Arguments dl_delay {T}.

Section Delay.
  Context {T : Type} (O : num_ops T) (p : profile).
  Local Notation zero := (n_zero O).

  (** delay/mod.rs:80-95 *)
  Definition delay_set_delay (s : delay T) (d : Z) : outcome (delay T) :=
    let* max_delay_samples := usub p (vlen (dl_memory s)) 1 in
    let delay_time := if max_delay_samples <? d then max_delay_samples else d in
    let* read :=
      (if delay_time <=? dl_write s then usub p (dl_write s) delay_time
       else let* t := uadd p (vlen (dl_memory s)) (dl_write s) in
            usub p t delay_time) in
    Ok (MkDelay (dl_memory s) (dl_output s) read (dl_write s) delay_time).

  (** delay/mod.rs:45-62 *)
  Definition delay_new (d max_delay : Z) : outcome (delay T) :=
    let delay_time := if max_delay <? d then max_delay else d in
    let* n := uadd p max_delay 1 in
    let* memory := vec_repeat (n_size_of O) zero n in
    delay_set_delay (MkDelay memory zero 0 0 0) delay_time.

  (** delay/mod.rs:65-70 *)
  Definition delay_set_max_delay (s : delay T) (d : Z) : outcome (delay T) :=
    if d <? vlen (dl_memory s) then Ok s
    else
      let* n := uadd p d 1 in
      let* memory := vec_resize (n_size_of O) (dl_memory s) n zero in
      Ok (MkDelay memory (dl_output s) (dl_read s) (dl_write s) (dl_delay s)).

  (** delay/mod.rs:73-75 *)
  Definition delay_get_max_delay (s : delay T) : outcome Z :=
    usub p (vlen (dl_memory s)) 1.

  (** delay/mod.rs:98-100 *)
  Definition delay_get_delay (s : delay T) : Z := dl_delay s.

  (** delay/mod.rs:103-105 *)
  Definition delay_next_out (s : delay T) : outcome T :=
    vget (dl_memory s) (dl_read s).

  (** delay/mod.rs:109-120 *)
  Definition delay_process (s : delay T) (sample : T) : outcome (delay T * T) :=
    let* memory := vset (dl_memory s) (dl_write s) sample in
    let* w1 := uadd p (dl_write s) 1 in
    let* write := urem w1 (vlen memory) in
    let* output := vget memory (dl_read s) in
    let* r1 := uadd p (dl_read s) 1 in
    let* read := urem r1 (vlen memory) in
    Ok (MkDelay memory output read write (dl_delay s), output).

  (** delay/mod.rs:122-127 *)
  Definition delay_clear (s : delay T) : delay T :=
    MkDelay (map (fun _ => zero) (dl_memory s)) zero (dl_read s) (dl_write s) (dl_delay s).

  (** delay/mod.rs:129-131 *)
  Definition delay_last_out (s : delay T) : T := dl_output s.

  (** The tap position computed identically in [tap_out], [tap_in] and
      [add_to]: delay/mod.rs:136-140, 144-148, 152-156 (and
      linear_delay.rs:173-177, 181-185, 189-193). *)
  Definition tap_index (write_ptr len tap_delay : Z) : outcome Z :=
    let* t := isub p (as_isize write_ptr) (as_isize tap_delay) in
    let* tap := isub p t 1 in
    let* tap' := (if tap <? 0 then iadd p tap (as_isize len) else Ok tap) in
    Ok (as_usize tap').

  (** delay/mod.rs:135-141 *)
  Definition delay_tap_out (s : delay T) (tap_delay : Z) : outcome T :=
    let* tap := tap_index (dl_write s) (vlen (dl_memory s)) tap_delay in
    vget (dl_memory s) tap.

  (** delay/mod.rs:143-149 *)
  Definition delay_tap_in (s : delay T) (value : T) (tap_delay : Z) : outcome (delay T) :=
    let* tap := tap_index (dl_write s) (vlen (dl_memory s)) tap_delay in
    let* memory := vset (dl_memory s) tap value in
    Ok (MkDelay memory (dl_output s) (dl_read s) (dl_write s) (dl_delay s)).

  (** delay/mod.rs:151-158 *)
  Definition delay_add_to (s : delay T) (value : T) (tap_delay : Z)
    : outcome (delay T * T) :=
    let* tap := tap_index (dl_write s) (vlen (dl_memory s)) tap_delay in
    let* old := vget (dl_memory s) tap in
    let* memory := vset (dl_memory s) tap (n_add O old value) in
    let* r := vget memory tap in
    Ok (MkDelay memory (dl_output s) (dl_read s) (dl_write s) (dl_delay s), r).
End Delay.
