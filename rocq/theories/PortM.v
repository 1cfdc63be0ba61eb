(** The delay lines and windows on a target whose [usize] and [isize] have [w] bits (32 on
    wasm32 and most ARM microcontrollers), for property C107.  The same functions as in
    [DelayM], [LinDelayM] and [WindowM], whose machine integers have 64 bits; functions that
    do no integer arithmetic ([next_out] and [clear] of [Delay], the clipping of delays ...)
    are those of the 64-bit model.  Theorem [C107_word64] shows that with w = 64 this is the
    model of the other properties. *)
From Coq Require Import ZArith List Bool.
From Verif Require Import Base Num DelayM LinDelayM WindowM DelaySpec.
Import ListNotations.
Open Scope Z_scope.

(** ** Machine integers of [w] bits *)
Section Word.
  Context (w : Z) (p : profile).

  (** [x as usize] / [x as isize]: reduction modulo 2^w. *)
  Definition as_usize_w (z : Z) : Z := z mod 2 ^ w.
  Definition as_isize_w (z : Z) : Z := (z + 2 ^ (w - 1)) mod 2 ^ w - 2 ^ (w - 1).

  (** Overflow: panic in [Debug], wrap in [Release]. *)
  Definition chk_usize_w (z : Z) : outcome Z :=
    if (0 <=? z) && (z <? 2 ^ w) then Ok z
    else match p with Debug => Panic | Release => Ok (as_usize_w z) end.
  Definition chk_isize_w (z : Z) : outcome Z :=
    if (- 2 ^ (w - 1) <=? z) && (z <? 2 ^ (w - 1)) then Ok z
    else match p with Debug => Panic | Release => Ok (as_isize_w z) end.

  Definition uadd_w a b := chk_usize_w (a + b).
  Definition usub_w a b := chk_usize_w (a - b).
  Definition iadd_w a b := chk_isize_w (a + b).
  Definition isub_w a b := chk_isize_w (a - b).

  (** Allocation limit of [Vec<T>]: [isize::MAX] bytes. *)
  Definition alloc_ok_w (size_of n : Z) : bool := n * size_of <=? 2 ^ (w - 1) - 1.
  Definition vec_repeat_w {T} (size_of : Z) (x : T) (n : Z) : outcome (list T) :=
    if alloc_ok_w size_of n then Ok (repeat x (Z.to_nat n)) else Panic.
  Definition vec_resize_w {T} (size_of : Z) (v : list T) (n : Z) (x : T) : outcome (list T) :=
    if n <=? vlen v then Ok (firstn (Z.to_nat n) v)
    else if alloc_ok_w size_of n then Ok (v ++ repeat x (Z.to_nat (n - vlen v)))
    else Panic.
End Word.

(** ** [Delay] *)
Section Delay.
  Context (w : Z) {T : Type} (O : num_ops T) (p : profile).
  Local Notation zero := (n_zero O).

  (** delay/mod.rs:80-95 *)
  Definition delay_set_delay_w (s : delay T) (d : Z) : outcome (delay T) :=
    let* max_delay_samples := usub_w w p (vlen (dl_memory s)) 1 in
    let delay_time := if max_delay_samples <? d then max_delay_samples else d in
    let* read :=
      (if delay_time <=? dl_write s then usub_w w p (dl_write s) delay_time
       else let* t := uadd_w w p (vlen (dl_memory s)) (dl_write s) in
            usub_w w p t delay_time) in
    Ok (MkDelay (dl_memory s) (dl_output s) read (dl_write s) delay_time).

  (** delay/mod.rs:45-62 *)
  Definition delay_new_w (d max_delay : Z) : outcome (delay T) :=
    let delay_time := if max_delay <? d then max_delay else d in
    let* n := uadd_w w p max_delay 1 in
    let* memory := vec_repeat_w w (n_size_of O) zero n in
    delay_set_delay_w (MkDelay memory zero 0 0 0) delay_time.

  (** delay/mod.rs:65-70 *)
  Definition delay_set_max_delay_w (s : delay T) (d : Z) : outcome (delay T) :=
    if d <? vlen (dl_memory s) then Ok s
    else
      let* n := uadd_w w p d 1 in
      let* memory := vec_resize_w w (n_size_of O) (dl_memory s) n zero in
      Ok (MkDelay memory (dl_output s) (dl_read s) (dl_write s) (dl_delay s)).

  (** delay/mod.rs:73-75 *)
  Definition delay_get_max_delay_w (s : delay T) : outcome Z :=
    usub_w w p (vlen (dl_memory s)) 1.

  (** delay/mod.rs:109-120 *)
  Definition delay_process_w (s : delay T) (sample : T) : outcome (delay T * T) :=
    let* memory := vset (dl_memory s) (dl_write s) sample in
    let* w1 := uadd_w w p (dl_write s) 1 in
    let* write := urem w1 (vlen memory) in
    let* output := vget memory (dl_read s) in
    let* r1 := uadd_w w p (dl_read s) 1 in
    let* read := urem r1 (vlen memory) in
    Ok (MkDelay memory output read write (dl_delay s), output).

  (** The tap position computed identically in [tap_out], [tap_in] and
      [add_to]: delay/mod.rs:136-140, 144-148, 152-156 (and
      linear_delay.rs:173-177, 181-185, 189-193). *)
  Definition tap_index_w (write_ptr len tap_delay : Z) : outcome Z :=
    let* t := isub_w w p (as_isize_w w write_ptr) (as_isize_w w tap_delay) in
    let* tap := isub_w w p t 1 in
    let* tap' := (if tap <? 0 then iadd_w w p tap (as_isize_w w len) else Ok tap) in
    Ok (as_usize_w w tap').

  (** delay/mod.rs:135-141 *)
  Definition delay_tap_out_w (s : delay T) (tap_delay : Z) : outcome T :=
    let* tap := tap_index_w (dl_write s) (vlen (dl_memory s)) tap_delay in
    vget (dl_memory s) tap.

  (** delay/mod.rs:143-149 *)
  Definition delay_tap_in_w (s : delay T) (value : T) (tap_delay : Z) : outcome (delay T) :=
    let* tap := tap_index_w (dl_write s) (vlen (dl_memory s)) tap_delay in
    let* memory := vset (dl_memory s) tap value in
    Ok (MkDelay memory (dl_output s) (dl_read s) (dl_write s) (dl_delay s)).

  (** delay/mod.rs:151-158 *)
  Definition delay_add_to_w (s : delay T) (value : T) (tap_delay : Z)
    : outcome (delay T * T) :=
    let* tap := tap_index_w (dl_write s) (vlen (dl_memory s)) tap_delay in
    let* old := vget (dl_memory s) tap in
    let* memory := vset (dl_memory s) tap (n_add O old value) in
    let* r := vget memory tap in
    Ok (MkDelay memory (dl_output s) (dl_read s) (dl_write s) (dl_delay s), r).
End Delay.

Section DelayRun.
  Context (w : Z) {T : Type} (O : num_ops T) (p : profile).

  (** One call of the public API of [Delay] (delay/mod.rs:24-159). *)
  Definition dl_step_w (s : delay T) (op : dl_op Z T) : outcome (delay T * obs Z T) :=
    match op with
    | DProcess x => let* (s', y) := delay_process_w w p s x in Ok (s', OSample y)
    | DClear => Ok (delay_clear O s, ONone)
    | DSetDelay d => let* s' := delay_set_delay_w w p s d in Ok (s', ONone)
    | DSetMaxDelay m => let* s' := delay_set_max_delay_w w O p s m in Ok (s', ONone)
    | DGetDelay => Ok (s, OSize (delay_get_delay s))
    | DGetMaxDelay => let* n := delay_get_max_delay_w w p s in Ok (s, OSize n)
    | DNextOut => let* x := delay_next_out s in Ok (s, OSample x)
    | DLastOut => Ok (s, OSample (delay_last_out s))
    | DTapOut t => let* x := delay_tap_out_w w p s t in Ok (s, OSample x)
    | DTapIn v t => let* s' := delay_tap_in_w w p s v t in Ok (s', ONone)
    | DAddTo v t => let* (s', x) := delay_add_to_w w O p s v t in Ok (s', OSample x)
    end.

  Fixpoint dl_run_w (s : delay T) (ops : list (dl_op Z T)) : outcome (delay T * list (obs Z T)) :=
    match ops with
    | [] => Ok (s, [])
    | op :: rest =>
        let* (s1, o) := dl_step_w s op in
        let* (s2, os) := dl_run_w s1 rest in
        Ok (s2, o :: os)
    end.
  (** [let mut s = Delay::new(d, m);] followed by the calls [ops]. *)
  Definition dl_session_w (d m : Z) (ops : list (dl_op Z T)) : outcome (delay T * list (obs Z T)) :=
    let* s := delay_new_w w O p d m in dl_run_w s ops.

End DelayRun.

(** ** [LinearDelay] *)
Section LinDelay.
  Context (w : Z) {C T : Type} (K : ctl_ops C T) (O : num_ops T) (p : profile).
  Local Notation zero := (n_zero O).
  Local Infix "+." := (n_add O) (at level 50, left associativity).
  Local Infix "*." := (n_mul O) (at level 40, left associativity).

  (** [x as usize]: the conversion saturates at [usize::MAX] of the target ([c_to_usize] at
      2^64 - 1). *)
  Definition c_to_usize_w (x : C) : Z := Z.min (2 ^ w - 1) (c_to_usize K x).

  (** linear_delay.rs:87-113, with [fuel] for the loop *)
  Definition lin_set_delay_fuel_w (fuel : nat) (s : lin_delay C T) (d : C)
    : outcome (lin_delay C T) :=
    let* max_delay_samples := usub_w w p (vlen (ld_memory s)) 1 in
    let delay_time := clip_delay K d max_delay_samples in
    let start := c_sub K (c_of_usize K (ld_write s)) delay_time in
    let* pos := norm_loop K fuel (vlen (ld_memory s)) start in
    let read0 := c_to_usize_w pos in
    let read := if read0 =? vlen (ld_memory s) then 0 else read0 in
    let alpha := c_cast K (c_sub K pos (c_of_usize K read)) in
    Ok (MkLin (ld_memory s) (ld_output s) read (ld_write s) delay_time
              (ld_do_next_out s) (ld_next_out s) alpha (n_sub O (n_one O) alpha)).

  (** The model's [set_delay] gives the loop 64 tests; theorem C19 shows that
      two always suffice on a non-empty line, and that no number suffices on the
      empty line that [max_delay = usize::MAX] produces in release builds. *)
  Definition lin_set_delay_w := lin_set_delay_fuel_w 64.

  (** linear_delay.rs:46-71, with [fuel] for the loop of [set_delay] *)
  Definition lin_new_fuel_w (fuel : nat) (d : C) (max_delay : Z) : outcome (lin_delay C T) :=
    let delay_time := clip_delay K d max_delay in
    let* n := uadd_w w p max_delay 1 in
    let* memory := vec_repeat_w w (n_size_of O) zero n in
    lin_set_delay_fuel_w fuel (MkLin memory zero 0 0 (c_zero K) true zero zero zero) delay_time.
  Definition lin_new_w := lin_new_fuel_w 64.

  (** linear_delay.rs:74-77 *)
  Definition lin_set_max_delay_w (s : lin_delay C T) (d : Z) : outcome (lin_delay C T) :=
    if d <? vlen (ld_memory s) then Ok s
    else
      let* n := uadd_w w p d 1 in
      let* memory := vec_resize_w w (n_size_of O) (ld_memory s) n zero in
      Ok (MkLin memory (ld_output s) (ld_read s) (ld_write s) (ld_delay s)
                (ld_do_next_out s) (ld_next_out s) (ld_alpha s) (ld_om_alpha s)).

  (** linear_delay.rs:80-82 *)
  Definition lin_get_max_delay_w (s : lin_delay C T) : outcome Z :=
    usub_w w p (vlen (ld_memory s)) 1.

  (** linear_delay.rs:121-138; takes [&mut self]: the peeked value is cached *)
  Definition lin_next_out_w (s : lin_delay C T) : outcome (lin_delay C T * T) :=
    if ld_do_next_out s then
      let* m0 := vget (ld_memory s) (ld_read s) in
      let first := m0 *. ld_om_alpha s in
      let* last := usub_w w p (vlen (ld_memory s)) 1 in
      let* value :=
        (if ld_read s <? last then
           let* r1 := uadd_w w p (ld_read s) 1 in
           let* m1 := vget (ld_memory s) r1 in
           Ok (first +. m1 *. ld_alpha s)
         else
           let* m1 := vget (ld_memory s) 0 in
           Ok (first +. m1 *. ld_alpha s)) in
      Ok (MkLin (ld_memory s) (ld_output s) (ld_read s) (ld_write s) (ld_delay s)
                false value (ld_alpha s) (ld_om_alpha s), value)
    else Ok (s, ld_next_out s).

  (** linear_delay.rs:142-157 *)
  Definition lin_process_w (s : lin_delay C T) (sample : T) : outcome (lin_delay C T * T) :=
    let* memory := vset (ld_memory s) (ld_write s) sample in
    let* w1 := uadd_w w p (ld_write s) 1 in
    let* write := urem w1 (vlen memory) in
    let s1 := MkLin memory (ld_output s) (ld_read s) write (ld_delay s)
                    (ld_do_next_out s) (ld_next_out s) (ld_alpha s) (ld_om_alpha s) in
    let* (s2, output) := lin_next_out_w s1 in
    let* r1 := uadd_w w p (ld_read s2) 1 in
    let* read := urem r1 (vlen (ld_memory s2)) in
    Ok (MkLin (ld_memory s2) output read (ld_write s2) (ld_delay s2)
              true (ld_next_out s2) (ld_alpha s2) (ld_om_alpha s2), output).

  (** linear_delay.rs:172-178 *)
  Definition lin_tap_out_w (s : lin_delay C T) (tap_delay : Z) : outcome T :=
    let* tap := tap_index_w w p (ld_write s) (vlen (ld_memory s)) tap_delay in
    vget (ld_memory s) tap.

  (** linear_delay.rs:180-186 *)
  Definition lin_tap_in_w (s : lin_delay C T) (value : T) (tap_delay : Z)
    : outcome (lin_delay C T) :=
    let* tap := tap_index_w w p (ld_write s) (vlen (ld_memory s)) tap_delay in
    let* memory := vset (ld_memory s) tap value in
    Ok (MkLin memory (ld_output s) (ld_read s) (ld_write s) (ld_delay s)
              (ld_do_next_out s) (ld_next_out s) (ld_alpha s) (ld_om_alpha s)).

  (** linear_delay.rs:188-195 *)
  Definition lin_add_to_w (s : lin_delay C T) (value : T) (tap_delay : Z)
    : outcome (lin_delay C T * T) :=
    let* tap := tap_index_w w p (ld_write s) (vlen (ld_memory s)) tap_delay in
    let* old := vget (ld_memory s) tap in
    let* memory := vset (ld_memory s) tap (old +. value) in
    let* r := vget memory tap in
    Ok (MkLin memory (ld_output s) (ld_read s) (ld_write s) (ld_delay s)
              (ld_do_next_out s) (ld_next_out s) (ld_alpha s) (ld_om_alpha s), r).
End LinDelay.

Section LinRun.
  Context (w : Z) {C T : Type} (K : ctl_ops C T) (O : num_ops T) (p : profile).

  (** One call of the public API of [LinearDelay] (linear_delay.rs:25-196). *)
  Definition lin_step_w (s : lin_delay C T) (op : dl_op C T) : outcome (lin_delay C T * obs C T) :=
    match op with
    | DProcess x => let* (s', y) := lin_process_w w O p s x in Ok (s', OSample y)
    | DClear => Ok (lin_clear O s, ONone)
    | DSetDelay d => let* s' := lin_set_delay_w w K O p s d in Ok (s', ONone)
    | DSetMaxDelay m => let* s' := lin_set_max_delay_w w O p s m in Ok (s', ONone)
    | DGetDelay => Ok (s, ODelay (lin_get_delay s))
    | DGetMaxDelay => let* n := lin_get_max_delay_w w p s in Ok (s, OSize n)
    | DNextOut => let* (s', x) := lin_next_out_w w O p s in Ok (s', OSample x)
    | DLastOut => Ok (s, OSample (lin_last_out s))
    | DTapOut t => let* x := lin_tap_out_w w p s t in Ok (s, OSample x)
    | DTapIn v t => let* s' := lin_tap_in_w w p s v t in Ok (s', ONone)
    | DAddTo v t => let* (s', x) := lin_add_to_w w O p s v t in Ok (s', OSample x)
    end.

  Fixpoint lin_run_w (s : lin_delay C T) (ops : list (dl_op C T))
    : outcome (lin_delay C T * list (obs C T)) :=
    match ops with
    | [] => Ok (s, [])
    | op :: rest =>
        let* (s1, o) := lin_step_w s op in
        let* (s2, os) := lin_run_w s1 rest in
        Ok (s2, o :: os)
    end.

  (** [let mut s = LinearDelay::new(d, m);] followed by the calls [ops]. *)
  Definition lin_session_w (d : C) (m : Z) (ops : list (dl_op C T))
    : outcome (lin_delay C T * list (obs C T)) :=
    let* s := lin_new_w w K O p d m in lin_run_w s ops.

End LinRun.

(** ** Windows *)
Section Window.
  Context (w : Z) {T : Type} (O : num_ops T).
  Local Notation one := (n_one O).
  Local Notation two := (n_two O).
  Local Notation pi := (n_pi O).
  Local Infix "+" := (n_add O).
  Local Infix "-" := (n_sub O).
  Local Infix "*" := (n_mul O).
  Local Infix "/" := (n_div O).

  (** triangular.rs:23-35 *)
  Definition triangular_gen_w (p : profile) (index size : Z) : outcome T :=
    let index_float := n_of_usize O index in
    let size_float := n_of_usize O size in
    let* sm1 := usub_w w p size 1 in
    let size_minus_one := n_of_usize O sm1 in
    let alpha := size_minus_one / two in
    let numerator := index_float - alpha in
    let denominator := size_float / two in
    Ok (one - n_abs O (numerator / denominator)).

  (** bartlett.rs:23-33 *)
  Definition bartlett_gen_w (p : profile) (index size : Z) : outcome T :=
    let index_float := n_of_usize O index in
    let* sm1 := usub_w w p size 1 in
    let size_minus_one := n_of_usize O sm1 in
    let alpha := size_minus_one / two in
    let numerator := index_float - alpha in
    Ok (one - n_abs O (numerator / alpha)).

  (** hann.rs:23-33 *)
  Definition hann_gen_w (p : profile) (index size : Z) : outcome T :=
    let half := n_of_f64 O (F64lit 5 10) in
    let index_float := n_of_usize O index in
    let* sm1 := usub_w w p size 1 in
    let size_minus_one := n_of_usize O sm1 in
    let numerator := two * pi * index_float in
    Ok (half * (one - n_cos O (numerator / size_minus_one))).

  (** hamming.rs:23-34 *)
  Definition hamming_gen_w (p : profile) (index size : Z) : outcome T :=
    let index_float := n_of_usize O index in
    let* sm1 := usub_w w p size 1 in
    let size_minus_one := n_of_usize O sm1 in
    let alpha := n_of_f64 O (F64lit 54 100) in
    let beta := one - alpha in
    let numerator := two * pi * index_float in
    Ok (alpha - beta * n_cos O (numerator / size_minus_one)).

  (** blackman.rs:7 and 25-36 *)
  Definition blackman_gen_w (p : profile) (index size : Z) : outcome T :=
    let index_float := n_of_usize O index in
    let* sm1 := usub_w w p size 1 in
    let size_minus_one := n_of_usize O sm1 in
    let theta := two * pi * index_float / size_minus_one in
    let a0 := n_of_f64 O (F64div (F64sub (F64lit 1 1) (F64lit 16 100)) (F64lit 2 1)) in
    let a1 := n_of_f64 O (F64lit 5 10) in
    let a2 := n_of_f64 O (F64div (F64lit 16 100) (F64lit 2 1)) in
    Ok (a0 - a1 * n_cos O theta + a2 * n_cos O (two * theta)).

  (** blackman_harris.rs:7 and 25-38 *)
  Definition blackman_harris_gen_w (p : profile) (index size : Z) : outcome T :=
    let three := n_of_f64 O (F64lit 3 1) in
    let index_float := n_of_usize O index in
    let* sm1 := usub_w w p size 1 in
    let size_minus_one := n_of_usize O sm1 in
    let theta := two * pi * index_float / size_minus_one in
    let a0 := n_of_f64 O (F64lit 35875 100000) in
    let a1 := n_of_f64 O (F64lit 48829 100000) in
    let a2 := n_of_f64 O (F64lit 14128 100000) in
    let a3 := n_of_f64 O (F64lit 1168 100000) in
    Ok (a0 - a1 * n_cos O theta + a2 * n_cos O (two * theta)
        - a3 * n_cos O (three * theta)).

  (** [generate_window] of each iterator type. *)
  Definition win_generate_w (k : win_kind) (p : profile) (it : win_iter) : outcome T :=
    match k with
    | WTriangular => triangular_gen_w p (wi_index it) (wi_size it)
    | WBartlett => bartlett_gen_w p (wi_index it) (wi_size it)
    | WHann => hann_gen_w p (wi_index it) (wi_size it)
    | WHamming => hamming_gen_w p (wi_index it) (wi_size it)
    | WBlackman => blackman_gen_w p (wi_index it) (wi_size it)
    | WBlackmanHarris => blackman_harris_gen_w p (wi_index it) (wi_size it)
    end.

  (** [Iterator::next], the same in the six files (triangular.rs:41-50,
      bartlett.rs:39-48, hann.rs:39-48, hamming.rs:40-49, blackman.rs:42-51,
      blackman_harris.rs:44-53). *)
  Definition win_next_w (k : win_kind) (p : profile) (it : win_iter)
    : outcome (win_iter * option T) :=
    if (wi_index it <? wi_size it)%Z then
      let* window_sample := win_generate_w k p it in
      let* index := uadd_w w p (wi_index it) 1 in
      Ok (WinIter index (wi_size it), Some window_sample)
    else Ok (it, None).

  (** The loop [for (sample, window_gain) in samples.iter_mut().zip(window)
      { *sample = window_gain * *sample; }] of mod.rs:53-55 (and 59-61, 65-67,
      71-73, 77-79, 83-85): stops at the shorter of the two. *)
  Fixpoint zip_apply_w (k : win_kind) (p : profile) (it : win_iter) (samples : list T)
    : outcome (list T) :=
    match samples with
    | [] => Ok []
    | sample :: rest =>
        let* (it', g) := win_next_w k p it in
        match g with
        | None => Ok (sample :: rest)
        | Some window_gain =>
            let* rest' := zip_apply_w k p it' rest in
            Ok (window_gain * sample :: rest')
        end
    end.

  (** [apply_window_w], mod.rs:48-88. *)
  Definition apply_window_w (p : profile) (samples : list T) (w : window) : outcome (list T) :=
    match w with
    | Rectangular => Ok samples
    | Triangular => zip_apply_w WTriangular p (win_new WTriangular (vlen samples)) samples
    | Bartlett => zip_apply_w WBartlett p (win_new WBartlett (vlen samples)) samples
    | Hann => zip_apply_w WHann p (win_new WHann (vlen samples)) samples
    | Hamming => zip_apply_w WHamming p (win_new WHamming (vlen samples)) samples
    | Blackman => zip_apply_w WBlackman p (win_new WBlackman (vlen samples)) samples
    | BlackmanHarris =>
        zip_apply_w WBlackmanHarris p (win_new WBlackmanHarris (vlen samples)) samples
    end.
End Window.
