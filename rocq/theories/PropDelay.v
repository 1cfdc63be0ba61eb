(** Properties C06-C18: [Delay].

    Vocabulary: [dl_session O p d m ops] is [Delay::new(d, m)] followed by the
    calls [ops] ([DelayRun]); [dl_history O p d m ops s] says that such a session
    completed in state [s]; [DelaySpec] is the abstract delay line; [max_after],
    [write_after] and [timing_after] ([PlaceSpec]) follow the length of the line, its
    write position and its timing through the calls. *)
From Coq Require Import ZArith List Bool.
From Verif Require Import Base Num NumF Witness DelayM DelaySpec DelayRun PlaceSpec DelayLemmas.
Import ListNotations.
Open Scope Z_scope.

(** A concrete session with [f64] samples: [Delay::new(2, 3)], five arbitrary samples,
    taps, a change of delay.  The examples below reuse it. *)
Definition ex_ops (a b c : f64) : list (dl_op Z f64) :=
  [DProcess a; DProcess b; DTapIn c 1; DSetDelay 1;
   DProcess b; DNextOut; DProcess c; DTapOut 2; DProcess a].

Ltac sane := repeat constructor; unfold op_sane, is_usize, op_usize; repeat split;
  try discriminate; try (intros; discriminate); easy.
Ltac history := unfold dl_history, is_usize; split; [easy|];
  split; [easy|]; split; [discriminate|]; split; [sane|];
  eexists; vm_compute; reflexivity.

(** C08: every session in the documented domain behaves as the abstract delay
    line: the calls return exactly what the line returns. *)
Theorem C08_delay_refines_line :
  forall (T : Type) (O : num_ops T) (p : profile) (d m : Z) (ops : list (dl_op Z T)),
    1 <= n_size_of O -> is_usize d -> is_usize m -> fits O m ->
    Forall op_usize ops -> normal_use O m ops ->
    exists (s : delay T) (l : line T) (os : list (obs Z T)),
      line_run (n_zero O) (n_add O) (isize_max / n_size_of O)
               (line_new (n_zero O) (Z.to_nat d) (Z.to_nat m)) ops = Some (l, os)
      /\ dl_session O p d m ops = Ok (s, os).
Proof. exact C08_delay_refines_line_thm. Qed.
Print Assumptions C08_delay_refines_line.

Example C08_delay_refines_line_hyps (a b c : f64) :
  1 <= n_size_of O64 /\ is_usize 2 /\ is_usize 3 /\ fits O64 3
  /\ Forall op_usize ((ex_ops a b c) ++ [DSetMaxDelay 6; DTapOut 6])
  /\ normal_use O64 3 ((ex_ops a b c) ++ [DSetMaxDelay 6; DTapOut 6]).
Proof.
  split; [easy|]. split; [easy|]. split; [easy|]. split; [easy|].
  split; [repeat constructor; easy|]. repeat split; easy.
Qed.

(** C06: such a session never panics. *)
Theorem C06_delay_never_panics :
  forall (T : Type) (O : num_ops T) (p : profile) (d m : Z) (ops : list (dl_op Z T)),
    1 <= n_size_of O -> is_usize d -> is_usize m -> fits O m ->
    Forall op_usize ops -> normal_use O m ops ->
    exists r, dl_session O p d m ops = Ok r.
Proof. exact C06_delay_never_panics_thm. Qed.
Print Assumptions C06_delay_never_panics.

Example C06_delay_never_panics_hyps (a b c : f64) :
  1 <= n_size_of O64 /\ is_usize 2 /\ is_usize 3 /\ fits O64 3
  /\ Forall op_usize ((ex_ops a b c) ++ [DSetMaxDelay 6; DTapOut 6])
  /\ normal_use O64 3 ((ex_ops a b c) ++ [DSetMaxDelay 6; DTapOut 6]).
Proof.
  split; [easy|]. split; [easy|]. split; [easy|]. split; [easy|].
  split; [repeat constructor; easy|]. repeat split; easy.
Qed.

(** C07: a new delay outputs [min d m] zeros followed by its input, exactly. *)
Theorem C07_delay_is_pure_delay :
  forall (T : Type) (O : num_ops T) (p : profile) (d m : Z) (xs : list T),
    1 <= n_size_of O -> is_usize d -> is_usize m -> fits O m ->
    exists s, dl_session O p d m (map DProcess xs)
      = Ok (s, map OSample (firstn (length xs) (repeat (n_zero O) (Z.to_nat (Z.min d m)) ++ xs))).
Proof. exact C07_delay_is_pure_delay_thm. Qed.
Print Assumptions C07_delay_is_pure_delay.

Example C07_delay_is_pure_delay_hyps :
  1 <= n_size_of O64 /\ is_usize 2 /\ is_usize 3 /\ fits O64 3.
Proof. repeat split; easy. Qed.

(** C08 (observable form): after any history, if [set_max_delay] was not called
    since the last [set_delay], [process(x)] returns [x] when [get_delay() = 0]
    and otherwise exactly what [tap_out(get_delay() - 1)] shows beforehand. *)
Theorem C08_delay_outputs_tap :
  forall (T : Type) (O : num_ops T) (p : profile) (d m : Z) (ops : list (dl_op Z T))
         (s : delay T) (x : T),
    1 <= n_size_of O -> dl_history O p d m ops s -> timing_trusted ops ->
    exists s' y, delay_process p s x = Ok (s', y)
      /\ (delay_get_delay s = 0 -> y = x)
      /\ (1 <= delay_get_delay s -> delay_tap_out p s (delay_get_delay s - 1) = Ok y).
Proof. exact C08_delay_outputs_tap_thm. Qed.
Print Assumptions C08_delay_outputs_tap.

Example C08_delay_outputs_tap_hyps (a b c : f64) :
  exists s, dl_history O64 Debug 2 3 (ex_ops a b c) s /\ timing_trusted (ex_ops a b c) /\ delay_get_delay s = 1.
Proof. eexists. split; [history|]. split; reflexivity. Qed.

(** C09: [set_delay] stores the clipped delay and changes nothing else that can
    be observed through taps, [last_out] or [get_max_delay]. *)
Theorem C09_set_delay_clips :
  forall (T : Type) (O : num_ops T) (p : profile) (d m : Z) (ops : list (dl_op Z T))
         (s : delay T) (d' : Z),
    1 <= n_size_of O -> dl_history O p d m ops s -> is_usize d' ->
    exists s' mx,
      delay_set_delay p s d' = Ok s'
      /\ delay_get_max_delay p s = Ok mx /\ delay_get_max_delay p s' = Ok mx
      /\ delay_get_delay s' = Z.min d' mx
      /\ delay_last_out s' = delay_last_out s
      /\ (forall t, is_usize t -> delay_tap_out p s' t = delay_tap_out p s t).
Proof. exact C09_set_delay_clips_thm. Qed.
Print Assumptions C09_set_delay_clips.

Example C09_set_delay_clips_hyps (a b c : f64) :
  exists s, dl_history O64 Debug 2 3 (ex_ops a b c) s.
Proof. eexists. history. Qed.

(** C09: [new] clips too. *)
Theorem C09_new_clips :
  forall (T : Type) (O : num_ops T) (p : profile) (d m : Z),
    1 <= n_size_of O -> is_usize d -> is_usize m -> fits O m ->
    exists s, delay_new O p d m = Ok s
      /\ delay_get_delay s = Z.min d m /\ delay_get_max_delay p s = Ok m
      /\ delay_last_out s = n_zero O.
Proof. exact C09_new_clips_thm. Qed.
Print Assumptions C09_new_clips.

Example C09_new_clips_hyps :
  1 <= n_size_of O64 /\ is_usize 9 /\ is_usize 3 /\ fits O64 3.
Proof. repeat split; easy. Qed.

(** C10: [set_max_delay] only grows the line. *)
Theorem C10_set_max_delay_grows :
  forall (T : Type) (O : num_ops T) (p : profile) (d m : Z) (ops : list (dl_op Z T))
         (s : delay T) (m' : Z),
    1 <= n_size_of O -> dl_history O p d m ops s -> is_usize m' -> fits O m' ->
    exists s' mx,
      delay_set_max_delay O p s m' = Ok s'
      /\ delay_get_max_delay p s = Ok mx
      /\ delay_get_max_delay p s' = Ok (Z.max mx m')
      /\ delay_get_delay s' = delay_get_delay s
      /\ delay_last_out s' = delay_last_out s
      /\ (m' <= mx -> s' = s).
Proof. exact C10_set_max_delay_grows_thm. Qed.
Print Assumptions C10_set_max_delay_grows.

Example C10_set_max_delay_grows_hyps (a b c : f64) :
  exists s, dl_history O64 Debug 2 3 (ex_ops a b c) s /\ is_usize 10 /\ fits O64 10.
Proof. eexists. split; [history|]. repeat split; easy. Qed.

(** C11, in full: after any history, growths included, the maximum delay, the
    reported delay and the latency the line really has are those that
    [timing_after] computes from the calls: processing [xs] returns as many stored
    values as the latency, then [xs]. *)
Theorem C11_latency :
  forall (T : Type) (O : num_ops T) (p : profile) (d m : Z) (ops : list (dl_op Z T))
         (s : delay T) (xs : list T),
    1 <= n_size_of O -> dl_history O p d m ops s ->
    let t := timing_after d m ops in
    delay_get_max_delay p s = Ok (t_max t)
    /\ delay_get_delay s = t_reported t
    /\ exists s1 before,
         dl_run O p s (map DProcess xs)
           = Ok (s1, map OSample (firstn (length xs) (before ++ xs)))
         /\ Z.of_nat (length before) = t_latency t.
Proof. exact C11_latency_thm. Qed.
Print Assumptions C11_latency.

(* three growths, one of them audible: the latency becomes 2 + 3 = 5 although the
   line reports 2; the later growth finds the write position before the latency and
   adds two more *)
Example C11_latency_hyps (a b c : f64) :
  let ops := [DProcess a; DSetMaxDelay 6; DProcess b; DSetMaxDelay 5; DSetMaxDelay 8] in
  (exists s, dl_history O64 Debug 2 3 ops s)
  /\ timing_after 2 3 ops = Timing 8 2 2 7
  /\ max_after 3 ops = 8 /\ write_after 3 ops = 2.
Proof. split; [eexists; history|]. repeat split; reflexivity. Qed.

(** C11: growth with the write position at or past the delay is inaudible. *)
Theorem C11_growth_in_phase :
  forall (T : Type) (O : num_ops T) (p : profile) (d m : Z) (ops : list (dl_op Z T))
         (s : delay T) (m' : Z) (xs : list T),
    1 <= n_size_of O -> dl_history O p d m ops s -> timing_trusted ops ->
    is_usize m' -> fits O m' ->
    delay_get_delay s <= write_after m ops ->
    exists s1 s2 os,
      dl_run O p s (map DProcess xs) = Ok (s1, os)
      /\ dl_run O p s (DSetMaxDelay m' :: map DProcess xs) = Ok (s2, ONone :: os).
Proof. exact C11_growth_in_phase_thm. Qed.
Print Assumptions C11_growth_in_phase.

Example C11_growth_in_phase_hyps (a b c : f64) :
  let ops := (ex_ops a b c) ++ [DSetMaxDelay 5; DSetDelay 1] in
  exists s, dl_history O64 Debug 2 3 ops s
    /\ timing_trusted ops /\ fits O64 10 /\ delay_get_delay s <= write_after 3 ops.
Proof. eexists. split; [history|]. split; [reflexivity|]. split; easy. Qed.

(** C11: growth with the write position before the delay lengthens the real
    latency by the growth, although [get_delay] still reports the old one. *)
Theorem C11_growth_out_of_phase_refuted :
  forall (T : Type) (O : num_ops T) (p : profile) (d m : Z) (ops : list (dl_op Z T))
         (s : delay T) (m' : Z) (xs : list T),
    1 <= n_size_of O -> dl_history O p d m ops s -> timing_trusted ops ->
    is_usize m' -> fits O m' -> max_after m ops < m' ->
    write_after m ops < delay_get_delay s ->
    exists s1 s2 before after,
      dl_run O p s (map DProcess xs)
        = Ok (s1, map OSample (firstn (length xs) (before ++ xs)))
      /\ Z.of_nat (length before) = delay_get_delay s
      /\ dl_run O p s (DSetMaxDelay m' :: map DProcess xs)
        = Ok (s2, ONone :: map OSample (firstn (length xs) (after ++ xs)))
      /\ Z.of_nat (length after) = delay_get_delay s + (m' - max_after m ops)
      /\ delay_get_delay s2 = delay_get_delay s.
Proof. exact C11_growth_out_of_phase_refuted_thm. Qed.
Print Assumptions C11_growth_out_of_phase_refuted.

Example C11_growth_out_of_phase_refuted_hyps (a b c : f64) :
  let ops := (ex_ops a b c) ++ [DSetMaxDelay 5; DSetDelay 3] in
  exists s, dl_history O64 Debug 2 3 ops s
    /\ timing_trusted ops /\ fits O64 10 /\ max_after 3 ops < 10 /\ write_after 3 ops < delay_get_delay s.
Proof. eexists. split; [history|]. split; [reflexivity|]. repeat split; easy. Qed.

(** C11: [set_delay] makes the latency equal to [get_delay()] again, after any
    history. *)
Theorem C11_set_delay_restores :
  forall (T : Type) (O : num_ops T) (p : profile) (d m : Z) (ops : list (dl_op Z T))
         (s : delay T) (d' : Z) (xs : list T),
    1 <= n_size_of O -> dl_history O p d m ops s -> is_usize d' ->
    exists s1 s2 before,
      delay_set_delay p s d' = Ok s1
      /\ dl_run O p s1 (map DProcess xs)
         = Ok (s2, map OSample (firstn (length xs) (before ++ xs)))
      /\ Z.of_nat (length before) = delay_get_delay s1.
Proof. exact C11_set_delay_restores_thm. Qed.
Print Assumptions C11_set_delay_restores.

Example C11_set_delay_restores_hyps (a b c : f64) :
  exists s, dl_history O64 Debug 2 3 (ex_ops a b c) s.
Proof. eexists. history. Qed.

(** C12: with [get_delay() >= 1], [next_out()] is what the next [process]
    returns, for every sample and after any history (growth included). *)
Theorem C12_next_out_predicts :
  forall (T : Type) (O : num_ops T) (p : profile) (d m : Z) (ops : list (dl_op Z T)) (s : delay T),
    1 <= n_size_of O -> dl_history O p d m ops s -> 1 <= delay_get_delay s ->
    exists y, delay_next_out s = Ok y
      /\ forall x, exists s', delay_process p s x = Ok (s', y).
Proof. exact C12_next_out_predicts_thm. Qed.
Print Assumptions C12_next_out_predicts.

Example C12_next_out_predicts_hyps (a b c : f64) :
  exists s, dl_history O64 Debug 2 3 (ex_ops a b c) s /\ 1 <= delay_get_delay s.
Proof. eexists. split; [history|]. easy. Qed.

(** C12: with [get_delay() = 0], [process(x)] returns [x], while [next_out()] is
    the oldest value on the line: the prediction is wrong for every other [x]. *)
Theorem C12_next_out_zero_delay_refuted :
  forall (T : Type) (O : num_ops T) (p : profile) (d m : Z) (ops : list (dl_op Z T)) (s : delay T),
    1 <= n_size_of O -> dl_history O p d m ops s -> delay_get_delay s = 0 ->
    exists y mx, delay_get_max_delay p s = Ok mx
      /\ delay_next_out s = Ok y /\ delay_tap_out p s mx = Ok y
      /\ forall x, exists s', delay_process p s x = Ok (s', x).
Proof. exact C12_next_out_zero_delay_refuted_thm. Qed.
Print Assumptions C12_next_out_zero_delay_refuted.

Example C12_next_out_zero_delay_refuted_hyps (a b c : f64) :
  exists s, dl_history O64 Debug 2 3 ((ex_ops a b c) ++ [DSetDelay 0]) s /\ delay_get_delay s = 0.
Proof. eexists. split; [history|]. reflexivity. Qed.

(** C13: [process(x)] makes [x] the newest tap and shifts the others by one. *)
Theorem C13_process_shifts_taps :
  forall (T : Type) (O : num_ops T) (p : profile) (d m : Z) (ops : list (dl_op Z T))
         (s s' : delay T) (x y : T),
    1 <= n_size_of O -> dl_history O p d m ops s -> delay_process p s x = Ok (s', y) ->
    delay_tap_out p s' 0 = Ok x
    /\ exists mx, delay_get_max_delay p s = Ok mx
       /\ forall t, 0 <= t < mx -> delay_tap_out p s' (t + 1) = delay_tap_out p s t.
Proof. exact C13_process_shifts_taps_thm. Qed.
Print Assumptions C13_process_shifts_taps.

Example C13_process_shifts_taps_hyps (a b c : f64) :
  exists s s' y, dl_history O64 Debug 2 3 (ex_ops a b c) s /\ delay_process Debug s a = Ok (s', y).
Proof. do 3 eexists. split; [history|]. vm_compute; reflexivity. Qed.

(** C13: after processing [xs], [tap_out(t)] is the sample [t + 1] calls ago, or
    zero. *)
Theorem C13_tap_out_reads_back :
  forall (T : Type) (O : num_ops T) (p : profile) (d m : Z) (xs : list T) (s : delay T) (t : Z),
    1 <= n_size_of O -> dl_history O p d m (map DProcess xs) s -> 0 <= t <= m ->
    delay_tap_out p s t = Ok (nth (Z.to_nat t) (rev xs) (n_zero O)).
Proof. exact C13_tap_out_reads_back_thm. Qed.
Print Assumptions C13_tap_out_reads_back.

Example C13_tap_out_reads_back_hyps (a b c : f64) :
  exists s, dl_history O64 Debug 2 3 (map DProcess [a; b; c; b; a]) s.
Proof. eexists. history. Qed.

(** C14: [tap_in] edits exactly one position. *)
Theorem C14_tap_in_edits_one :
  forall (T : Type) (O : num_ops T) (p : profile) (d m : Z) (ops : list (dl_op Z T))
         (s : delay T) (mx t : Z) (v : T),
    1 <= n_size_of O -> dl_history O p d m ops s ->
    delay_get_max_delay p s = Ok mx -> 0 <= t <= mx ->
    exists s', delay_tap_in p s v t = Ok s'
      /\ delay_tap_out p s' t = Ok v
      /\ (forall u, 0 <= u <= mx -> u <> t -> delay_tap_out p s' u = delay_tap_out p s u)
      /\ delay_get_max_delay p s' = Ok mx
      /\ delay_get_delay s' = delay_get_delay s
      /\ delay_last_out s' = delay_last_out s.
Proof. exact C14_tap_in_edits_one_thm. Qed.
Print Assumptions C14_tap_in_edits_one.

Example C14_tap_in_edits_one_hyps (a b c : f64) :
  exists s, dl_history O64 Debug 2 3 (ex_ops a b c) s /\ delay_get_max_delay Debug s = Ok 3.
Proof. eexists. split; [history|]. reflexivity. Qed.

(** C14: [add_to] adds to exactly one position and returns the sum. *)
Theorem C14_add_to_edits_one :
  forall (T : Type) (O : num_ops T) (p : profile) (d m : Z) (ops : list (dl_op Z T))
         (s : delay T) (mx t : Z) (v : T),
    1 <= n_size_of O -> dl_history O p d m ops s ->
    delay_get_max_delay p s = Ok mx -> 0 <= t <= mx ->
    exists s' old, delay_tap_out p s t = Ok old
      /\ delay_add_to O p s v t = Ok (s', n_add O old v)
      /\ delay_tap_out p s' t = Ok (n_add O old v)
      /\ (forall u, 0 <= u <= mx -> u <> t -> delay_tap_out p s' u = delay_tap_out p s u)
      /\ delay_get_max_delay p s' = Ok mx
      /\ delay_get_delay s' = delay_get_delay s
      /\ delay_last_out s' = delay_last_out s.
Proof. exact C14_add_to_edits_one_thm. Qed.
Print Assumptions C14_add_to_edits_one.

Example C14_add_to_edits_one_hyps (a b c : f64) :
  exists s, dl_history O64 Debug 2 3 (ex_ops a b c) s /\ delay_get_max_delay Debug s = Ok 3.
Proof. eexists. split; [history|]. reflexivity. Qed.

(** C15: a value tapped in [t] positions back comes out after [get_delay() - t]
    further samples, whatever they are. *)
Theorem C15_tapped_value_emerges :
  forall (T : Type) (O : num_ops T) (p : profile) (d m : Z) (ops : list (dl_op Z T))
         (s s1 : delay T) (t : Z) (v x : T) (xs : list T),
    1 <= n_size_of O -> dl_history O p d m ops s -> timing_trusted ops ->
    0 <= t < delay_get_delay s -> delay_tap_in p s v t = Ok s1 ->
    Z.of_nat (length xs) = delay_get_delay s - t - 1 ->
    exists s2 os s3, dl_run O p s1 (map DProcess xs) = Ok (s2, os)
      /\ delay_process p s2 x = Ok (s3, v).
Proof. exact C15_tapped_value_emerges_thm. Qed.
Print Assumptions C15_tapped_value_emerges.

Example C15_tapped_value_emerges_hyps (a b c : f64) :
  let ops := (ex_ops a b c) ++ [DSetDelay 3] in
  exists s s1, dl_history O64 Debug 2 3 ops s /\ timing_trusted ops
    /\ 1 < delay_get_delay s /\ delay_tap_in Debug s a 1 = Ok s1
    /\ Z.of_nat (length [a]) = delay_get_delay s - 1 - 1.
Proof.
  do 2 eexists. split; [history|]. split; [reflexivity|]. split; [easy|].
  split; vm_compute; reflexivity.
Qed.

(** C16: taps beyond the line.  After any history, with [mx] the maximum delay
    and [w] the write position, a tap beyond the maximum either acts exactly as an
    in-range tap or panics; all [usize] values are covered. *)
Theorem C16_taps_beyond_line :
  forall (T : Type) (O : num_ops T) (p : profile) (d m : Z) (ops : list (dl_op Z T))
         (s : delay T) (t : Z),
    2 <= n_size_of O -> dl_history O p d m ops s -> is_usize t ->
    let mx := max_after m ops in
    let w := write_after m ops in
    mx < t ->
    (t <= mx + w ->
       delay_tap_out p s t = delay_tap_out p s (t - mx - 1)
       /\ (forall v, delay_tap_in p s v t = delay_tap_in p s v (t - mx - 1))
       /\ (forall v, delay_add_to O p s v t = delay_add_to O p s v (t - mx - 1)))
    /\ (mx + w < t < two63 ->
       delay_tap_out p s t = Panic
       /\ (forall v, delay_tap_in p s v t = Panic)
       /\ (forall v, delay_add_to O p s v t = Panic))
    /\ (two63 <= t -> w + (two64 - t) <= mx + 1 ->
       delay_tap_out p s t = delay_tap_out p s (mx + 1 - (two64 - t))
       /\ (forall v, delay_tap_in p s v t = delay_tap_in p s v (mx + 1 - (two64 - t)))
       /\ (forall v, delay_add_to O p s v t = delay_add_to O p s v (mx + 1 - (two64 - t))))
    /\ (two63 <= t -> mx + 1 < w + (two64 - t) ->
       delay_tap_out p s t = Panic
       /\ (forall v, delay_tap_in p s v t = Panic)
       /\ (forall v, delay_add_to O p s v t = Panic)).
Proof. exact C16_taps_beyond_line_thm. Qed.
Print Assumptions C16_taps_beyond_line.

Example C16_taps_beyond_line_hyps (a b c : f64) :
  let ops := (ex_ops a b c) ++ [DSetMaxDelay 5; DProcess b] in
  exists s, dl_history O64 Debug 2 3 ops s /\ 2 <= n_size_of O64
    /\ max_after 3 ops = 5 /\ write_after 3 ops = 2.
Proof. eexists. split; [history|]. repeat split; easy. Qed.

(** C17: [clear] empties the line and keeps the settings. *)
Theorem C17_clear_empties_line :
  forall (T : Type) (O : num_ops T) (p : profile) (d m : Z) (ops : list (dl_op Z T)) (s : delay T),
    1 <= n_size_of O -> dl_history O p d m ops s ->
    exists mx, delay_get_max_delay p s = Ok mx
      /\ delay_get_max_delay p (delay_clear O s) = Ok mx
      /\ delay_get_delay (delay_clear O s) = delay_get_delay s
      /\ delay_last_out (delay_clear O s) = n_zero O
      /\ (forall t, 0 <= t <= mx -> delay_tap_out p (delay_clear O s) t = Ok (n_zero O)).
Proof. exact C17_clear_empties_line_thm. Qed.
Print Assumptions C17_clear_empties_line.

Example C17_clear_empties_line_hyps (a b c : f64) :
  exists s, dl_history O64 Debug 2 3 (ex_ops a b c) s.
Proof. eexists. history. Qed.

(** C17: a cleared delay then behaves as a new one with the same settings, for
    every further call sequence that does not change the maximum length. *)
Theorem C17_clear_is_new :
  forall (T : Type) (O : num_ops T) (p : profile) (d m : Z) (ops ops' : list (dl_op Z T))
         (s : delay T) (mx : Z),
    1 <= n_size_of O -> dl_history O p d m ops s -> timing_trusted ops ->
    delay_get_max_delay p s = Ok mx ->
    Forall op_usize ops' -> fixed_length ops' -> normal_use O mx ops' ->
    exists s1 s2 os,
      dl_run O p (delay_clear O s) ops' = Ok (s1, os)
      /\ dl_session O p (delay_get_delay s) mx ops' = Ok (s2, os).
Proof. exact C17_clear_is_new_thm. Qed.
Print Assumptions C17_clear_is_new.

Example C17_clear_is_new_hyps (a b c : f64) :
  let ops' := [DProcess a; DTapOut 3; DSetDelay 3; DAddTo a 0] in
  exists s, dl_history O64 Debug 2 3 (ex_ops a b c) s /\ timing_trusted (ex_ops a b c)
    /\ delay_get_max_delay Debug s = Ok 3
    /\ Forall op_usize ops' /\ fixed_length ops' /\ normal_use O64 3 ops'.
Proof.
  eexists. split; [history|]. split; [reflexivity|]. split; [reflexivity|].
  split; [repeat constructor; easy|].
  split; [repeat constructor; intros; discriminate|].
  repeat split; easy.
Qed.

(** C18: [new] with [usize::MAX] panics in debug builds; in release builds it
    succeeds and returns a line on which every access panics. *)
Theorem C18_new_usize_max :
  forall (T : Type) (O : num_ops T) (d : Z),
    is_usize d ->
    delay_new O Debug d usize_max = Panic
    /\ exists s, delay_new O Release d usize_max = Ok s
       /\ (forall x, delay_process Release s x = Panic)
       /\ delay_next_out s = Panic
       /\ (forall t, delay_tap_out Release s t = Panic)
       /\ (forall t v, delay_tap_in Release s v t = Panic)
       /\ (forall t v, delay_add_to O Release s v t = Panic).
Proof. exact C18_new_usize_max_thm. Qed.
Print Assumptions C18_new_usize_max.

(** C18: any other unallocatable length panics in [new], in every profile. *)
Theorem C18_new_too_large :
  forall (T : Type) (O : num_ops T) (p : profile) (d m : Z),
    is_usize m -> m <> usize_max -> ~ fits O m -> delay_new O p d m = Panic.
Proof. exact C18_new_too_large_thm. Qed.
Print Assumptions C18_new_too_large.

Example C18_new_too_large_hyps :
  is_usize (usize_max - 1) /\ usize_max - 1 <> usize_max /\ ~ fits O64 (usize_max - 1).
Proof. repeat split; easy. Qed.

(** C18: [set_max_delay(usize::MAX)] panics in debug builds; in release builds
    it discards the whole line and leaves it unusable, after any history. *)
Theorem C18_set_max_delay_usize_max :
  forall (T : Type) (O : num_ops T) (d m : Z) (ops : list (dl_op Z T)) (s : delay T),
    1 <= n_size_of O ->
    (dl_history O Debug d m ops s -> delay_set_max_delay O Debug s usize_max = Panic)
    /\ (dl_history O Release d m ops s ->
        exists s', delay_set_max_delay O Release s usize_max = Ok s'
          /\ (forall x, delay_process Release s' x = Panic)
          /\ delay_next_out s' = Panic
          /\ (forall t, delay_tap_out Release s' t = Panic)).
Proof. exact C18_set_max_delay_usize_max_thm. Qed.
Print Assumptions C18_set_max_delay_usize_max.

Example C18_set_max_delay_usize_max_hyps (a b c : f64) :
  (exists s, dl_history O64 Debug 2 3 (ex_ops a b c) s) /\ (exists s, dl_history O64 Release 2 3 (ex_ops a b c) s).
Proof. split; eexists; history. Qed.
