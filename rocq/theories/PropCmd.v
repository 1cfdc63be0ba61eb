(** Property C102: what a panicking call leaves behind.

    Vocabulary: [c_call]/[cl_call] are the calls of [Delay]/[LinearDelay] statement
    by statement ([CmdM]): they return the state left behind and how the call ended.
    [caught] runs calls on one object, catching every panic; [returned] keeps the
    calls that returned, with their results ([CmdSpec]). *)
From Coq Require Import ZArith List Bool.
From Verif Require Import Base Num NumF Witness Traits DelayM LinDelayM DelaySpec DelayRun LinSpec LinRun
  LinFloatSpec CmdM CmdSpec CmdLemmas.
Import ListNotations.
Open Scope Z_scope.

(** C102: the statement-by-statement model and the model of the other theorems are
    the same program: a call that returns leaves the same state and value, and a
    call fails in one exactly when it fails in the other. *)
Theorem C102_same_program :
  forall (C T : Type) (K : ctl_ops C T) (O : num_ops T) (p : profile),
    (forall op s, ends_as (dl_step O p s op) (c_call O p op s))
    /\ (forall op s, ends_as (lin_step K O p s op) (cl_call K O p op s))
    /\ (forall (S : Type) (P : S -> T -> outcome (S * T)) (process : T -> cmd S T),
          (forall x s, ends_as (P s x) (process x s)) ->
          forall s xs, ends_as (process_block P s xs) (c_block process s xs)).
Proof. exact C102_same_program_thm. Qed.
Print Assumptions C102_same_program.

(** C102: on a [Delay], panics are harmless.  Whatever calls are made and whichever
    of them panic, the line is in the state, and the other calls returned the values,
    of the session without the panicking calls.  Only taps and length requests that
    cannot be allocated ever panic. *)
Theorem C102_delay_panics_are_harmless :
  forall (T : Type) (O : num_ops T) (p : profile) (d m : Z) (ops : list (dl_op Z T))
         (s0 s : delay T) (rs : list (outcome (obs Z T))) (ks : list (dl_op Z T)) (vs : list (obs Z T)),
    1 <= n_size_of O -> is_usize d -> is_usize m -> m <> usize_max -> Forall op_sane ops ->
    delay_new O p d m = Ok s0 ->
    caught (c_call O p) s0 ops = (s, rs) -> returned ops rs = (ks, vs) ->
    dl_session O p d m ks = Ok (s, vs)
    /\ Forall2 (fun op r => r <> Hang /\ (r = Panic -> may_panic O op)) ops rs.
Proof. exact C102_delay_panics_are_harmless_thm. Qed.
Print Assumptions C102_delay_panics_are_harmless.

(** Two of the six calls panic (a tap and a length of 2^63 samples); the others go on. *)
Example C102_delay_panics_are_harmless_hyps (a b : f64) :
  exists s0 s,
    Forall op_sane [DProcess a; DTapIn b 9; DProcess b; DSetMaxDelay two63; DTapOut 1; DProcess a]
    /\ delay_new O64 Debug 1 3 = Ok s0
    /\ caught (c_call O64 Debug) s0
         [DProcess a; DTapIn b 9; DProcess b; DSetMaxDelay two63; DTapOut 1; DProcess a]
       = (s, [Ok (OSample (n_zero O64)); Panic; Ok (OSample a); Panic; Ok (OSample a); Ok (OSample b)]).
Proof.
  do 2 eexists. split; [repeat constructor; try easy; try discriminate|].
  split; [vm_compute; reflexivity|]. vm_compute. reflexivity.
Qed.

(** C102: the same for a [LinearDelay] that never has more than 2^24 slots. *)
Theorem C102_linear_delay_panics_are_harmless :
  forall (T : Type) (cast : f32 -> T) (O : num_ops T) (p : profile) (d : f32) (m : Z)
         (ops : list (dl_op f32 T)) (s0 s : lin_delay f32 T) (rs : list (outcome (obs f32 T)))
         (ks : list (dl_op f32 T)) (vs : list (obs f32 T)),
    1 <= n_size_of O -> n_size_of O * 2 ^ 24 <= isize_max ->
    is_usize m -> short (2 ^ 24) m -> Forall (modest O (2 ^ 24)) ops ->
    lin_new (f32_ctl_gen cast) O p d m = Ok s0 ->
    caught (cl_call (f32_ctl_gen cast) O p) s0 ops = (s, rs) -> returned ops rs = (ks, vs) ->
    lin_session (f32_ctl_gen cast) O p d m ks = Ok (s, vs)
    /\ Forall2 (fun op r => r <> Hang /\ (r = Panic -> may_panic O op)) ops rs.
Proof. exact C102_linear_delay_panics_are_harmless_thm. Qed.
Print Assumptions C102_linear_delay_panics_are_harmless.

Example C102_linear_delay_panics_are_harmless_hyps (b : f64) :
  exists s0 s,
    Forall (modest (C:=f32) O64 (2 ^ 24)) [DTapIn b 9; DTapIn b 1; DSetMaxDelay two63; DTapOut 1]
    /\ short (2 ^ 24) 3
    /\ lin_new f32_ctl_f64 O64 Debug (fl32 1 0) 3 = Ok s0
    /\ caught (cl_call f32_ctl_f64 O64 Debug) s0
         [DTapIn b 9; DTapIn b 1; DSetMaxDelay two63; DTapOut 1]
       = (s, [Panic; Ok ONone; Panic; Ok (OSample b)]).
Proof.
  destruct (lin_witness (f_conv 24 128 53 1024) O64 (fl32 1 0) b) as (s0 & s & E0 & E);
    [discriminate|discriminate|].
  exists s0, s. split.
  { constructor; [|constructor; [|constructor; [|constructor; [|constructor]]]];
      (split; [split; [easy|discriminate]|]); try exact I. right. intros H; exact (H eq_refl). }
  split; [discriminate|]. split; [exact E0|exact E].
Qed.

(** C102: a panic inside [process_block], for any processor: either the slice was
    empty and nothing changed, or the samples before the panicking one were
    processed and replaced, the panicking sample and those behind it are as they
    were, and the processor is as the panicking call left it. *)
Theorem C102_block_panic :
  forall (S T : Type) (process : T -> cmd S T) (s s' : S) (samples ys : list T),
    c_block process s samples = (s', ys, Panic) ->
    (samples = [] /\ ys = [] /\ s' = s)
    \/ exists done x rest outs s1,
         samples = done ++ x :: rest /\ ys = outs ++ x :: rest
         /\ caught process s done = (s1, map Ok outs) /\ process x s1 = (s', Panic).
Proof. exact C102_block_panic_thm. Qed.
Print Assumptions C102_block_panic.

Example C102_block_panic_hyps (a b : f64) (s : delay f64) :
  snd (c_block (c_process Debug) s []) = Panic
  /\ fst (c_block (c_process Debug) (MkDelay [a] b 1 0 0) [b]) = (MkDelay [b] b 1 0 0, [b]).
Proof. split; vm_compute; reflexivity. Qed.

(** C102, the exception for [Delay]: in release builds [set_max_delay(usize::MAX)]
    empties the line and leaves its positions behind.  After [set_max_delay(1)] every
    [process] panics, and every panicking [process] has stored its sample and moved
    the write position. *)
Theorem C102_panics_are_harmless_refuted :
  forall (T : Type) (O : num_ops T) (x y : T),
    1 <= n_size_of O -> 4 * n_size_of O <= isize_max ->
    exists s0 s,
      delay_new O Release 1 3 = Ok s0
      /\ caught (c_call O Release) s0
           [DSetMaxDelay usize_max; DSetMaxDelay 1; DProcess x; DTapOut 0; DProcess y; DTapOut 0; DTapOut 1]
         = (s, [Ok ONone; Ok ONone; Panic; Ok (OSample x); Panic; Ok (OSample y); Ok (OSample x)]).
Proof. exact C102_panics_are_harmless_refuted_thm. Qed.
Print Assumptions C102_panics_are_harmless_refuted.

Example C102_panics_are_harmless_refuted_hyps : 1 <= n_size_of O64 /\ 4 * n_size_of O64 <= isize_max.
Proof. split; discriminate. Qed.

(** C102: in every [LinearDelay] history, a [process] that panics has stored its
    sample: [tap_out(0)] shows it. *)
Theorem C102_panicking_process_stores :
  forall (C T : Type) (K : ctl_ops C T) (O : num_ops T) (p : profile) (d : C) (m : Z)
         (ops : list (dl_op C T)) (s s' : lin_delay C T) (x : T),
    1 <= n_size_of O -> lin_history K O p d m ops s ->
    cl_call K O p (DProcess x) s = (s', Panic) ->
    lin_tap_out p s' 0 = Ok x /\ lin_get_max_delay p s' = lin_get_max_delay p s.
Proof. exact C102_panicking_process_stores_thm. Qed.
Print Assumptions C102_panicking_process_stores.

Example C102_panicking_process_stores_hyps (x : f32) :
  exists s s', lin_history f32_ctl_f32 O32 Debug (f_of_Z 24 128 1) (2 ^ 24 + 2) [] s
    /\ cl_call f32_ctl_f32 O32 Debug (DProcess x) s = (s', Panic).
Proof.
  destruct (long_line_witness f32 (fun x => x) O32 Debug (f_of_Z 24 128 1) (2 ^ 24 + 2) x)
    as (s & s' & _ & H1 & H2); [discriminate|discriminate|reflexivity|reflexivity|].
  exists s, s'. split; [exact H1|exact H2].
Qed.

(** C102, the exception for [LinearDelay]: such panics exist.  On a line of 2^24 + 3
    slots every first [process] panics (theorem C21) and leaves its sample in the
    line. *)
Theorem C102_long_line_refuted :
  forall (T : Type) (cast : f32 -> T) (O : num_ops T) (p : profile) (d : f32) (m : Z) (x : T),
    1 <= n_size_of O -> n_size_of O * 2 ^ 25 <= isize_max ->
    m = 2 ^ 24 + 2 -> d = f_of_Z 24 128 1 ->
    exists s0 s,
      lin_new (f32_ctl_gen cast) O p d m = Ok s0
      /\ caught (cl_call (f32_ctl_gen cast) O p) s0 [DProcess x; DTapOut 0]
         = (s, [Panic; Ok (OSample x)]).
Proof. exact C102_long_line_refuted_thm. Qed.
Print Assumptions C102_long_line_refuted.

Example C102_long_line_refuted_hyps : 1 <= n_size_of O32 /\ n_size_of O32 * 2 ^ 25 <= isize_max.
Proof. split; discriminate. Qed.
