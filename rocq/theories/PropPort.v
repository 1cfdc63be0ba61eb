(** Property C107: targets whose [usize] has fewer than 64 bits.

    Vocabulary: [PortM] (the delay lines and windows with [w]-bit machine integers),
    [PortSpec] ([fits_w], [port_op], [port_op_lin]); [dl_session], [lin_session]: the model of
    the other properties ([DelayRun], [LinRun]). *)
From Coq Require Import ZArith Reals List Bool Lia.
From Flocq Require Import IEEE754.BinarySingleNaN.
From Verif Require Import Base Num NumR NumF Witness DelayM LinDelayM WindowM DelaySpec DelayRun LinRun PortM PortSpec PortLemmas.
Import ListNotations.
Open Scope Z_scope.

(** C107: with w = 64 the parametrised model is the model of all other properties. *)

Theorem C107_word64 :
  (forall T (O : num_ops T) p d m ops, dl_session_w 64 O p d m ops = dl_session O p d m ops)
  /\ (forall p d m ops, lin_session_w 64 R_ctl R_ops p d m ops = lin_session R_ctl R_ops p d m ops)
  /\ (forall T (O : num_ops T) (cast : f32 -> T) p d m ops,
        lin_session_w 64 (f32_ctl_gen cast) O p d m ops = lin_session (f32_ctl_gen cast) O p d m ops)
  /\ (forall T (O : num_ops T) p samples win, apply_window_w 64 O p samples win = apply_window O p samples win).
Proof. exact C107_word64_thm. Qed.
Print Assumptions C107_word64.

(** C107: on a target with [w]-bit [usize] every session on a [Delay] whose arguments exist
    there, whose taps are at most [isize::MAX] and whose buffers can be allocated has the
    outcome it has on a 64-bit target: the same results, the same panics. *)

Theorem C107_delay :
  forall (w : Z) (T : Type) (O : num_ops T) (p : profile) (d m : Z) (ops : list (dl_op Z T)),
    2 <= w <= 64 -> 1 <= n_size_of O -> 0 <= d < 2 ^ w -> 0 <= m -> fits_w w O m -> Forall (port_op w O) ops ->
    dl_session_w w O p d m ops = dl_session O p d m ops.
Proof. exact C107_delay_thm. Qed.
Print Assumptions C107_delay.

Example C107_delay_hyps :
  2 <= 32 <= 64 /\ 1 <= n_size_of O32 /\ 0 <= 48000 < 2 ^ 32 /\ fits_w 32 O32 96000
  /\ Forall (port_op 32 O32) [DProcess (fl32 1 0); DSetDelay 100; DTapOut 2000000000; DSetMaxDelay 1000000].
Proof. repeat split; try easy. repeat constructor; easy. Qed.

(** C107, [LinearDelay], in exact arithmetic and with the [f32] delay of the code (sample type
    [T], [as T] of an [f32] being [cast]). *)

Theorem C107_linear :
  forall (w : Z) (p : profile) (m : Z),
    2 <= w <= 64 -> 0 <= m ->
    (forall d ops, fits_w w R_ops m -> Forall (port_op_lin w R_ops) ops ->
       lin_session_w w R_ctl R_ops p d m ops = lin_session R_ctl R_ops p d m ops)
    /\ (forall T (O : num_ops T) (cast : f32 -> T) d ops,
       1 <= n_size_of O -> fits_w w O m -> Forall (port_op_lin w O) ops ->
       lin_session_w w (f32_ctl_gen cast) O p d m ops = lin_session (f32_ctl_gen cast) O p d m ops).
Proof. exact C107_linear_thm. Qed.
Print Assumptions C107_linear.

Example C107_linear_hyps :
  2 <= 32 <= 64 /\ 1 <= n_size_of O64 /\ fits_w 32 O64 96000
  /\ Forall (port_op_lin 32 O64) [DProcess (fl64 1 0); DSetDelay (fl32 3 (-1)); DTapOut 5].
Proof. repeat split; try easy. repeat constructor; easy. Qed.

(** C107, windows: [apply_window] on a buffer that exists on the target. *)

Theorem C107_windows :
  forall (w : Z) (T : Type) (O : num_ops T) (p : profile) (samples : list T) (win : window),
    2 <= w <= 64 -> Z.of_nat (length samples) < 2 ^ w ->
    apply_window_w w O p samples win = apply_window O p samples win.
Proof. exact C107_windows_thm. Qed.
Print Assumptions C107_windows.

Example C107_windows_hyps : 2 <= 32 <= 64 /\ Z.of_nat (length [1%R; 2%R; 3%R]) < 2 ^ 32.
Proof. cbn [length]. lia. Qed.

(** C107, where the targets differ: [tap_out(u32::MAX)].  On a 64-bit target it lies outside
    the line and panics; a 32-bit target takes it for a tap of -1 and returns the oldest
    sample, in both build profiles. *)

Theorem C107_taps_refuted :
  exists (d m : Z) (ops : list (dl_op Z R)),
    0 <= d < 2 ^ 32 /\ fits_w 32 R_ops m
    /\ ops = [DProcess 1%R; DProcess 2%R; DProcess 3%R; DTapOut (2 ^ 32 - 1)]
    /\ forall p, (exists s os, dl_session_w 32 R_ops p d m ops = Ok (s, os) /\ last os ONone = OSample 1%R)
               /\ dl_session R_ops p d m ops = Panic.
Proof. exact C107_taps_refuted_thm. Qed.
Print Assumptions C107_taps_refuted.
