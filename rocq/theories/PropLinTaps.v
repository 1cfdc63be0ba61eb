(** Properties C01, C13, C14, C16, C17 and C18 for [LinearDelay].

    Vocabulary: [lin_history K O p d m ops s]: [LinearDelay::new(d, m)] followed by the
    calls [ops] completed and left [s] ([LinRun]); [write_after m ops] and
    [max_after m ops]: the write position and the maximum delay after them
    ([PlaceSpec]); [lin_trusted ops]: no growth since the delay was set, [unpeeked
    ops]: no [next_out] since the last [process] ([LinRun]); [R_ctl], [R_ops]: exact
    arithmetic, [f32_ctl_gen cast]: [f32] delays and any sample type. *)
From Coq Require Import ZArith Reals List Bool Lia Lra.
From Flocq Require Import Core.Core IEEE754.BinarySingleNaN.
From Verif Require Import Base Num NumR NumF Witness Traits DelayM LinDelayM DelaySpec DelayRun
  LinSpec LinRun PlaceSpec LinFloatSpec LinLemmas LinLemmas2 LinWit LinTapLemmas.
Import ListNotations.
Open Scope Z_scope.

(** A completed session on a [LinearDelay<f32>]: [new(1.5, 7)], three samples, a tap. *)
Definition tap_ops (a b : f32) : list (dl_op f32 f32) :=
  [DProcess a; DProcess b; DTapIn a 3; DProcess b; DGetDelay] ++ [DSetDelay (fl32 5 (-1))].
Lemma tap_ops_ok (a b : f32) :
  exists s, lin_history f32_ctl_f32 O32 Debug (fl32 3 (-1)) 7 (tap_ops a b) s
    /\ lin_get_max_delay Debug s = Ok 7.
Proof.
  destruct (wit_set (fl32 3 (-1)) (fl32 5 (-1)) 7 [DProcess a; DProcess b; DTapIn a 3; DProcess b; DGetDelay])
    as [s [H1 [H2 _]]]; [lia|repeat constructor; easy|cbn; repeat split; discriminate| |].
  - repeat constructor; discriminate.
  - exists s. split; assumption.
Qed.

(** C01 for [LinearDelay]: after any history on a line of at most 2^24 slots, a
    non-empty block never panics, whatever the [f32] delay. *)

Theorem C01_block_linear_delay :
  forall (T : Type) (cast : f32 -> T) (O : num_ops T) (p : profile) (d : f32) (m : Z)
         (ops : list (dl_op f32 T)) (s : lin_delay f32 T) (mx : Z) (xs : list T),
    1 <= n_size_of O -> lin_history (f32_ctl_gen cast) O p d m ops s ->
    lin_get_max_delay p s = Ok mx -> short (2 ^ 24) mx ->
    (process_block (lin_process O p) s xs = Panic <-> xs = []).
Proof. exact C01_block_linear_delay_thm. Qed.
Print Assumptions C01_block_linear_delay.

Example C01_block_linear_delay_hyps (a b : f32) :
  exists s, lin_history f32_ctl_f32 O32 Debug (fl32 3 (-1)) 7 (tap_ops a b) s
    /\ lin_get_max_delay Debug s = Ok 7 /\ short (2 ^ 24) 7.
Proof. destruct (tap_ops_ok a b) as [s [H1 H2]]. exists s. split; [exact H1|]. split; [exact H2|easy]. Qed.

(** C13: [process(x)] makes [x] the newest tap and shifts the others by one. *)

Theorem C13_linear_process_shifts_taps :
  forall (C T : Type) (K : ctl_ops C T) (O : num_ops T) (p : profile) (d : C) (m : Z)
         (ops : list (dl_op C T)) (s s' : lin_delay C T) (x y : T),
    1 <= n_size_of O -> lin_history K O p d m ops s -> lin_process O p s x = Ok (s', y) ->
    lin_tap_out p s' 0 = Ok x
    /\ exists mx, lin_get_max_delay p s = Ok mx
       /\ forall t, 0 <= t < mx -> lin_tap_out p s' (t + 1) = lin_tap_out p s t.
Proof. exact C13_linear_process_shifts_taps_thm. Qed.
Print Assumptions C13_linear_process_shifts_taps.

Example C13_linear_process_shifts_taps_hyps (a b : f32) :
  exists s s' y, lin_history f32_ctl_f32 O32 Debug (fl32 3 (-1)) 7 (tap_ops a b) s
    /\ lin_process O32 Debug s a = Ok (s', y).
Proof.
  destruct (tap_ops_ok a b) as [s [H1 H2]].
  destruct (short_process f32 (fun x => x) O32 Debug _ _ _ s 7 a ltac:(easy) H1 H2 ltac:(easy)) as [s' [y E]].
  exists s, s', y. split; [exact H1|exact E].
Qed.

(** C13: after processing [xs], [tap_out(t)] is the sample [t + 1] calls ago, or zero. *)

Theorem C13_linear_tap_out_reads_back :
  forall (C T : Type) (K : ctl_ops C T) (O : num_ops T) (p : profile) (d : C) (m : Z)
         (xs : list T) (s : lin_delay C T) (t : Z),
    1 <= n_size_of O -> lin_history K O p d m (map DProcess xs) s -> 0 <= t <= m ->
    lin_tap_out p s t = Ok (nth (Z.to_nat t) (rev xs) (n_zero O)).
Proof. exact C13_linear_tap_out_reads_back_thm. Qed.
Print Assumptions C13_linear_tap_out_reads_back.

Example C13_linear_tap_out_reads_back_hyps (a b : R) :
  exists s, lin_history R_ctl R_ops Debug (5 / 2)%R 4 (map DProcess [a; b; a; a; b; b]) s.
Proof.
  destruct (C22_refines_ideal_thm Debug (5 / 2)%R 4 (map DProcess [a; b; a; a; b; b])) as [s [os [_ [E _]]]].
  - easy.
  - discriminate.
  - repeat constructor; easy.
  - cbn. repeat split; discriminate.
  - exists s. split; [easy|]. split; [discriminate|]. split; [repeat constructor; easy|]. exists os. exact E.
Qed.

(** C14: [tap_in] edits exactly one position. *)

Theorem C14_linear_tap_in_edits_one :
  forall (C T : Type) (K : ctl_ops C T) (O : num_ops T) (p : profile) (d : C) (m : Z)
         (ops : list (dl_op C T)) (s : lin_delay C T) (mx t : Z) (v : T),
    1 <= n_size_of O -> lin_history K O p d m ops s ->
    lin_get_max_delay p s = Ok mx -> 0 <= t <= mx ->
    exists s', lin_tap_in p s v t = Ok s'
      /\ lin_tap_out p s' t = Ok v
      /\ (forall u, 0 <= u <= mx -> u <> t -> lin_tap_out p s' u = lin_tap_out p s u)
      /\ lin_get_max_delay p s' = Ok mx
      /\ lin_get_delay s' = lin_get_delay s
      /\ lin_last_out s' = lin_last_out s.
Proof. exact C14_linear_tap_in_edits_one_thm. Qed.
Print Assumptions C14_linear_tap_in_edits_one.

Example C14_linear_tap_in_edits_one_hyps (a b : f32) :
  exists s, lin_history f32_ctl_f32 O32 Debug (fl32 3 (-1)) 7 (tap_ops a b) s
    /\ lin_get_max_delay Debug s = Ok 7 /\ 0 <= 5 <= 7 /\ 1 <= n_size_of O32.
Proof. destruct (tap_ops_ok a b) as [s [H1 H2]]. exists s. split; [exact H1|]. repeat split; try assumption; easy. Qed.

(** C14: [add_to] adds to exactly one position and returns the sum. *)

Theorem C14_linear_add_to_edits_one :
  forall (C T : Type) (K : ctl_ops C T) (O : num_ops T) (p : profile) (d : C) (m : Z)
         (ops : list (dl_op C T)) (s : lin_delay C T) (mx t : Z) (v : T),
    1 <= n_size_of O -> lin_history K O p d m ops s ->
    lin_get_max_delay p s = Ok mx -> 0 <= t <= mx ->
    exists s' old, lin_tap_out p s t = Ok old
      /\ lin_add_to O p s v t = Ok (s', n_add O old v)
      /\ lin_tap_out p s' t = Ok (n_add O old v)
      /\ (forall u, 0 <= u <= mx -> u <> t -> lin_tap_out p s' u = lin_tap_out p s u)
      /\ lin_get_max_delay p s' = Ok mx
      /\ lin_get_delay s' = lin_get_delay s
      /\ lin_last_out s' = lin_last_out s.
Proof. exact C14_linear_add_to_edits_one_thm. Qed.
Print Assumptions C14_linear_add_to_edits_one.

Example C14_linear_add_to_edits_one_hyps (a b : f32) :
  exists s, lin_history f32_ctl_f32 O32 Debug (fl32 3 (-1)) 7 (tap_ops a b) s
    /\ lin_get_max_delay Debug s = Ok 7 /\ 0 <= 5 <= 7 /\ 1 <= n_size_of O32.
Proof. destruct (tap_ops_ok a b) as [s [H1 H2]]. exists s. split; [exact H1|]. repeat split; try assumption; easy. Qed.

(** C16: taps beyond the line act as an in-range tap or panic, as those of a [Delay]. *)

Theorem C16_linear_taps_beyond_line :
  forall (C T : Type) (K : ctl_ops C T) (O : num_ops T) (p : profile) (d : C) (m : Z)
         (ops : list (dl_op C T)) (s : lin_delay C T) (t : Z),
    2 <= n_size_of O -> lin_history K O p d m ops s -> is_usize t ->
    let mx := max_after m ops in
    let w := write_after m ops in
    mx < t ->
    (t <= mx + w ->
       lin_tap_out p s t = lin_tap_out p s (t - mx - 1)
       /\ (forall v, lin_tap_in p s v t = lin_tap_in p s v (t - mx - 1))
       /\ (forall v, lin_add_to O p s v t = lin_add_to O p s v (t - mx - 1)))
    /\ (mx + w < t < two63 ->
       lin_tap_out p s t = Panic
       /\ (forall v, lin_tap_in p s v t = Panic)
       /\ (forall v, lin_add_to O p s v t = Panic))
    /\ (two63 <= t -> w + (two64 - t) <= mx + 1 ->
       lin_tap_out p s t = lin_tap_out p s (mx + 1 - (two64 - t))
       /\ (forall v, lin_tap_in p s v t = lin_tap_in p s v (mx + 1 - (two64 - t)))
       /\ (forall v, lin_add_to O p s v t = lin_add_to O p s v (mx + 1 - (two64 - t))))
    /\ (two63 <= t -> mx + 1 < w + (two64 - t) ->
       lin_tap_out p s t = Panic
       /\ (forall v, lin_tap_in p s v t = Panic)
       /\ (forall v, lin_add_to O p s v t = Panic)).
Proof. exact C16_linear_taps_beyond_line_thm. Qed.
Print Assumptions C16_linear_taps_beyond_line.

Example C16_linear_taps_beyond_line_hyps (a b : f32) :
  exists s, lin_history f32_ctl_f32 O32 Debug (fl32 3 (-1)) 7 (tap_ops a b) s /\ 2 <= n_size_of O32
    /\ max_after 7 (tap_ops a b) = 7 /\ write_after 7 (tap_ops a b) = 3.
Proof. destruct (tap_ops_ok a b) as [s [H1 H2]]. exists s. split; [exact H1|]. repeat split; try assumption; easy. Qed.

(** C17: [clear] empties the line and keeps the settings (but not a peeked value
    handed out earlier, which survives: C26). *)

Theorem C17_linear_clear_empties_line :
  forall (C T : Type) (K : ctl_ops C T) (O : num_ops T) (p : profile) (d : C) (m : Z)
         (ops : list (dl_op C T)) (s : lin_delay C T),
    1 <= n_size_of O -> lin_history K O p d m ops s ->
    exists mx, lin_get_max_delay p s = Ok mx
      /\ lin_get_max_delay p (lin_clear O s) = Ok mx
      /\ lin_get_delay (lin_clear O s) = lin_get_delay s
      /\ lin_last_out (lin_clear O s) = n_zero O
      /\ (forall t, 0 <= t <= mx -> lin_tap_out p (lin_clear O s) t = Ok (n_zero O)).
Proof. exact C17_linear_clear_empties_line_thm. Qed.
Print Assumptions C17_linear_clear_empties_line.

Example C17_linear_clear_empties_line_hyps (a b : f32) :
  exists s, lin_history f32_ctl_f32 O32 Debug (fl32 3 (-1)) 7 (tap_ops a b) s /\ 1 <= n_size_of O32.
Proof. destruct (tap_ops_ok a b) as [s [H1 H2]]. exists s. split; [exact H1|]. repeat split; try assumption; easy. Qed.

(** C17: in exact arithmetic a cleared line without a pending peek, not grown since
    its delay was set, behaves as a new one with the same settings, for every further
    sequence of calls that does not change the maximum. *)

Theorem C17_linear_clear_is_new :
  forall (p : profile) (d : R) (m : Z) (ops ops' : list (dl_op R R)) (s : lin_delay R R) (mx : Z),
    lin_history R_ctl R_ops p d m ops s -> lin_trusted ops -> unpeeked ops ->
    lin_get_max_delay p s = Ok mx ->
    Forall op_usize_lin ops' -> Forall (fun op => forall m, op <> DSetMaxDelay m) ops' ->
    lin_use (max_slots R_ops) mx ops' ->
    exists s1 s2 os,
      lin_run R_ctl R_ops p (lin_clear R_ops s) ops' = Ok (s1, os)
      /\ lin_session R_ctl R_ops p (lin_get_delay s) mx ops' = Ok (s2, os).
Proof. exact C17_linear_clear_is_new_thm. Qed.
Print Assumptions C17_linear_clear_is_new.

Example C17_linear_clear_is_new_hyps (a b : R) :
  let ops := [DProcess a; DNextOut; DProcess b; DSetMaxDelay 6; DSetDelay (7 / 2)%R; DTapIn a 2] in
  let ops' := [DProcess a; DNextOut; DSetDelay b; DTapOut 6; DProcess b] in
  exists s, lin_history R_ctl R_ops Debug (5 / 2)%R 4 ops s /\ lin_trusted ops /\ unpeeked ops
    /\ lin_get_max_delay Debug s = Ok 6
    /\ Forall op_usize_lin ops' /\ Forall (fun op => forall m, op <> DSetMaxDelay m) ops'
    /\ lin_use (max_slots R_ops) 6 ops'.
Proof.
  intros ops ops'.
  destruct (C22_refines_ideal_thm Debug (5 / 2)%R 4 ops) as [s [os [_ [E _]]]].
  - easy.
  - discriminate.
  - repeat constructor; easy.
  - cbn. repeat split; discriminate.
  - assert (H : lin_history R_ctl R_ops Debug (5 / 2)%R 4 ops s).
    { split; [easy|]. split; [discriminate|]. split; [repeat constructor; easy|]. exists os. exact E. }
    exists s. split; [exact H|]. split; [reflexivity|]. split; [reflexivity|].
    split; [apply (history_max R_ctl R_ops Debug (5 / 2)%R 4 ops s ltac:(easy) H)|].
    split; [repeat constructor; easy|]. split; [repeat constructor; intros; discriminate|].
    cbn. repeat split; discriminate.
Qed.

(** C18: a length whose buffer cannot be allocated panics in [new], in every profile. *)

Theorem C18_linear_new_too_large :
  forall (C T : Type) (K : ctl_ops C T) (O : num_ops T) (p : profile) (d : C) (m : Z),
    is_usize m -> m <> usize_max -> ~ fits O m -> lin_new K O p d m = Panic.
Proof. exact C18_linear_new_too_large_thm. Qed.
Print Assumptions C18_linear_new_too_large.

Example C18_linear_new_too_large_hyps :
  is_usize (usize_max - 1) /\ usize_max - 1 <> usize_max /\ ~ fits O64 (usize_max - 1).
Proof. repeat split; easy. Qed.
