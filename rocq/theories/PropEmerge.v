(** Property C15 for [LinearDelay], in exact arithmetic.

    Vocabulary: [lin_history K O p d m ops s]: [LinearDelay::new(d, m)] followed by the calls
    [ops] completed and left [s]; [lin_run]: further calls; [lin_trusted ops]: no growth since the
    delay was set; [unpeeked ops]: no [next_out] since the last [process] ([LinRun]);
    [hat z] = max 0 (1 - |z|) ([HatSpec]). *)
From Coq Require Import ZArith Reals List Bool Lia Lra.
From Flocq Require Import Core.Core.
From Verif Require Import Base Num NumR DelayM LinDelayM DelaySpec DelayRun LinSpec LinRun HatSpec LinLemmas2 LinTapLemmas EmergeLemmas.
Import ListNotations.
Open Scope Z_scope.

(** C15: a value [v] tapped in [t] positions back, in place of [u], changes the following outputs
    by [v - u] times a triangle around the moment [get_delay() - t - 1] samples from now.  With a
    whole delay that is one sample, as for [Delay]; otherwise two, with the weights 1 - f and f;
    nothing when the delay has passed it already. *)
Theorem C15_linear_tapped_value_emerges :
  forall (p : profile) (d : R) (m : Z) (ops : list (dl_op R R)) (s s1 : lin_delay R R)
         (mx t : Z) (u v : R) (xs : list R),
    lin_history R_ctl R_ops p d m ops s -> lin_trusted ops -> unpeeked ops ->
    lin_get_max_delay p s = Ok mx -> 0 <= t <= mx ->
    lin_tap_out p s t = Ok u -> lin_tap_in p s v t = Ok s1 ->
    exists s' ys s1' ys1,
      lin_run R_ctl R_ops p s (map DProcess xs) = Ok (s', map OSample ys)
      /\ lin_run R_ctl R_ops p s1 (map DProcess xs) = Ok (s1', map OSample ys1)
      /\ forall n, (n < length xs)%nat ->
         (nth n ys1 0 - nth n ys 0 = (v - u) * hat (lin_get_delay s - IZR t - 1 - INR n))%R.
Proof. exact C15_linear_tapped_value_emerges_thm. Qed.
Print Assumptions C15_linear_tapped_value_emerges.

Example C15_linear_tapped_value_emerges_hyps (a b : R) :
  exists s s1, lin_history R_ctl R_ops Debug (5 / 2)%R 7 [DProcess a; DProcess b] s
    /\ lin_get_max_delay Debug s = Ok 7 /\ lin_tap_out Debug s 1 = Ok a /\ lin_tap_in Debug s b 1 = Ok s1
    /\ (hat (5 / 2 - 1 - 1 - 0) = / 2 /\ hat (5 / 2 - 1 - 1 - 1) = / 2)%R.
Proof.
  destruct (C22_refines_ideal_thm Debug (5 / 2) 7 [DProcess a; DProcess b]) as [s [os [_ [E _]]]].
  - easy.
  - discriminate.
  - repeat constructor; easy.
  - cbn. repeat split; discriminate.
  - assert (H : lin_history R_ctl R_ops Debug (5 / 2)%R 7 (map DProcess [a; b]) s).
    { split; [easy|]. split; [discriminate|]. split; [repeat constructor; easy|]. exists os. exact E. }
    assert (M := history_max Debug _ _ _ _ H). cbn in M.
    assert (T := C13_linear_tap_out_reads_back_thm R R R_ctl R_ops Debug _ _ _ s 1 ltac:(discriminate) H ltac:(lia)).
    destruct (C14_linear_tap_in_edits_one_thm R R R_ctl R_ops Debug _ _ _ s 7 1 b ltac:(discriminate) H M ltac:(lia)) as [s1 [E1 _]].
    exists s, s1. split; [exact H|]. split; [exact M|]. split; [exact T|]. split; [exact E1|].
    unfold hat. split.
    + rewrite Rabs_pos_eq, Rmax_right; lra.
    + rewrite Rabs_left1, Rmax_right; lra.
Qed.
