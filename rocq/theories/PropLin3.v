(** Properties C25-C27 and C69: [LinearDelay], peeking, and agreement with [Delay].

    Vocabulary as in [PropLin2]; [same_call], [same_obs], [same_line_call] and
    [same_tap_obs] are in [LinSame]. *)
From Coq Require Import ZArith Reals List Bool Lia Lra.
From Flocq Require Import Core.Core IEEE754.BinarySingleNaN.
From Verif Require Import Base Num NumR NumF Witness DelayM LinDelayM DelaySpec DelayRun
  LinSpec LinRun LinFloatSpec BaseLemmas LinSame LinLemmas2 LinLemmas3 LinWit.
Import ListNotations.
Open Scope R_scope.

(** C25: in exact arithmetic, with a delay of at least one sample, a peek with
    [next_out] before [process(x)] changes nothing: it announces the sample that
    [process(x)] returns with or without the peek, and the line ends up the same. *)
Theorem C25_peek_harmless :
  forall (p : profile) (d : R) (m : Z) (ops : list (dl_op R R)) (s : lin_delay R R) (x : R),
    lin_history R_ctl R_ops p d m ops s -> lin_trusted ops -> unpeeked ops ->
    1 <= lin_get_delay s ->
    exists s1 s2 v, lin_next_out R_ops p s = Ok (s1, v)
      /\ lin_process R_ops p s x = Ok (s2, v) /\ lin_process R_ops p s1 x = Ok (s2, v).
Proof. exact C25_peek_harmless_thm. Qed.
Print Assumptions C25_peek_harmless.

Example C25_peek_harmless_hyps (a b : R) :
  exists s, lin_history R_ctl R_ops Debug (5 / 2) 7 [DProcess a; DTapIn b 3; DProcess b] s
    /\ lin_trusted [@DProcess R R a; DTapIn b 3; DProcess b]
    /\ unpeeked [@DProcess R R a; DTapIn b 3; DProcess b] /\ 1 <= lin_get_delay s.
Proof.
  destruct (wit_R (5 / 2) 7 [DProcess a; DTapIn b 3; DProcess b]) as [s [H E]]; try easy.
  - lra.
  - repeat constructor; intros; easy.
  - repeat constructor; intros; discriminate.
  - exists s. repeat (split; [easy|]). rewrite E. lra.
Qed.

(** C25, floats: with a reported delay of at least two samples the peek is
    harmless bit for bit. *)
Theorem C25_peek_harmless_float :
  forall (T : Type) (K : ctl_ops f32 T) (O : num_ops T) (val : T -> R) (fin : T -> bool) (rnd : R -> R)
         (p : profile) (d : f32) (m : Z) (ops : list (dl_op f32 T)) (s : lin_delay f32 T) (mx : Z) (x : T),
    float_line K O val fin rnd ->
    lin_history K O p d m ops s -> lin_trusted ops -> unpeeked ops ->
    lin_get_max_delay p s = Ok mx -> (mx < 2 ^ 24)%Z ->
    is_finite (lin_get_delay s) = true -> 2 <= B2R (lin_get_delay s) ->
    exists s1 s2 v, lin_next_out O p s = Ok (s1, v)
      /\ lin_process O p s x = Ok (s2, v) /\ lin_process O p s1 x = Ok (s2, v).
Proof. exact C25_peek_harmless_float_thm. Qed.
Print Assumptions C25_peek_harmless_float.

Example C25_peek_harmless_float_hyps (a b : f32) :
  exists s, lin_history f32_ctl_f32 O32 Debug (fl32 3 (-1)) 7 ([DProcess a; DTapIn b 3; DProcess b] ++ [DSetDelay (fl32 5 (-1))]) s
    /\ lin_get_max_delay Debug s = Ok 7%Z
    /\ is_finite (lin_get_delay s) = true /\ 2 <= B2R (lin_get_delay s).
Proof.
  destruct (wit_set (fl32 3 (-1)) (fl32 5 (-1)) 7 [DProcess a; DTapIn b 3; DProcess b]) as [s [H [H1 [H2 _]]]].
  - easy.
  - repeat constructor; intros; easy.
  - cbn; repeat split; easy.
  - repeat constructor; intros; discriminate.
  - exists s. repeat (split; [easy|]). destruct (H2 ltac:(discriminate)) as [H3 H4]. split; [exact H3|].
    rewrite H4. cbn. unfold clipR, F2R; cbn. rewrite Rmin_left, Rmax_right by lra. lra.
Qed.

(** C25, floats, with a reported delay of exactly one sample and finite samples the
    peek does not change the value of the output. *)
Theorem C25_peek_same_value :
  forall (T : Type) (K : ctl_ops f32 T) (O : num_ops T) (val : T -> R) (fin : T -> bool) (rnd : R -> R)
         (p : profile) (d : f32) (m : Z) (ops : list (dl_op f32 T)) (s : lin_delay f32 T) (mx : Z) (x : T),
    float_line K O val fin rnd ->
    lin_history K O p d m ops s -> lin_trusted ops -> unpeeked ops ->
    lin_get_max_delay p s = Ok mx -> (mx < 2 ^ 24)%Z ->
    is_finite (lin_get_delay s) = true -> B2R (lin_get_delay s) = 1 ->
    (forall t v, (0 <= t <= mx)%Z -> lin_tap_out p s t = Ok v -> fin v = true) -> fin x = true ->
    exists s1 s2 s3 v y, lin_next_out O p s = Ok (s1, v)
      /\ lin_process O p s x = Ok (s2, y) /\ lin_process O p s1 x = Ok (s3, v)
      /\ fin y = true /\ fin v = true /\ val y = val v.
Proof. exact C25_peek_same_value_thm. Qed.
Print Assumptions C25_peek_same_value.

Example C25_peek_same_value_hyps (a b : f32) :
  is_finite a = true -> is_finite b = true ->
  exists s, lin_history f32_ctl_f32 O32 Debug (fl32 3 (-1)) 7 ([DProcess a; DTapIn b 3; DProcess b] ++ [DSetDelay (fl32 1 0)]) s
    /\ lin_get_max_delay Debug s = Ok 7%Z
    /\ is_finite (lin_get_delay s) = true /\ B2R (lin_get_delay s) = 1
    /\ (forall t v, (0 <= t <= 7)%Z -> lin_tap_out Debug s t = Ok v -> is_finite v = true).
Proof.
  intros Ha Hb.
  destruct (wit_set (fl32 3 (-1)) (fl32 1 0) 7 [DProcess a; DTapIn b 3; DProcess b]) as [s [H [H1 [H2 _]]]].
  - easy.
  - repeat constructor; intros; easy.
  - cbn; repeat split; easy.
  - repeat constructor; intros; discriminate.
  - exists s. repeat (split; [easy|]). destruct (H2 ltac:(discriminate)) as [H3 H4]. split; [exact H3|]. split.
    + rewrite H4. cbn. unfold clipR, F2R; cbn. rewrite Rmin_left, Rmax_right by lra. lra.
    + intros t v _. apply (mem_taps f32_ctl_f32 O32 Debug (fun v => is_finite v = true) eq_refl _ _ _ s t v H).
      repeat constructor; assumption.
Qed.

(** C25, the exception: in exact arithmetic, with a delay below one sample, peeking
    changes the output for some sample. *)
Theorem C25_peek_stale_refuted :
  forall (p : profile) (d : R) (m : Z) (ops : list (dl_op R R)) (s : lin_delay R R),
    lin_history R_ctl R_ops p d m ops s -> lin_trusted ops -> unpeeked ops ->
    lin_get_delay s < 1 ->
    exists s1 v, lin_next_out R_ops p s = Ok (s1, v)
      /\ exists x s2 s3 y, lin_process R_ops p s1 x = Ok (s2, v)
                         /\ lin_process R_ops p s x = Ok (s3, y) /\ y <> v.
Proof. exact C25_peek_stale_refuted_thm. Qed.
Print Assumptions C25_peek_stale_refuted.

Example C25_peek_stale_refuted_hyps (a b : R) :
  exists s, lin_history R_ctl R_ops Debug (1 / 2) 7 [DProcess a; DTapIn b 3; DProcess b] s
    /\ lin_trusted [@DProcess R R a; DTapIn b 3; DProcess b]
    /\ unpeeked [@DProcess R R a; DTapIn b 3; DProcess b] /\ lin_get_delay s < 1.
Proof.
  destruct (wit_R (1 / 2) 7 [DProcess a; DTapIn b 3; DProcess b]) as [s [H E]]; try easy.
  - lra.
  - repeat constructor; intros; easy.
  - repeat constructor; intros; discriminate.
  - exists s. repeat (split; [easy|]). rewrite E. lra.
Qed.

(** C26: once [next_out] has been called, the next [process] returns the peeked
    value, whatever calls other than [process] come in between. *)
Theorem C26_pending_peek :
  forall (C T : Type) (K : ctl_ops C T) (O : num_ops T) (p : profile)
         (s s1 s2 s3 : lin_delay C T) (ops : list (dl_op C T)) (os : list (obs C T)) (x v y : T),
    lin_next_out O p s = Ok (s1, v) ->
    Forall (fun op => forall x, op <> DProcess x) ops ->
    lin_run K O p s1 ops = Ok (s2, os) ->
    lin_process O p s2 x = Ok (s3, y) ->
    y = v.
Proof. exact C26_pending_peek_thm. Qed.
Print Assumptions C26_pending_peek.

(* the hypotheses are met on every new line *)
Example C26_pending_peek_hyps (a b : R) :
  exists s1 s2 s3 v os y,
    (let* s0 := lin_new R_ctl R_ops Debug 1 7 in lin_next_out R_ops Debug s0) = Ok (s1, v)
    /\ Forall (fun op => forall x, op <> DProcess x) [@DClear R R; DSetDelay 3; DTapIn a 2; DNextOut]
    /\ lin_run R_ctl R_ops Debug s1 [DClear; DSetDelay 3; DTapIn a 2; DNextOut] = Ok (s2, os)
    /\ lin_process R_ops Debug s2 b = Ok (s3, y).
Proof.
  destruct (C22_refines_ideal_thm Debug 1 7 [DNextOut; DClear; DSetDelay 3; DTapIn a 2; DNextOut; DProcess b])
    as [s [os [_ [E _]]]]; [easy|discriminate|repeat constructor; easy|cbn; repeat split; discriminate|].
  unfold lin_session in E. destruct (lin_new R_ctl R_ops Debug 1 7) as [s0| |]; try discriminate.
  cbn [bind] in *. change [DNextOut; DClear; DSetDelay 3; DTapIn a 2; DNextOut; DProcess b]
    with ([@DNextOut R R] ++ [DClear; DSetDelay 3; DTapIn a 2; DNextOut] ++ [DProcess b]) in E.
  rewrite LinFacts.lin_run_app in E.
  apply bind_Ok in E. destruct E as [[s1 o1] [E1 E]]. apply bind_Ok in E. destruct E as [[t1 q1] [E E']]. clear E'.
  rewrite LinFacts.lin_run_app in E. apply bind_Ok in E. destruct E as [[s2 o2] [E2 E]]. apply bind_Ok in E. destruct E as [[t3 q3] [E E']]. clear E'.
  cbn [lin_run lin_step] in E1. apply bind_Ok in E1. destruct E1 as [[u1 r1] [E1 F]].
  apply bind_Ok in E1. destruct E1 as [[u2 v] [E1 F']]. injection F' as <- <-. injection F as <- _.
  cbn [lin_run lin_step] in E. apply bind_Ok in E. destruct E as [[w1 r2] [E _]].
  apply bind_Ok in E. destruct E as [[s3 y] [E _]].
  exists u2, s2, s3, v, o2, y. split; [exact E1|]. split; [repeat constructor; discriminate|].
  split; [exact E2|exact E].
Qed.

(** C26, the consequence: on a line with a delay of one sample, [process(a)], a
    peek, [clear] and [process(b)] returns [a], the sample that was cleared. *)
Theorem C26_clear_keeps_peek_refuted :
  forall (p : profile) (m : Z) (a b : R),
    (1 <= m)%Z -> fits R_ops m ->
    exists s, lin_session R_ctl R_ops p 1 m [DProcess a; DNextOut; DClear; DProcess b]
      = Ok (s, [OSample 0; OSample a; ONone; OSample a]).
Proof. exact C26_clear_keeps_peek_refuted_thm. Qed.
Print Assumptions C26_clear_keeps_peek_refuted.

Example C26_clear_keeps_peek_refuted_hyps : (1 <= 7)%Z /\ fits R_ops 7.
Proof. split; discriminate. Qed.

(** C27: the same calls on a [LinearDelay] and on a [Delay], with whole numbers of
    samples as delays and finite samples, on lines of at most 2^24 slots: both
    complete with the same answers (a zero may differ in sign), or both panic. *)
Theorem C27_agrees_with_Delay :
  forall (T : Type) (K : ctl_ops f32 T) (O : num_ops T) (val : T -> R) (fin : T -> bool) (rnd : R -> R)
         (p : profile) (d : f32) (k m : Z) (ops : list (dl_op f32 T)) (ops' : list (dl_op Z T)),
    float_line K O val fin rnd ->
    is_finite d = true -> B2R d = IZR k -> is_usize k -> (0 <= m < 2 ^ 24)%Z ->
    Forall2 (same_call fin (2 ^ 24)) ops ops' ->
    match lin_session K O p d m ops, dl_session O p k m ops' with
    | Ok (_, os), Ok (_, os') => Forall2 (same_obs fin val) os os'
    | Panic, Panic => True
    | _, _ => False
    end.
Proof. exact C27_agrees_with_Delay_thm. Qed.
Print Assumptions C27_agrees_with_Delay.

Example C27_agrees_with_Delay_hyps (a b : f32) :
  is_finite a = true -> is_finite b = true ->
  is_finite (fl32 3 0) = true /\ B2R (fl32 3 0) = IZR 3
  /\ Forall2 (same_call is_finite (2 ^ 24))
       [DProcess a; DSetDelay (fl32 1 1); DProcess b; DTapIn a 5; DSetMaxDelay 9; DProcess a; DLastOut]
       [DProcess a; DSetDelay 2%Z; DProcess b; DTapIn a 5; DSetMaxDelay 9; DProcess a; DLastOut].
Proof.
  intros Ha Hb. split; [reflexivity|]. split; [cbn; unfold F2R; cbn; lra|].
  repeat constructor; try assumption; try easy. cbn; unfold F2R; cbn; lra.
Qed.

(** C69: the taps of a [LinearDelay] are those of a [Delay]: the same calls, with
    any delays whatever and any peeks, give the same answers to [tap_out],
    [add_to] and [get_max_delay], and leave the same values behind the taps. *)
Theorem C69_taps_agree :
  forall (C T : Type) (K : ctl_ops C T) (O : num_ops T) (p : profile) (d : C) (k m : Z)
         (ops : list (dl_op C T)) (ops' : list (dl_op Z T))
         (s : lin_delay C T) (t : delay T) (os : list (obs C T)) (os' : list (obs Z T)),
    Forall2 same_line_call ops ops' ->
    lin_session K O p d m ops = Ok (s, os) -> dl_session O p k m ops' = Ok (t, os') ->
    Forall2 (fun op_o o' => same_tap_obs (fst op_o) (snd op_o) o') (combine ops os) os'
    /\ (forall tap, lin_tap_out p s tap = delay_tap_out p t tap).
Proof. exact C69_taps_agree_thm. Qed.
Print Assumptions C69_taps_agree.

(* both sessions of the example complete, by C21 and the corresponding theorem on [Delay] *)
Example C69_taps_agree_hyps (a b : R) :
  exists s os t os',
    lin_session R_ctl R_ops Debug (5 / 2) 7 [DProcess a; DSetDelay (1 / 3); DProcess b; DTapOut 1; DAddTo b 0] = Ok (s, os)
    /\ dl_session R_ops Debug 4 7 [DProcess a; DSetDelay 0%Z; DProcess b; DTapOut 1; DAddTo b 0] = Ok (t, os').
Proof.
  destruct (C22_refines_ideal_thm Debug (5 / 2) 7 [DProcess a; DSetDelay (1 / 3); DProcess b; DTapOut 1; DAddTo b 0])
    as [s [os [_ [E _]]]]; [easy|discriminate|repeat constructor; easy|cbn; repeat split; discriminate|].
  exists s, os. do 2 eexists. split; [exact E|]. lazy -[Rplus]. reflexivity.
Qed.
