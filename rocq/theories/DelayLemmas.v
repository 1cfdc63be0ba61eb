(** Proofs of the properties of [Delay] (C06-C18).  The statements are repeated,
    with nothing else, in [PropDelay]. *)
From Coq Require Import ZArith List Bool Lia ZifyBool ZifyNat.
From Verif Require Import Base BaseLemmas Num DelayM DelaySpec DelayRun PlaceSpec DelayProofs DelayFacts.
Import ListNotations.
Open Scope Z_scope.

(*@PROP
(** Properties C06-C18: [Delay].

    Vocabulary: [dl_session O p d m ops] is [Delay::new(d, m)] followed by the
    calls [ops] ([DelayRun]); [dl_history O p d m ops s] says that such a session
    completed in state [s]; [DelaySpec] is the abstract delay line; [max_after],
    [write_after] and [timing_after] ([PlaceSpec]) follow the length of the line, its
    write position and its timing through the calls. *)
From Coq Require Import ZArith List Bool.
From Verif Require Import Base Num NumF Witness DelayM DelaySpec DelayRun PlaceSpec DelayLemmas.
Import ListNotations.
Open Scope Z_scope.

(** A concrete session with [f64] samples: [Delay::new(2, 3)], five arbitrary samples,
    taps, a change of delay.  The examples below reuse it. *)
Definition ex_ops (a b c : f64) : list (dl_op Z f64) :=
  [DProcess a; DProcess b; DTapIn c 1; DSetDelay 1;
   DProcess b; DNextOut; DProcess c; DTapOut 2; DProcess a].

Ltac sane := repeat constructor; unfold op_sane, is_usize, op_usize; repeat split;
  try discriminate; try (intros; discriminate); easy.
Ltac history := unfold dl_history, is_usize; split; [easy|];
  split; [easy|]; split; [discriminate|]; split; [sane|];
  eexists; vm_compute; reflexivity.
@*)

Lemma fits_iff {T} (O : num_ops T) m : 1 <= n_size_of O -> (fits O m <-> m + 1 <= max_slots O).
Proof.
  intros Hs. unfold fits. pose proof (alloc_ok_iff O Hs (m + 1)) as E.
  unfold alloc_ok in E. lia.
Qed.

Lemma normal_use_line {T} (O : num_ops T) ops : forall l,
  1 <= n_size_of O -> (1 <= slots l)%nat -> Z.of_nat (slots l) <= max_slots O ->
  Forall op_usize ops -> normal_use O (Z.of_nat (slots l) - 1) ops ->
  exists l' os, line_run (n_zero O) (n_add O) (max_slots O) l ops = Some (l', os).
Proof.
  induction ops as [|op ops IH]; intros l Hs H1 H2 Hu Hn; cbn [line_run].
  - eauto.
  - inversion Hu as [|? ? Hop Hrest]; subst.
    assert (Hstep : exists l1 o, line_step (n_zero O) (n_add O) (max_slots O) l op = Some (l1, o)
              /\ (1 <= slots l1)%nat /\ Z.of_nat (slots l1) <= max_slots O
              /\ normal_use O (Z.of_nat (slots l1) - 1) ops).
    { cbn [normal_use] in Hn. destruct op; cbn [line_step op_usize] in *.
      - unfold line_process. eexists _, _. split; [reflexivity|].
        unfold slots in *. cbn [l_hist]. rewrite push_length by lia. auto.
      - eexists _, _. split; [reflexivity|]. unfold slots, line_clear in *. cbn [l_hist].
        unfold slots in *. rewrite repeat_length. auto.
      - eexists _, _. split; [reflexivity|]. unfold slots, line_set_delay in *. cbn [l_hist]. auto.
      - destruct Hn as [Hf Hn]. apply fits_iff in Hf; [|assumption]. unfold is_usize in Hop.
        destruct (Z.ltb_spec m (Z.of_nat (slots l))).
        + eexists _, _. split; [reflexivity|]. rewrite Z.max_l in Hn by lia. auto.
        + replace (m + 1 <=? max_slots O) with true by lia.
          eexists _, _. split; [reflexivity|].
          assert (HL : slots (line_grow (n_zero O) l (Z.to_nat (m + 1) - slots l)) = Z.to_nat (m + 1)).
          { unfold slots, line_grow; cbn [l_hist]. unfold slots in *.
            rewrite !app_length, repeat_length, firstn_length, skipn_length. lia. }
          rewrite HL. rewrite Z.max_r in Hn by lia.
          replace (Z.of_nat (Z.to_nat (m + 1)) - 1) with m by lia.
          repeat split; try lia. assumption.
      - eexists _, _; split; [reflexivity|]; auto.
      - eexists _, _; split; [reflexivity|]; auto.
      - eexists _, _; split; [reflexivity|]; auto.
      - eexists _, _; split; [reflexivity|]; auto.
      - destruct Hn as [Ht Hn]. replace (t <? Z.of_nat (slots l)) with true by lia.
        eexists _, _; split; [reflexivity|]; auto.
      - destruct Hn as [Ht Hn]. replace (t <? Z.of_nat (slots l)) with true by lia.
        unfold is_usize in Hop.
        eexists _, _; split; [reflexivity|]. unfold slots, line_put in *; cbn [l_hist].
        rewrite put_length by lia. auto.
      - destruct Hn as [Ht Hn]. replace (t <? Z.of_nat (slots l)) with true by lia.
        unfold is_usize in Hop.
        eexists _, _; split; [reflexivity|]. unfold slots, line_put in *; cbn [l_hist].
        rewrite put_length by lia. auto. }
    destruct Hstep as [l1 [o [E [Ha [Hb Hc]]]]]. rewrite E.
    destruct (IH l1 Hs Ha Hb Hrest Hc) as [l2 [os E2]]. rewrite E2. eauto.
Qed.

(** C08: every session in the documented domain behaves as the abstract delay
    line: the calls return exactly what the line returns. *)
Lemma C08_delay_refines_line_thm :
  forall (T : Type) (O : num_ops T) (p : profile) (d m : Z) (ops : list (dl_op Z T)),
    1 <= n_size_of O -> is_usize d -> is_usize m -> fits O m ->
    Forall op_usize ops -> normal_use O m ops ->
    exists (s : delay T) (l : line T) (os : list (obs Z T)),
      line_run (n_zero O) (n_add O) (isize_max / n_size_of O)
               (line_new (n_zero O) (Z.to_nat d) (Z.to_nat m)) ops = Some (l, os)
      /\ dl_session O p d m ops = Ok (s, os).
Proof.
  intros T O p d m ops Hs Hd Hm Hf Hu Hn.
  apply fits_iff in Hf; [|assumption]. unfold is_usize in *.
  destruct (refine_new O p Hs d m) as [s0 [E0 [Hi Hab]]]; [assumption|lia|assumption|].
  assert (Hnew : line_new (n_zero O) (Z.to_nat (Z.min d m)) (Z.to_nat m)
                 = line_new (n_zero O) (Z.to_nat d) (Z.to_nat m)).
  { unfold line_new. f_equal; lia. }
  rewrite Hnew in Hab.
  destruct (normal_use_line O ops (dl_abs s0)) as [l' [os E]]; auto.
  - rewrite dl_abs_slots. destruct Hi. unfold vlen in *. lia.
  - rewrite dl_abs_slots. destruct Hi. unfold vlen in *. lia.
  - rewrite Hab. unfold slots, line_new; cbn [l_hist]. rewrite repeat_length.
    replace (Z.of_nat (S (Z.to_nat m)) - 1) with m by lia. assumption.
  - destruct (refine_run O p Hs ops s0 l' os Hi Hu E) as [s' [E' _]].
    rewrite Hab in E. exists s', l', os. split; [exact E|].
    unfold dl_session. rewrite E0. exact E'.
Qed.
(*@PROP
Example C08_delay_refines_line_hyps (a b c : f64) :
  1 <= n_size_of O64 /\ is_usize 2 /\ is_usize 3 /\ fits O64 3
  /\ Forall op_usize ((ex_ops a b c) ++ [DSetMaxDelay 6; DTapOut 6])
  /\ normal_use O64 3 ((ex_ops a b c) ++ [DSetMaxDelay 6; DTapOut 6]).
Proof.
  split; [easy|]. split; [easy|]. split; [easy|]. split; [easy|].
  split; [repeat constructor; easy|]. repeat split; easy.
Qed.
@*)

(** C06: such a session never panics. *)
Lemma C06_delay_never_panics_thm :
  forall (T : Type) (O : num_ops T) (p : profile) (d m : Z) (ops : list (dl_op Z T)),
    1 <= n_size_of O -> is_usize d -> is_usize m -> fits O m ->
    Forall op_usize ops -> normal_use O m ops ->
    exists r, dl_session O p d m ops = Ok r.
Proof.
  intros T O p d m ops Hs Hd Hm Hf Hu Hn.
  destruct (C08_delay_refines_line_thm T O p d m ops Hs Hd Hm Hf Hu Hn) as [s [l [os [_ E]]]]. eauto.
Qed.
(*@PROP
Example C06_delay_never_panics_hyps (a b c : f64) :
  1 <= n_size_of O64 /\ is_usize 2 /\ is_usize 3 /\ fits O64 3
  /\ Forall op_usize ((ex_ops a b c) ++ [DSetMaxDelay 6; DTapOut 6])
  /\ normal_use O64 3 ((ex_ops a b c) ++ [DSetMaxDelay 6; DTapOut 6]).
Proof.
  split; [easy|]. split; [easy|]. split; [easy|]. split; [easy|].
  split; [repeat constructor; easy|]. repeat split; easy.
Qed.
@*)

Lemma dl_step_app {T} (O : num_ops T) p ops1 : forall s ops2,
  dl_run O p s (ops1 ++ ops2)
  = let* (s1, o1) := dl_run O p s ops1 in
    let* (s2, o2) := dl_run O p s1 ops2 in Ok (s2, o1 ++ o2).
Proof.
  induction ops1 as [|op ops1 IH]; intros s ops2; cbn [app dl_run bind].
  - destruct (dl_run O p s ops2) as [[? ?]| |]; reflexivity.
  - destruct (dl_step O p s op) as [[s1 o]| |]; cbn [bind]; auto.
    rewrite IH. destruct (dl_run O p s1 ops1) as [[s2 os]| |]; cbn [bind]; auto.
    destruct (dl_run O p s2 ops2) as [[s3 os3]| |]; cbn [bind]; auto.
Qed.

(** C07: a new delay outputs [min d m] zeros followed by its input, exactly. *)
Lemma C07_delay_is_pure_delay_thm :
  forall (T : Type) (O : num_ops T) (p : profile) (d m : Z) (xs : list T),
    1 <= n_size_of O -> is_usize d -> is_usize m -> fits O m ->
    exists s, dl_session O p d m (map DProcess xs)
      = Ok (s, map OSample (firstn (length xs) (repeat (n_zero O) (Z.to_nat (Z.min d m)) ++ xs))).
Proof.
  intros T O p d m xs Hs Hd Hm Hf. apply fits_iff in Hf; [|assumption]. unfold is_usize in *.
  destruct (refine_new O p Hs d m) as [s0 [E0 [Hi Hab]]]; [assumption|lia|assumption|].
  destruct (process_run O p Hs s0 xs Hi) as [s' [E _]].
  exists s'. unfold dl_session. rewrite E0. cbn [bind]. rewrite E. do 5 f_equal.
  assert (Hlag : Z.to_nat (dl_lag s0) = Z.to_nat (Z.min d m)).
  { apply (f_equal l_lag) in Hab. unfold line_new, dl_abs in Hab. cbn [l_lag] in Hab. unfold dl_lag. lia. }
  rewrite Hlag, Hab. unfold line_new; cbn [l_hist].
  assert (G : forall a b, (a <= b)%nat -> rev (firstn a (repeat (n_zero O) b)) = repeat (n_zero O) a).
  { intros a b Hab'. transitivity (rev (repeat (n_zero O) a)).
    - f_equal. revert b Hab'. induction a; intros b Hb; [reflexivity|].
      destruct b; [lia|]. cbn [repeat firstn]. f_equal. apply IHa. lia.
    - clear. induction a; [reflexivity|]. cbn [repeat rev]. rewrite IHa, repeat_cons. reflexivity. }
  rewrite G by lia. reflexivity.
Qed.
(*@PROP
Example C07_delay_is_pure_delay_hyps :
  1 <= n_size_of O64 /\ is_usize 2 /\ is_usize 3 /\ fits O64 3.
Proof. repeat split; easy. Qed.
@*)

Section State.
  Context {T : Type} (O : num_ops T) (p : profile).
  Hypothesis Hs : 1 <= n_size_of O.

  Lemma run_ok_trusted ops : forall b s s' os,
    dl_inv O s -> (b = true -> dl_lag s = dl_delay s) -> Forall op_sane ops ->
    dl_run O p s ops = Ok (s', os) ->
    fold_left (fun b op => match op with
                           | DSetMaxDelay _ => false
                           | DSetDelay _ => true
                           | _ => b
                           end) ops b = true ->
    dl_lag s' = dl_delay s'.
  Proof.
    induction ops as [|op ops IH]; intros b s s' os Hi HL Ha E Hb; cbn [dl_run fold_left] in *.
    - inversion E; subst. auto.
    - inversion Ha; subst. apply bind_Ok in E. destruct E as [[s1 o] [E1 E]].
      apply bind_Ok in E. destruct E as [[s2 os2] [E2 E]]. inversion E; subst.
      destruct (step_ok_frame O p Hs s op s1 o Hi H1 E1) as [F1 F2 F3 F4].
      refine (IH _ s1 s' os2 F1 _ H2 E2 Hb). clear IH E2 Hb E.
      destruct op; intros Hb; subst; try solve [apply F4; [congruence|auto]]; try discriminate.
      (* set_delay *)
      cbn [dl_step] in E1. apply bind_Ok in E1. destruct E1 as [s2' [E1 E]]. inversion E; subst.
      destruct H1 as [Hu _]. cbn in Hu.
      destruct (refine_set_delay O p Hs s d Hi Hu) as [s3 [E3 [Hi3 Hab]]].
      rewrite E1 in E3. inversion E3; subst.
      unfold line_set_delay in Hab. unfold dl_abs in Hab at 1. inversion Hab.
      pose proof (lag_lt O s3 F1). unfold dl_lag in *. destruct F1. lia.
  Qed.

  Lemma history_trusted d m ops s :
    dl_history O p d m ops s -> timing_trusted ops -> dl_inv O s /\ dl_lag s = dl_delay s.
  Proof.
    intros Hh Ht. split; [apply (history_sane O p Hs d m ops s Hh)|].
    destruct Hh as [Hd [Hm [Hne [Ha [os E]]]]]. unfold dl_session in E.
    apply bind_Ok in E. destruct E as [s0 [E0 E]].
    destruct (new_sane O p Hs d m s0 Hd Hm Hne E0) as [Hi [HL _]].
    eapply (run_ok_trusted ops true s0 s os); eauto.
  Qed.

  Lemma process_out s x :
    dl_inv O s -> exists s', delay_process p s x
      = Ok (s', nth (Z.to_nat (dl_lag s)) (push x (l_hist (dl_abs s))) (n_zero O)).
  Proof.
    intros Hi. destruct (refine_process O p Hs s x Hi) as [s' [E _]].
    exists s'. rewrite E. reflexivity.
  Qed.

  Lemma hist_len (s : delay T) : length (l_hist (dl_abs s)) = length (dl_memory s).
  Proof. apply ring_hist_length. Qed.
End State.

(** C08 (observable form): after any history, if [set_max_delay] was not called
    since the last [set_delay], [process(x)] returns [x] when [get_delay() = 0]
    and otherwise exactly what [tap_out(get_delay() - 1)] shows beforehand. *)
Lemma C08_delay_outputs_tap_thm :
  forall (T : Type) (O : num_ops T) (p : profile) (d m : Z) (ops : list (dl_op Z T))
         (s : delay T) (x : T),
    1 <= n_size_of O -> dl_history O p d m ops s -> timing_trusted ops ->
    exists s' y, delay_process p s x = Ok (s', y)
      /\ (delay_get_delay s = 0 -> y = x)
      /\ (1 <= delay_get_delay s -> delay_tap_out p s (delay_get_delay s - 1) = Ok y).
Proof.
  intros T O p d m ops s x Hs Hh Ht.
  destruct (history_trusted O p Hs d m ops s Hh Ht) as [Hi HL].
  pose proof (lag_lt O s Hi) as Hlt.
  destruct (process_out O p Hs s x Hi) as [s' E]. eexists s', _. split; [exact E|].
  unfold delay_get_delay. rewrite <- HL. split.
  - intros ->. reflexivity.
  - intros H1. rewrite (refine_tap_out O p Hs s) by (assumption || lia).
    f_equal. rewrite nth_push by (rewrite hist_len; unfold vlen in *; lia).
    replace (Z.to_nat (dl_lag s)) with (S (Z.to_nat (dl_lag s - 1))) by lia. reflexivity.
Qed.
(*@PROP
Example C08_delay_outputs_tap_hyps (a b c : f64) :
  exists s, dl_history O64 Debug 2 3 (ex_ops a b c) s /\ timing_trusted (ex_ops a b c) /\ delay_get_delay s = 1.
Proof. eexists. split; [history|]. split; reflexivity. Qed.
@*)

Lemma get_max_ok {T} (O : num_ops T) p (s : delay T) :
  1 <= n_size_of O -> dl_inv O s -> delay_get_max_delay p s = Ok (vlen (dl_memory s) - 1).
Proof.
  intros Hs [? ? ? ?]. pose proof (max_slots_lt O Hs).
  unfold delay_get_max_delay, usub. apply chk_usize_ok. unfold two63, two64 in *. lia.
Qed.

(** C09: [set_delay] stores the clipped delay and changes nothing else that can
    be observed through taps, [last_out] or [get_max_delay]. *)
Lemma C09_set_delay_clips_thm :
  forall (T : Type) (O : num_ops T) (p : profile) (d m : Z) (ops : list (dl_op Z T))
         (s : delay T) (d' : Z),
    1 <= n_size_of O -> dl_history O p d m ops s -> is_usize d' ->
    exists s' mx,
      delay_set_delay p s d' = Ok s'
      /\ delay_get_max_delay p s = Ok mx /\ delay_get_max_delay p s' = Ok mx
      /\ delay_get_delay s' = Z.min d' mx
      /\ delay_last_out s' = delay_last_out s
      /\ (forall t, is_usize t -> delay_tap_out p s' t = delay_tap_out p s t).
Proof.
  intros T O p d m ops s d' Hs Hh Hu.
  destruct (history_sane O p Hs d m ops s Hh) as [Hi _].
  destruct (refine_set_delay O p Hs s d' Hi Hu) as [s' [E [Hi' Hab]]].
  exists s', (vlen (dl_memory s) - 1). split; [exact E|].
  assert (Hm : dl_memory s' = dl_memory s /\ dl_output s' = dl_output s /\ dl_write s' = dl_write s
               /\ dl_delay s' = Z.min d' (vlen (dl_memory s) - 1)).
  { unfold delay_set_delay, usub in E. destruct Hi. pose proof (max_slots_lt O Hs).
    rewrite chk_usize_ok in E by (unfold two63, two64 in *; lia). cbn [bind] in E.
    apply bind_Ok in E. destruct E as [r [_ E]]. inversion E; subst. cbn.
    repeat split. destruct (Z.ltb_spec (vlen (dl_memory s) - 1) d'); lia. }
  destruct Hm as [Hm [Ho [Hw Hd]]].
  rewrite (get_max_ok O p s Hs Hi), (get_max_ok O p s' Hs Hi'), Hm.
  repeat split; auto.
  intros t _. unfold delay_tap_out. rewrite Hm, Hw. reflexivity.
Qed.
(*@PROP
Example C09_set_delay_clips_hyps (a b c : f64) :
  exists s, dl_history O64 Debug 2 3 (ex_ops a b c) s.
Proof. eexists. history. Qed.
@*)

(** C09: [new] clips too. *)
Lemma C09_new_clips_thm :
  forall (T : Type) (O : num_ops T) (p : profile) (d m : Z),
    1 <= n_size_of O -> is_usize d -> is_usize m -> fits O m ->
    exists s, delay_new O p d m = Ok s
      /\ delay_get_delay s = Z.min d m /\ delay_get_max_delay p s = Ok m
      /\ delay_last_out s = n_zero O.
Proof.
  intros T O p d m Hs Hd Hm Hf. apply fits_iff in Hf; [|assumption]. unfold is_usize in *.
  destruct (refine_new O p Hs d m) as [s0 [E0 [Hi Hab]]]; [assumption|lia|assumption|].
  assert (Hne : m <> usize_max).
  { pose proof (max_slots_lt O Hs). unfold usize_max, two63, two64 in *. lia. }
  destruct (new_sane O p Hs d m s0 Hd Hm Hne E0) as [_ [_ [_ [HL HD]]]].
  exists s0. split; [exact E0|]. split; [exact HD|].
  rewrite (get_max_ok O p s0 Hs Hi), HL. split; [f_equal; lia|].
  apply (f_equal l_last) in Hab. exact Hab.
Qed.
(*@PROP
Example C09_new_clips_hyps :
  1 <= n_size_of O64 /\ is_usize 9 /\ is_usize 3 /\ fits O64 3.
Proof. repeat split; easy. Qed.
@*)

(** C10: [set_max_delay] only grows the line. *)
Lemma C10_set_max_delay_grows_thm :
  forall (T : Type) (O : num_ops T) (p : profile) (d m : Z) (ops : list (dl_op Z T))
         (s : delay T) (m' : Z),
    1 <= n_size_of O -> dl_history O p d m ops s -> is_usize m' -> fits O m' ->
    exists s' mx,
      delay_set_max_delay O p s m' = Ok s'
      /\ delay_get_max_delay p s = Ok mx
      /\ delay_get_max_delay p s' = Ok (Z.max mx m')
      /\ delay_get_delay s' = delay_get_delay s
      /\ delay_last_out s' = delay_last_out s
      /\ (m' <= mx -> s' = s).
Proof.
  intros T O p d m ops s m' Hs Hh Hu Hf. apply fits_iff in Hf; [|assumption].
  destruct (history_sane O p Hs d m ops s Hh) as [Hi _].
  destruct (Z.ltb_spec m' (vlen (dl_memory s))).
  - exists s, (vlen (dl_memory s) - 1). rewrite (get_max_ok O p s Hs Hi).
    unfold delay_set_max_delay. replace (m' <? vlen (dl_memory s)) with true by lia.
    rewrite Z.max_l by lia. auto 10.
  - destruct (refine_grow O p Hs s m' Hi Hu) as [s' [E [Hi' Hab]]]; [lia|lia|].
    exists s', (vlen (dl_memory s) - 1). split; [exact E|].
    rewrite (get_max_ok O p s Hs Hi), (get_max_ok O p s' Hs Hi').
    unfold line_grow in Hab.
    split; [reflexivity|]. split; [|split; [|split]].
    + f_equal. rewrite Z.max_r by lia.
      apply (f_equal (fun l => length (l_hist l))) in Hab. cbn [l_hist] in Hab.
      rewrite hist_len in Hab.
      rewrite !app_length, repeat_length, firstn_length, skipn_length, hist_len in Hab.
      unfold is_usize in *. unfold vlen in *. lia.
    + apply (f_equal l_delay) in Hab. unfold dl_abs in Hab; cbn [l_delay] in Hab.
      unfold delay_get_delay. destruct Hi, Hi'. lia.
    + apply (f_equal l_last) in Hab. exact Hab.
    + lia.
Qed.
(*@PROP
Example C10_set_max_delay_grows_hyps (a b c : f64) :
  exists s, dl_history O64 Debug 2 3 (ex_ops a b c) s /\ is_usize 10 /\ fits O64 10.
Proof. eexists. split; [history|]. repeat split; easy. Qed.
@*)

Lemma grow_lag {T} (O : num_ops T) (s s' : delay T) g :
  dl_inv O s -> dl_inv O s' -> dl_abs s' = line_grow (n_zero O) (dl_abs s) g ->
  dl_lag s' = if dl_lag s <=? dl_write s then dl_lag s else dl_lag s + Z.of_nat g.
Proof.
  intros Hi Hi' Hab. pose proof (lag_lt O s Hi). pose proof (lag_lt O s' Hi').
  apply (f_equal l_lag) in Hab. unfold line_grow, dl_abs in Hab; cbn [l_lag l_phase] in Hab.
  fold (dl_lag s) in Hab. fold (dl_lag s') in Hab. destruct Hi.
  destruct (Z.leb_spec (dl_lag s) (dl_write s));
  destruct (Nat.leb_spec (Z.to_nat (dl_lag s)) (Z.to_nat (dl_write s))); lia.
Qed.

Lemma firstn_firstn_app {T} (k w : nat) (h r : list T) :
  (k <= w)%nat -> (w <= length h)%nat -> firstn k (firstn w h ++ r) = firstn k h.
Proof.
  intros Hk Hw. rewrite firstn_app, firstn_firstn, firstn_length.
  replace (k - Nat.min w (length h))%nat with 0%nat by lia.
  cbn [firstn]. rewrite app_nil_r. f_equal. lia.
Qed.

Section Place.
  Context {T : Type} (O : num_ops T) (p : profile).
  Hypothesis Hs : 1 <= n_size_of O.

  Definition timed (s : delay T) (t : timing) : Prop :=
    vlen (dl_memory s) = t_max t + 1 /\ dl_write s = t_write t
    /\ dl_delay s = t_reported t /\ dl_lag s = t_latency t.

  Lemma step_timed s op s' o t :
    dl_inv O s -> op_sane op -> dl_step O p s op = Ok (s', o) -> timed s t -> timed s' (timing_step t op).
  Proof.
    intros Hi Ha E [H1 [H2 [H3 H4]]]. destruct t as [tm tw tr tl]. cbn [t_max t_write t_reported t_latency] in *.
    pose proof (step_ok_frame O p Hs s op s' o Hi Ha E) as [F1 _ _ F4].
    assert (Same : (dl_memory s' = dl_memory s \/ vlen (dl_memory s') = vlen (dl_memory s)) ->
              dl_write s' = dl_write s -> dl_read s' = dl_read s -> dl_delay s' = dl_delay s ->
              timed s' (Timing tm tw tr tl)).
    { intros A B C D. assert (A' : vlen (dl_memory s') = vlen (dl_memory s)) by (destruct A as [A|A]; [now rewrite A|exact A]).
      unfold timed, dl_lag; cbn [t_max t_write t_reported t_latency]. rewrite A', B, C, D.
      fold (dl_lag s). auto. }
    destruct op; cbn [timing_step dl_step] in *.
    - destruct (process_run O p Hs s [x] Hi) as [s1 [E1 [_ [_ [L1 [D1 W1]]]]]].
      cbn [map dl_run dl_step] in E1. rewrite E in E1. cbn [bind] in E1. injection E1 as E1 _. subst s1.
      destruct (F4 ltac:(discriminate)) as [V1 _].
      unfold timed; cbn [t_max t_write t_reported t_latency]. cbn [length Z.of_nat] in W1.
      rewrite V1, W1, D1, L1, H1, H2. repeat split; auto.
    - injection E as <- _. apply Same; try reflexivity. right. unfold delay_clear; cbn [dl_memory].
      unfold vlen; rewrite map_length; reflexivity.
    - apply bind_Ok in E. destruct E as [s1 [E E']]. injection E' as <- _.
      destruct Ha as [Hu _]. cbn in Hu.
      destruct (refine_set_delay O p Hs s d Hi Hu) as [s3 [E3 [Hi3 Hab]]].
      rewrite E in E3. injection E3 as <-.
      destruct (F4 ltac:(discriminate)) as [V1 [_ W1]]. cbn [is_process] in W1.
      unfold line_set_delay in Hab. unfold dl_abs in Hab at 1. inversion Hab.
      pose proof (lag_lt O s1 F1). unfold timed; cbn [t_max t_write t_reported t_latency].
      unfold dl_lag in *. unfold is_usize in Hu. destruct F1.
      assert (SL : Z.of_nat (slots (dl_abs s)) = tm + 1) by (rewrite dl_abs_slots; unfold vlen in *; lia).
      repeat split; lia.
    - apply bind_Ok in E. destruct E as [s1 [E E']]. injection E' as <- _.
      destruct Ha as [Hu Hne]. cbn in Hu.
      destruct (Z.leb_spec m tm).
      + unfold delay_set_max_delay in E. replace (m <? vlen (dl_memory s)) with true in E by lia.
        injection E as <-. unfold timed. auto.
      + assert (Hm : m + 1 <= max_slots O).
        { unfold delay_set_max_delay in E. replace (m <? vlen (dl_memory s)) with false in E by lia.
          unfold is_usize in Hu. unfold uadd in E. rewrite chk_usize_ok in E
            by (assert (m <> usize_max) by congruence; unfold usize_max in *; lia). cbn [bind] in E.
          unfold vec_resize in E. replace (m + 1 <=? vlen (dl_memory s)) with false in E by lia.
          rewrite (alloc_ok_iff O Hs) in E. destruct (Z.leb_spec (m + 1) (max_slots O)); [assumption|discriminate]. }
        destruct (refine_grow O p Hs s m Hi Hu) as [s3 [E3 [Hi3 Hab]]]; [lia|lia|].
        rewrite E in E3. injection E3 as <-.
        pose proof (grow_lag O s s1 _ Hi F1 Hab) as HG.
        pose proof (f_equal (fun l => length (l_hist l)) Hab) as HL. unfold line_grow in HL; cbn [l_hist] in HL.
        rewrite hist_len in HL.
        rewrite !app_length, repeat_length, firstn_length, skipn_length, hist_len in HL.
        pose proof (f_equal l_delay Hab) as HD. unfold line_grow, dl_abs in HD; cbn [l_delay] in HD.
        pose proof (f_equal l_phase Hab) as HP. unfold line_grow, dl_abs in HP; cbn [l_phase] in HP.
        unfold timed; cbn [t_max t_write t_reported t_latency]. unfold is_usize in Hu.
        rewrite <- H2, <- H4. rewrite HG. destruct Hi, F1.
        destruct (Z.leb_spec (dl_lag s) (dl_write s)); unfold vlen in *; repeat split; lia.
    - injection E as <- _. apply Same; auto.
    - apply bind_Ok in E. destruct E as [n [_ E]]. injection E as <- _. apply Same; auto.
    - apply bind_Ok in E. destruct E as [n [_ E]]. injection E as <- _. apply Same; auto.
    - injection E as <- _. apply Same; auto.
    - apply bind_Ok in E. destruct E as [n [_ E]]. injection E as <- _. apply Same; auto.
    - apply bind_Ok in E. destruct E as [s1 [E E']]. injection E' as <- _.
      destruct (tap_in_frame p _ _ _ _ E) as [i [? ->]]. apply Same; auto. right. apply list_set_vlen.
    - apply bind_Ok in E. destruct E as [[s1 y] [E E']]. injection E' as <- _.
      destruct (add_to_frame O p _ _ _ _ _ E) as [i [x' [? ->]]]. apply Same; auto. right. apply list_set_vlen.
  Qed.

  Lemma run_timed ops : forall s s' os t,
    dl_inv O s -> Forall op_sane ops -> dl_run O p s ops = Ok (s', os) -> timed s t ->
    timed s' (fold_left timing_step ops t).
  Proof.
    induction ops as [|op ops IH]; intros s s' os t Hi Ha E Ht; cbn [dl_run fold_left] in *.
    - injection E as <- _. exact Ht.
    - apply bind_Ok in E. destruct E as [[s1 o] [E1 E]].
      apply bind_Ok in E. destruct E as [[s2 os2] [E2 E]]. injection E as <- _.
      pose proof (Forall_inv Ha) as Ha1.
      pose proof (step_ok_frame O p Hs s op s1 o Hi Ha1 E1) as [F1 _ _ _].
      exact (IH s1 s2 os2 _ F1 (Forall_inv_tail Ha) E2 (step_timed s op s1 o t Hi Ha1 E1 Ht)).
  Qed.

  Lemma history_timed d m ops s :
    dl_history O p d m ops s -> dl_inv O s /\ timed s (timing_after d m ops).
  Proof.
    intros Hh. split; [apply (history_sane O p Hs d m ops s Hh)|].
    destruct Hh as [Hd [Hm [Hne [Ha [os E]]]]]. unfold dl_session in E.
    apply bind_Ok in E. destruct E as [s0 [E0 E]].
    destruct (new_sane O p Hs d m s0 Hd Hm Hne E0) as [Hi [HL [HW [HV HD]]]].
    apply (run_timed ops s0 s os _ Hi Ha E). unfold timed; cbn [t_max t_write t_reported t_latency].
    repeat split; congruence.
  Qed.

  Lemma timing_place (ops : list (dl_op Z T)) : forall t,
    fold_left place_step ops (t_max t, t_write t)
    = (t_max (fold_left timing_step ops t), t_write (fold_left timing_step ops t)).
  Proof.
    induction ops as [|op ops IH]; intros t; [reflexivity|]. cbn [fold_left]. rewrite <- IH. f_equal.
    destruct t as [tm tw tr tl], op; cbn; try reflexivity.
    destruct (Z.leb_spec m tm); cbn; f_equal; lia.
  Qed.

  Lemma history_place d m ops s :
    dl_history O p d m ops s ->
    dl_inv O s /\ vlen (dl_memory s) = max_after m ops + 1 /\ dl_write s = write_after m ops.
  Proof.
    intros Hh. destruct (history_timed d m ops s Hh) as [Hi [H1 [H2 _]]]. split; [exact Hi|].
    unfold max_after, write_after.
    change (m, 0) with (t_max (Timing m 0 (Z.min d m) (Z.min d m)), t_write (Timing m 0 (Z.min d m) (Z.min d m))).
    rewrite timing_place. cbn [fst snd]. auto.
  Qed.
End Place.

(** C11, in full: after any history, growths included, the maximum delay, the
    reported delay and the latency the line really has are those that
    [timing_after] computes from the calls: processing [xs] returns as many stored
    values as the latency, then [xs]. *)
Lemma C11_latency_thm :
  forall (T : Type) (O : num_ops T) (p : profile) (d m : Z) (ops : list (dl_op Z T))
         (s : delay T) (xs : list T),
    1 <= n_size_of O -> dl_history O p d m ops s ->
    let t := timing_after d m ops in
    delay_get_max_delay p s = Ok (t_max t)
    /\ delay_get_delay s = t_reported t
    /\ exists s1 before,
         dl_run O p s (map DProcess xs)
           = Ok (s1, map OSample (firstn (length xs) (before ++ xs)))
         /\ Z.of_nat (length before) = t_latency t.
Proof.
  intros T O p d m ops s xs Hs Hh t.
  destruct (history_timed O p Hs d m ops s Hh) as [Hi [H1 [H2 [H3 H4]]]]. fold t in H1, H2, H3, H4.
  split; [rewrite (get_max_ok O p s Hs Hi), H1; f_equal; lia|]. split; [exact H3|].
  destruct (process_run O p Hs s xs Hi) as [s1 [E1 _]].
  exists s1. eexists. split; [exact E1|].
  rewrite rev_length, firstn_length, hist_len. pose proof (lag_lt O s Hi). unfold vlen in *. lia.
Qed.
(*@PROP
(* three growths, one of them audible: the latency becomes 2 + 3 = 5 although the
   line reports 2; the later growth finds the write position before the latency and
   adds two more *)
Example C11_latency_hyps (a b c : f64) :
  let ops := [DProcess a; DSetMaxDelay 6; DProcess b; DSetMaxDelay 5; DSetMaxDelay 8] in
  (exists s, dl_history O64 Debug 2 3 ops s)
  /\ timing_after 2 3 ops = Timing 8 2 2 7
  /\ max_after 3 ops = 8 /\ write_after 3 ops = 2.
Proof. split; [eexists; history|]. repeat split; reflexivity. Qed.
@*)

(** C11: growth with the write position at or past the delay is inaudible. *)
Lemma C11_growth_in_phase_thm :
  forall (T : Type) (O : num_ops T) (p : profile) (d m : Z) (ops : list (dl_op Z T))
         (s : delay T) (m' : Z) (xs : list T),
    1 <= n_size_of O -> dl_history O p d m ops s -> timing_trusted ops ->
    is_usize m' -> fits O m' ->
    delay_get_delay s <= write_after m ops ->
    exists s1 s2 os,
      dl_run O p s (map DProcess xs) = Ok (s1, os)
      /\ dl_run O p s (DSetMaxDelay m' :: map DProcess xs) = Ok (s2, ONone :: os).
Proof.
  intros T O p d m ops s m' xs Hs Hh Htr Hu Hf Hph. apply fits_iff in Hf; [|assumption].
  destruct (history_trusted O p Hs d m ops s Hh Htr) as [Hi HL].
  destruct (history_place O p Hs d m ops s Hh) as [_ [Hlen Hw]].
  destruct (process_run O p Hs s xs Hi) as [s1 [E1 _]].
  unfold delay_get_delay in Hph.
  destruct (Z.ltb_spec m' (vlen (dl_memory s))).
  - exists s1, s1. eexists. split; [exact E1|].
    cbn [dl_run dl_step]. unfold delay_set_max_delay.
    replace (m' <? vlen (dl_memory s)) with true by lia. cbn [bind]. rewrite E1. reflexivity.
  - destruct (refine_grow O p Hs s m' Hi Hu) as [s' [E [Hi' Hab]]]; [lia|lia|].
    destruct (process_run O p Hs s' xs Hi') as [s2 [E2 _]].
    exists s1, s2. eexists. split; [exact E1|].
    cbn [dl_run dl_step]. rewrite E. cbn [bind]. rewrite E2. cbn [bind].
    do 2 f_equal. f_equal.
    pose proof (grow_lag O s s' _ Hi Hi' Hab) as HG. replace (dl_lag s <=? dl_write s) with true in HG by lia.
    rewrite HG, Hab. unfold line_grow; cbn [l_hist].
    do 4 f_equal. destruct Hi. pose proof (hist_len s).
    apply firstn_firstn_app; unfold dl_abs; cbn [l_phase]; fold (dl_abs s);
      unfold vlen in *; lia.
Qed.
(*@PROP
Example C11_growth_in_phase_hyps (a b c : f64) :
  let ops := (ex_ops a b c) ++ [DSetMaxDelay 5; DSetDelay 1] in
  exists s, dl_history O64 Debug 2 3 ops s
    /\ timing_trusted ops /\ fits O64 10 /\ delay_get_delay s <= write_after 3 ops.
Proof. eexists. split; [history|]. split; [reflexivity|]. split; easy. Qed.
@*)

(** C11: growth with the write position before the delay lengthens the real
    latency by the growth, although [get_delay] still reports the old one. *)
Lemma C11_growth_out_of_phase_refuted_thm :
  forall (T : Type) (O : num_ops T) (p : profile) (d m : Z) (ops : list (dl_op Z T))
         (s : delay T) (m' : Z) (xs : list T),
    1 <= n_size_of O -> dl_history O p d m ops s -> timing_trusted ops ->
    is_usize m' -> fits O m' -> max_after m ops < m' ->
    write_after m ops < delay_get_delay s ->
    exists s1 s2 before after,
      dl_run O p s (map DProcess xs)
        = Ok (s1, map OSample (firstn (length xs) (before ++ xs)))
      /\ Z.of_nat (length before) = delay_get_delay s
      /\ dl_run O p s (DSetMaxDelay m' :: map DProcess xs)
        = Ok (s2, ONone :: map OSample (firstn (length xs) (after ++ xs)))
      /\ Z.of_nat (length after) = delay_get_delay s + (m' - max_after m ops)
      /\ delay_get_delay s2 = delay_get_delay s.
Proof.
  intros T O p d m ops s m' xs Hs Hh Htr Hu Hf Hgt Hph. apply fits_iff in Hf; [|assumption].
  destruct (history_trusted O p Hs d m ops s Hh Htr) as [Hi HL].
  destruct (history_place O p Hs d m ops s Hh) as [_ [Hlen Hw]].
  destruct (process_run O p Hs s xs Hi) as [s1 [E1 _]].
  unfold delay_get_delay in *.
  destruct (refine_grow O p Hs s m' Hi Hu) as [s' [E [Hi' Hab]]]; [lia|lia|].
  destruct (process_run O p Hs s' xs Hi') as [s2 [E2 [_ [_ [_ [Hd2 _]]]]]].
  pose proof (grow_lag O s s' _ Hi Hi' Hab) as HG. replace (dl_lag s <=? dl_write s) with false in HG by lia.
  pose proof (lag_lt O s Hi). pose proof (lag_lt O s' Hi').
  exists s1, s2. do 2 eexists. split; [exact E1|]. split; [|split; [|split]].
  - rewrite rev_length, firstn_length, hist_len. unfold vlen in *. lia.
  - cbn [dl_run dl_step]. rewrite E. cbn [bind]. rewrite E2. reflexivity.
  - rewrite rev_length, firstn_length, hist_len. unfold vlen in *. lia.
  - rewrite Hd2. apply (f_equal l_delay) in Hab. unfold dl_abs, line_grow in Hab; cbn [l_delay] in Hab.
    destruct Hi, Hi'. lia.
Qed.
(*@PROP
Example C11_growth_out_of_phase_refuted_hyps (a b c : f64) :
  let ops := (ex_ops a b c) ++ [DSetMaxDelay 5; DSetDelay 3] in
  exists s, dl_history O64 Debug 2 3 ops s
    /\ timing_trusted ops /\ fits O64 10 /\ max_after 3 ops < 10 /\ write_after 3 ops < delay_get_delay s.
Proof. eexists. split; [history|]. split; [reflexivity|]. repeat split; easy. Qed.
@*)

(** C11: [set_delay] makes the latency equal to [get_delay()] again, after any
    history. *)
Lemma C11_set_delay_restores_thm :
  forall (T : Type) (O : num_ops T) (p : profile) (d m : Z) (ops : list (dl_op Z T))
         (s : delay T) (d' : Z) (xs : list T),
    1 <= n_size_of O -> dl_history O p d m ops s -> is_usize d' ->
    exists s1 s2 before,
      delay_set_delay p s d' = Ok s1
      /\ dl_run O p s1 (map DProcess xs)
         = Ok (s2, map OSample (firstn (length xs) (before ++ xs)))
      /\ Z.of_nat (length before) = delay_get_delay s1.
Proof.
  intros T O p d m ops s d' xs Hs Hh Hu.
  destruct (history_sane O p Hs d m ops s Hh) as [Hi _].
  destruct (refine_set_delay O p Hs s d' Hi Hu) as [s1 [E [Hi1 Hab]]].
  destruct (process_run O p Hs s1 xs Hi1) as [s2 [E2 _]].
  exists s1, s2. eexists. split; [exact E|]. split; [exact E2|].
  rewrite rev_length, firstn_length, hist_len. pose proof (lag_lt O s1 Hi1).
  unfold delay_get_delay. unfold line_set_delay in Hab. unfold dl_abs in Hab at 1. inversion Hab.
  unfold dl_lag in *. destruct Hi1. unfold vlen in *. lia.
Qed.
(*@PROP
Example C11_set_delay_restores_hyps (a b c : f64) :
  exists s, dl_history O64 Debug 2 3 (ex_ops a b c) s.
Proof. eexists. history. Qed.
@*)

(** C12: with [get_delay() >= 1], [next_out()] is what the next [process]
    returns, for every sample and after any history (growth included). *)
Lemma C12_next_out_predicts_thm :
  forall (T : Type) (O : num_ops T) (p : profile) (d m : Z) (ops : list (dl_op Z T)) (s : delay T),
    1 <= n_size_of O -> dl_history O p d m ops s -> 1 <= delay_get_delay s ->
    exists y, delay_next_out s = Ok y
      /\ forall x, exists s', delay_process p s x = Ok (s', y).
Proof.
  intros T O p d m ops s Hs Hh H1.
  destruct (history_sane O p Hs d m ops s Hh) as [Hi [Hle _]]. unfold delay_get_delay in H1.
  pose proof (lag_lt O s Hi).
  eexists. split; [apply (refine_next O s Hi)|].
  intros x. destruct (process_out O p Hs s x Hi) as [s' E]. exists s'. rewrite E.
  do 2 f_equal. unfold line_next. unfold dl_abs at 2; cbn [l_lag]. fold (dl_lag s).
  rewrite nth_push by (rewrite hist_len; unfold vlen in *; lia).
  destruct (Z.to_nat (dl_lag s)) eqn:E0; [lia|reflexivity].
Qed.
(*@PROP
Example C12_next_out_predicts_hyps (a b c : f64) :
  exists s, dl_history O64 Debug 2 3 (ex_ops a b c) s /\ 1 <= delay_get_delay s.
Proof. eexists. split; [history|]. easy. Qed.
@*)

(** C12: with [get_delay() = 0], [process(x)] returns [x], while [next_out()] is
    the oldest value on the line: the prediction is wrong for every other [x]. *)
Lemma C12_next_out_zero_delay_refuted_thm :
  forall (T : Type) (O : num_ops T) (p : profile) (d m : Z) (ops : list (dl_op Z T)) (s : delay T),
    1 <= n_size_of O -> dl_history O p d m ops s -> delay_get_delay s = 0 ->
    exists y mx, delay_get_max_delay p s = Ok mx
      /\ delay_next_out s = Ok y /\ delay_tap_out p s mx = Ok y
      /\ forall x, exists s', delay_process p s x = Ok (s', x).
Proof.
  intros T O p d m ops s Hs Hh H1.
  destruct (history_sane O p Hs d m ops s Hh) as [Hi [_ H0]]. unfold delay_get_delay in H1.
  specialize (H0 H1).
  eexists _, _. split; [apply (get_max_ok O p s Hs Hi)|].
  split; [apply (refine_next O s Hi)|]. split.
  - rewrite (refine_tap_out O p Hs s) by (auto; destruct Hi; lia). f_equal.
    unfold line_next. unfold dl_abs at 2; cbn [l_lag]. fold (dl_lag s). rewrite H0. cbn [Z.to_nat].
    f_equal. rewrite dl_abs_slots. unfold vlen. lia.
  - intros x. destruct (process_out O p Hs s x Hi) as [s' E]. exists s'. rewrite E, H0. reflexivity.
Qed.
(*@PROP
Example C12_next_out_zero_delay_refuted_hyps (a b c : f64) :
  exists s, dl_history O64 Debug 2 3 ((ex_ops a b c) ++ [DSetDelay 0]) s /\ delay_get_delay s = 0.
Proof. eexists. split; [history|]. reflexivity. Qed.
@*)

(** C13: [process(x)] makes [x] the newest tap and shifts the others by one. *)
Lemma C13_process_shifts_taps_thm :
  forall (T : Type) (O : num_ops T) (p : profile) (d m : Z) (ops : list (dl_op Z T))
         (s s' : delay T) (x y : T),
    1 <= n_size_of O -> dl_history O p d m ops s -> delay_process p s x = Ok (s', y) ->
    delay_tap_out p s' 0 = Ok x
    /\ exists mx, delay_get_max_delay p s = Ok mx
       /\ forall t, 0 <= t < mx -> delay_tap_out p s' (t + 1) = delay_tap_out p s t.
Proof.
  intros T O p d m ops s s' x y Hs Hh E.
  destruct (history_sane O p Hs d m ops s Hh) as [Hi _].
  destruct (refine_process O p Hs s x Hi) as [s1 [E1 [Hi1 Hab]]].
  rewrite E in E1. inversion E1; subst. clear E1.
  apply (f_equal l_hist) in Hab. unfold line_process in Hab; cbn [fst l_hist] in Hab.
  assert (HL : vlen (dl_memory s1) = vlen (dl_memory s)).
  { apply (f_equal (@length T)) in Hab. rewrite hist_len, push_length, hist_len in Hab;
      [unfold vlen; lia|rewrite hist_len; destruct Hi; unfold vlen in *; lia]. }
  split.
  - rewrite (refine_tap_out O p Hs s1) by (auto; destruct Hi1; lia). rewrite Hab. reflexivity.
  - exists (vlen (dl_memory s) - 1). split; [apply (get_max_ok O p s Hs Hi)|].
    intros t Ht. rewrite (refine_tap_out O p Hs s1) by (auto; lia).
    rewrite (refine_tap_out O p Hs s) by (auto; lia). rewrite Hab.
    rewrite nth_push by (rewrite hist_len; unfold vlen in *; lia).
    replace (Z.to_nat (t + 1)) with (S (Z.to_nat t)) by lia. reflexivity.
Qed.
(*@PROP
Example C13_process_shifts_taps_hyps (a b c : f64) :
  exists s s' y, dl_history O64 Debug 2 3 (ex_ops a b c) s /\ delay_process Debug s a = Ok (s', y).
Proof. do 3 eexists. split; [history|]. vm_compute; reflexivity. Qed.
@*)

(** C13: after processing [xs], [tap_out(t)] is the sample [t + 1] calls ago, or
    zero. *)
Lemma C13_tap_out_reads_back_thm :
  forall (T : Type) (O : num_ops T) (p : profile) (d m : Z) (xs : list T) (s : delay T) (t : Z),
    1 <= n_size_of O -> dl_history O p d m (map DProcess xs) s -> 0 <= t <= m ->
    delay_tap_out p s t = Ok (nth (Z.to_nat t) (rev xs) (n_zero O)).
Proof.
  intros T O p d m xs s t Hs Hh Ht.
  destruct Hh as [Hd [Hm [Hne [Ha [os E]]]]]. unfold dl_session in E.
  apply bind_Ok in E. destruct E as [s0 [E0 E]].
  destruct (new_ok_inv O p Hs d m s0 Hd Hm Hne E0) as [Hms [Hi0 Hab]].
  destruct (process_run O p Hs s0 xs Hi0) as [s1 [E1 [Hi1 [Hh _]]]].
  rewrite E in E1. inversion E1; subst. clear E1.
  rewrite Hab in Hh. unfold line_new in Hh; cbn [l_hist] in Hh.
  assert (HL0 : length (dl_memory s0) = S (Z.to_nat m)).
  { rewrite <- hist_len, Hab. unfold line_new; cbn [l_hist]. apply repeat_length. }
  assert (HL : length (dl_memory s1) = S (Z.to_nat m)).
  { rewrite <- hist_len, Hh, firstn_length, app_length, repeat_length, HL0. lia. }
  rewrite (refine_tap_out O p Hs s1) by (auto; unfold vlen; lia).
  f_equal. rewrite Hh, HL0. set (n := Z.to_nat t).
  assert (Hn : (n < S (Z.to_nat m))%nat) by lia.
  transitivity (nth n (rev xs ++ repeat (n_zero O) (S (Z.to_nat m))) (n_zero O)).
  - rewrite <- (firstn_skipn (S (Z.to_nat m)) (rev xs ++ repeat (n_zero O) (S (Z.to_nat m)))) at 2.
    rewrite app_nth1; [reflexivity|]. rewrite firstn_length, app_length, repeat_length. lia.
  - destruct (Nat.ltb_spec n (length (rev xs))).
    + apply app_nth1. assumption.
    + rewrite app_nth2 by assumption. rewrite (nth_overflow (rev xs)) by assumption.
      apply nth_repeat.
Qed.
(*@PROP
Example C13_tap_out_reads_back_hyps (a b c : f64) :
  exists s, dl_history O64 Debug 2 3 (map DProcess [a; b; c; b; a]) s.
Proof. eexists. history. Qed.
@*)

(** C14: [tap_in] edits exactly one position. *)
Lemma C14_tap_in_edits_one_thm :
  forall (T : Type) (O : num_ops T) (p : profile) (d m : Z) (ops : list (dl_op Z T))
         (s : delay T) (mx t : Z) (v : T),
    1 <= n_size_of O -> dl_history O p d m ops s ->
    delay_get_max_delay p s = Ok mx -> 0 <= t <= mx ->
    exists s', delay_tap_in p s v t = Ok s'
      /\ delay_tap_out p s' t = Ok v
      /\ (forall u, 0 <= u <= mx -> u <> t -> delay_tap_out p s' u = delay_tap_out p s u)
      /\ delay_get_max_delay p s' = Ok mx
      /\ delay_get_delay s' = delay_get_delay s
      /\ delay_last_out s' = delay_last_out s.
Proof.
  intros T O p d m ops s mx t v Hs Hh Hmx Ht.
  destruct (history_sane O p Hs d m ops s Hh) as [Hi _].
  rewrite (get_max_ok O p s Hs Hi) in Hmx. inversion Hmx; subst mx. clear Hmx.
  destruct (refine_tap_in O p Hs s v t Hi) as [s' [E [Hi' Hab]]]; [lia|].
  exists s'. split; [exact E|].
  destruct (tap_in_frame p s v t s' E) as [i [_ Hfr]].
  assert (HL : vlen (dl_memory s') = vlen (dl_memory s)).
  { rewrite Hfr; cbn [dl_memory]. apply list_set_vlen. }
  apply (f_equal l_hist) in Hab. unfold line_put in Hab; cbn [l_hist] in Hab.
  rewrite (refine_tap_out O p Hs s') by (auto; lia). rewrite Hab.
  rewrite nth_put by (rewrite hist_len; unfold vlen in *; lia). rewrite Nat.eqb_refl.
  split; [reflexivity|]. split.
  { intros u Hu Hne. rewrite (refine_tap_out O p Hs s') by (auto; lia).
    rewrite (refine_tap_out O p Hs s) by (auto; lia). rewrite Hab.
    rewrite nth_put by (rewrite hist_len; unfold vlen in *; lia).
    replace (Z.to_nat u =? Z.to_nat t)%nat with false by lia. reflexivity. }
  rewrite (get_max_ok O p s' Hs Hi'), HL. rewrite Hfr. auto.
Qed.
(*@PROP
Example C14_tap_in_edits_one_hyps (a b c : f64) :
  exists s, dl_history O64 Debug 2 3 (ex_ops a b c) s /\ delay_get_max_delay Debug s = Ok 3.
Proof. eexists. split; [history|]. reflexivity. Qed.
@*)

(** C14: [add_to] adds to exactly one position and returns the sum. *)
Lemma C14_add_to_edits_one_thm :
  forall (T : Type) (O : num_ops T) (p : profile) (d m : Z) (ops : list (dl_op Z T))
         (s : delay T) (mx t : Z) (v : T),
    1 <= n_size_of O -> dl_history O p d m ops s ->
    delay_get_max_delay p s = Ok mx -> 0 <= t <= mx ->
    exists s' old, delay_tap_out p s t = Ok old
      /\ delay_add_to O p s v t = Ok (s', n_add O old v)
      /\ delay_tap_out p s' t = Ok (n_add O old v)
      /\ (forall u, 0 <= u <= mx -> u <> t -> delay_tap_out p s' u = delay_tap_out p s u)
      /\ delay_get_max_delay p s' = Ok mx
      /\ delay_get_delay s' = delay_get_delay s
      /\ delay_last_out s' = delay_last_out s.
Proof.
  intros T O p d m ops s mx t v Hs Hh Hmx Ht.
  destruct (history_sane O p Hs d m ops s Hh) as [Hi _].
  rewrite (get_max_ok O p s Hs Hi) in Hmx. inversion Hmx; subst mx. clear Hmx.
  destruct (refine_add_to O p Hs s v t Hi) as [s' [E [Hi' Hab]]]; [lia|].
  eexists s', _. split; [apply (refine_tap_out O p Hs s); auto; lia|]. split; [exact E|].
  destruct (add_to_frame O p s v t s' _ E) as [i [x [_ Hfr]]].
  assert (HL : vlen (dl_memory s') = vlen (dl_memory s)).
  { rewrite Hfr; cbn [dl_memory]. apply list_set_vlen. }
  apply (f_equal l_hist) in Hab. unfold line_put in Hab; cbn [l_hist] in Hab.
  rewrite (refine_tap_out O p Hs s') by (auto; lia). rewrite Hab at 1.
  rewrite nth_put by (rewrite hist_len; unfold vlen in *; lia). rewrite Nat.eqb_refl.
  split; [reflexivity|]. split.
  { intros u Hu Hne. rewrite (refine_tap_out O p Hs s') by (auto; lia).
    rewrite (refine_tap_out O p Hs s) by (auto; lia). rewrite Hab.
    rewrite nth_put by (rewrite hist_len; unfold vlen in *; lia).
    replace (Z.to_nat u =? Z.to_nat t)%nat with false by lia. reflexivity. }
  rewrite (get_max_ok O p s' Hs Hi'), HL. rewrite Hfr. auto.
Qed.
(*@PROP
Example C14_add_to_edits_one_hyps (a b c : f64) :
  exists s, dl_history O64 Debug 2 3 (ex_ops a b c) s /\ delay_get_max_delay Debug s = Ok 3.
Proof. eexists. split; [history|]. reflexivity. Qed.
@*)

(** C15: a value tapped in [t] positions back comes out after [get_delay() - t]
    further samples, whatever they are. *)
Lemma C15_tapped_value_emerges_thm :
  forall (T : Type) (O : num_ops T) (p : profile) (d m : Z) (ops : list (dl_op Z T))
         (s s1 : delay T) (t : Z) (v x : T) (xs : list T),
    1 <= n_size_of O -> dl_history O p d m ops s -> timing_trusted ops ->
    0 <= t < delay_get_delay s -> delay_tap_in p s v t = Ok s1 ->
    Z.of_nat (length xs) = delay_get_delay s - t - 1 ->
    exists s2 os s3, dl_run O p s1 (map DProcess xs) = Ok (s2, os)
      /\ delay_process p s2 x = Ok (s3, v).
Proof.
  intros T O p d m ops s s1 t v x xs Hs Hh Htr Ht E HL.
  destruct (history_trusted O p Hs d m ops s Hh Htr) as [Hi Hlag].
  pose proof (lag_lt O s Hi) as Hlt. unfold delay_get_delay in *.
  destruct (refine_tap_in O p Hs s v t Hi) as [s' [E' [Hi1 Hab]]]; [lia|].
  rewrite E in E'. inversion E'; subst s'. clear E'.
  destruct (tap_in_frame p s v t s1 E) as [i [_ Hfr]].
  assert (Hm1 : length (dl_memory s1) = length (dl_memory s)).
  { rewrite Hfr; cbn [dl_memory]. apply list_set_length. }
  assert (Hlag1 : dl_lag s1 = dl_lag s).
  { unfold dl_lag, vlen. rewrite Hm1. rewrite Hfr. reflexivity. }
  destruct (process_run O p Hs s1 xs Hi1) as [s2 [E2 [Hi2 [Hh2 [Hl2 _]]]]].
  destruct (process_out O p Hs s2 x Hi2) as [s3 E3].
  exists s2. eexists. exists s3. split; [exact E2|]. rewrite E3. do 2 f_equal.
  rewrite Hl2, Hlag1, Hlag.
  rewrite nth_push.
  2:{ rewrite Hh2, firstn_length, app_length, hist_len. unfold vlen in *. lia. }
  replace (Z.to_nat (dl_delay s)) with (S (length (rev xs) + Z.to_nat t)) by (rewrite rev_length; lia).
  rewrite Hh2.
  transitivity (nth (length (rev xs) + Z.to_nat t) (rev xs ++ l_hist (dl_abs s1)) (n_zero O)).
  - rewrite <- (firstn_skipn (length (dl_memory s1)) (rev xs ++ l_hist (dl_abs s1))) at 2.
    rewrite app_nth1; [reflexivity|].
    rewrite firstn_length, app_length, hist_len, rev_length. unfold vlen in *. lia.
  - rewrite app_nth2_plus. rewrite Hab. unfold line_put; cbn [l_hist].
    rewrite nth_put by (rewrite hist_len; unfold vlen in *; lia).
    rewrite Nat.eqb_refl. reflexivity.
Qed.
(*@PROP
Example C15_tapped_value_emerges_hyps (a b c : f64) :
  let ops := (ex_ops a b c) ++ [DSetDelay 3] in
  exists s s1, dl_history O64 Debug 2 3 ops s /\ timing_trusted ops
    /\ 1 < delay_get_delay s /\ delay_tap_in Debug s a 1 = Ok s1
    /\ Z.of_nat (length [a]) = delay_get_delay s - 1 - 1.
Proof.
  do 2 eexists. split; [history|]. split; [reflexivity|]. split; [easy|].
  split; vm_compute; reflexivity.
Qed.
@*)

Lemma tap_index_alias p w m t :
  0 <= w <= m -> m + 1 < two63 -> m < t <= m + w -> t < two63 ->
  tap_index p w (m + 1) t = tap_index p w (m + 1) (t - m - 1).
Proof.
  intros Hw Hm Ht Ht63. unfold tap_index.
  rewrite !as_isize_small by (unfold two63 in *; lia).
  unfold isub, iadd. rewrite !chk_isize_ok by (unfold two63 in *; lia). cbn [bind].
  rewrite !chk_isize_ok by (unfold two63 in *; lia). cbn [bind].
  replace (w - t - 1 <? 0) with true by lia.
  replace (w - (t - m - 1) - 1 <? 0) with false by lia. 
  rewrite !chk_isize_ok by (unfold two63 in *; lia). cbn [bind]. do 2 f_equal. lia.
Qed.

Lemma tap_index_beyond p w m t :
  0 <= w <= m -> m + 1 < two63 -> m + w < t < two63 ->
  exists i, tap_index p w (m + 1) t = Ok i /\ m + 1 <= i.
Proof.
  intros Hw Hm Ht. unfold tap_index.
  rewrite !as_isize_small by (unfold two63 in *; lia).
  unfold isub, iadd. rewrite !chk_isize_ok by (unfold two63 in *; lia). cbn [bind].
  rewrite !chk_isize_ok by (unfold two63 in *; lia). cbn [bind].
  replace (w - t - 1 <? 0) with true by lia.
  rewrite !chk_isize_ok by (unfold two63 in *; lia). cbn [bind].
  eexists. split; [reflexivity|]. unfold as_usize.
  replace (w - t - 1 + (m + 1)) with (w - t + m + two64 + (-1) * two64) by lia.
  rewrite Z.mod_add by (unfold two64; lia).
  rewrite Z.mod_small by (unfold two63, two64 in *; lia). unfold two63, two64 in *; lia.
Qed.

Lemma as_isize_high t : two63 <= t < two64 -> as_isize t = t - two64.
Proof.
  intros H. unfold as_isize.
  replace (t + two63) with (t - two63 + 1 * two64) by (unfold two63, two64; lia).
  rewrite Z.mod_add by (unfold two64; lia).
  rewrite Z.mod_small by (unfold two63, two64 in *; lia). unfold two63, two64; lia.
Qed.

Lemma tap_index_high_alias p w m t :
  0 <= w <= m -> m + 1 < two63 -> two63 <= t < two64 -> w + (two64 - t) <= m + 1 ->
  tap_index p w (m + 1) t = tap_index p w (m + 1) (m + 1 - (two64 - t)).
Proof.
  intros Hw Hm Ht Hk. unfold tap_index.
  rewrite (as_isize_high t) by lia.
  rewrite !as_isize_small by (unfold two63, two64 in *; lia).
  unfold isub, iadd. rewrite !chk_isize_ok by (unfold two63, two64 in *; lia). cbn [bind].
  rewrite !chk_isize_ok by (unfold two63, two64 in *; lia). cbn [bind].
  replace (w - (t - two64) - 1 <? 0) with false by lia.
  replace (w - (m + 1 - (two64 - t)) - 1 <? 0) with true by lia.
  rewrite !chk_isize_ok by (unfold two63, two64 in *; lia). cbn [bind]. do 2 f_equal. lia.
Qed.

Lemma as_isize_over z : two63 <= z < two63 + two64 -> as_isize z = z - two64.
Proof.
  intros H. unfold as_isize.
  replace (z + two63) with (z - two63 + 1 * two64) by (unfold two63, two64; lia).
  rewrite Z.mod_add by (unfold two64; lia).
  rewrite Z.mod_small by (unfold two63, two64 in *; lia). unfold two63, two64; lia.
Qed.

Lemma tap_index_high_beyond p w m t :
  0 <= w <= m -> 2 * (m + 1) < two63 -> two63 <= t < two64 -> m + 1 < w + (two64 - t) ->
  tap_index p w (m + 1) t = Panic \/ exists i, tap_index p w (m + 1) t = Ok i /\ m + 1 <= i.
Proof.
  intros Hw Hm Ht Hk.
  enough (HE : forall r, tap_index p w (m + 1) t = r -> r = Panic \/ exists i, r = Ok i /\ m + 1 <= i)
    by (apply HE; reflexivity).
  intros r E. unfold tap_index in E.
  rewrite (as_isize_high t) in E by lia.
  rewrite !as_isize_small in E by (unfold two63, two64 in *; lia).
  set (z := w - (t - two64)) in *.
  assert (Hz : m + 1 < z <= m + two63) by (unfold z, two63, two64 in *; lia).
  unfold isub in E. unfold chk_isize at 1 in E. fold z in E.
  destruct (Z.ltb_spec z two63).
  - replace (- two63 <=? z) with true in E by (unfold two63 in *; lia). cbn [andb bind] in E.
    rewrite chk_isize_ok in E by (unfold two63 in *; lia). cbn [bind] in E.
    replace (z - 1 <? 0) with false in E by lia. cbn [bind] in E. subst r.
    right. eexists; split; [reflexivity|].
    rewrite as_usize_small by (unfold two63, two64 in *; lia). lia.
  - rewrite andb_false_r in E.
    destruct p; [left; subst r; reflexivity|]. cbn [bind] in E.
    rewrite as_isize_over in E by (unfold two63, two64 in *; lia).
    unfold chk_isize at 1 in E.
    destruct (Z.leb_spec (- two63) (z - two64 - 1)).
    + replace (z - two64 - 1 <? two63) with true in E by (unfold two63, two64 in *; lia).
      cbn [andb bind] in E.
      replace (z - two64 - 1 <? 0) with true in E by (unfold two63, two64 in *; lia).
      unfold iadd in E. rewrite chk_isize_ok in E by (unfold two63, two64 in *; lia). cbn [bind] in E.
      subst r. right. eexists; split; [reflexivity|]. unfold as_usize.
      replace (z - two64 - 1 + (m + 1)) with (z + m + (-1) * two64) by lia.
      rewrite Z.mod_add by (unfold two64; lia).
      rewrite Z.mod_small by (unfold two63, two64 in *; lia). lia.
    + cbn [andb bind] in E. unfold as_isize in E.
      replace (z - two64 - 1 + two63) with (z - 1 + two63 + (-1) * two64) in E by lia.
      rewrite Z.mod_add in E by (unfold two64; lia).
      rewrite Z.mod_small in E by (unfold two63, two64 in *; lia).
      replace (z - 1 + two63 - two63 <? 0) with false in E by (unfold two63, two64 in *; lia).
      cbn [bind] in E. subst r.
      right. eexists; split; [reflexivity|].
      rewrite as_usize_small by (unfold two63, two64 in *; lia). lia.
Qed.

Section TapCong.
  Context {T : Type} (O : num_ops T) (p : profile) (s : delay T).

  (** A tap argument acts as another one. *)
  Definition same_tap (t t' : Z) : Prop :=
    delay_tap_out p s t = delay_tap_out p s t'
    /\ (forall v, delay_tap_in p s v t = delay_tap_in p s v t')
    /\ (forall v, delay_add_to O p s v t = delay_add_to O p s v t').
  Definition tap_panics (t : Z) : Prop :=
    delay_tap_out p s t = Panic
    /\ (forall v, delay_tap_in p s v t = Panic)
    /\ (forall v, delay_add_to O p s v t = Panic).

  Lemma same_tap_index t t' :
    tap_index p (dl_write s) (vlen (dl_memory s)) t = tap_index p (dl_write s) (vlen (dl_memory s)) t' ->
    same_tap t t'.
  Proof.
    intros E. unfold same_tap, delay_tap_out, delay_tap_in, delay_add_to. rewrite E. auto.
  Qed.

  Lemma tap_panics_index t :
    (tap_index p (dl_write s) (vlen (dl_memory s)) t = Panic
     \/ exists i, tap_index p (dl_write s) (vlen (dl_memory s)) t = Ok i /\ vlen (dl_memory s) <= i) ->
    tap_panics t.
  Proof.
    intros [E|[i [E Hi]]]; unfold tap_panics, delay_tap_out, delay_tap_in, delay_add_to; rewrite E; cbn [bind].
    - auto.
    - rewrite !vget_out by lia. split; [reflexivity|]. split; [|reflexivity].
      intros v. rewrite vset_out by lia. reflexivity.
  Qed.
End TapCong.

(** C16: taps beyond the line.  After any history, with [mx] the maximum delay
    and [w] the write position, a tap beyond the maximum either acts exactly as an
    in-range tap or panics; all [usize] values are covered. *)
Lemma C16_taps_beyond_line_thm :
  forall (T : Type) (O : num_ops T) (p : profile) (d m : Z) (ops : list (dl_op Z T))
         (s : delay T) (t : Z),
    2 <= n_size_of O -> dl_history O p d m ops s -> is_usize t ->
    let mx := max_after m ops in
    let w := write_after m ops in
    mx < t ->
    (t <= mx + w ->
       delay_tap_out p s t = delay_tap_out p s (t - mx - 1)
       /\ (forall v, delay_tap_in p s v t = delay_tap_in p s v (t - mx - 1))
       /\ (forall v, delay_add_to O p s v t = delay_add_to O p s v (t - mx - 1)))
    /\ (mx + w < t < two63 ->
       delay_tap_out p s t = Panic
       /\ (forall v, delay_tap_in p s v t = Panic)
       /\ (forall v, delay_add_to O p s v t = Panic))
    /\ (two63 <= t -> w + (two64 - t) <= mx + 1 ->
       delay_tap_out p s t = delay_tap_out p s (mx + 1 - (two64 - t))
       /\ (forall v, delay_tap_in p s v t = delay_tap_in p s v (mx + 1 - (two64 - t)))
       /\ (forall v, delay_add_to O p s v t = delay_add_to O p s v (mx + 1 - (two64 - t))))
    /\ (two63 <= t -> mx + 1 < w + (two64 - t) ->
       delay_tap_out p s t = Panic
       /\ (forall v, delay_tap_in p s v t = Panic)
       /\ (forall v, delay_add_to O p s v t = Panic)).
Proof.
  intros T O p d m ops s t Hs2 Hh Hu mx w Hgt.
  assert (Hs : 1 <= n_size_of O) by lia.
  destruct (history_place O p Hs d m ops s Hh) as [Hi [Hlen Hw]]. fold mx in Hlen. fold w in Hw.
  pose proof (max_slots_lt O Hs) as Hms. unfold is_usize in Hu.
  destruct Hi.
  assert (0 <= w <= mx) by lia.
  assert (2 * (mx + 1) < two63).
  { assert (fits O mx) by (apply fits_iff; [assumption|lia]).
    unfold fits, isize_max in *. nia. }
  split; [|split; [|split]].
  - intros Ht. apply (same_tap_index O p s). rewrite Hlen, Hw. apply tap_index_alias; lia.
  - intros Ht. apply (tap_panics_index O p s). right. rewrite Hlen, Hw. apply tap_index_beyond; lia.
  - intros Ht Hk. apply (same_tap_index O p s). rewrite Hlen, Hw. apply tap_index_high_alias; lia.
  - intros Ht Hk. apply (tap_panics_index O p s). rewrite Hlen, Hw. apply tap_index_high_beyond; lia.
Qed.
(*@PROP
Example C16_taps_beyond_line_hyps (a b c : f64) :
  let ops := (ex_ops a b c) ++ [DSetMaxDelay 5; DProcess b] in
  exists s, dl_history O64 Debug 2 3 ops s /\ 2 <= n_size_of O64
    /\ max_after 3 ops = 5 /\ write_after 3 ops = 2.
Proof. eexists. split; [history|]. repeat split; easy. Qed.
@*)

(** Lines that differ only in their phase are indistinguishable while the
    length is fixed. *)
Definition same_line {T} (l1 l2 : line T) : Prop :=
  l_hist l1 = l_hist l2 /\ l_lag l1 = l_lag l2 /\ l_delay l1 = l_delay l2 /\ l_last l1 = l_last l2.

Lemma same_line_step {T} (O : num_ops T) ms l1 l2 op l1' o :
  same_line l1 l2 -> (forall m, op <> DSetMaxDelay m) ->
  line_step (n_zero O) (n_add O) ms l1 op = Some (l1', o) ->
  exists l2', line_step (n_zero O) (n_add O) ms l2 op = Some (l2', o) /\ same_line l1' l2'.
Proof.
  destruct l1 as [h1 f1 g1 d1 o1], l2 as [h2 f2 g2 d2 o2].
  unfold same_line; cbn [l_hist l_lag l_delay l_last]. intros [-> [-> [-> ->]]] Hne E.
  destruct op; cbn [line_step] in *; unfold line_process, line_clear, line_set_delay, line_put,
    line_next, slots in *; cbn [l_hist l_lag l_delay l_last l_phase] in *;
    try (inversion E; subst; eexists; split; [reflexivity|]; cbn; auto; fail).
  - exfalso. eapply Hne; reflexivity.
  - destruct (t <? _); [|discriminate]. inversion E; subst. eexists; split; [reflexivity|]; cbn; auto.
  - destruct (t <? _); [|discriminate]. inversion E; subst. eexists; split; [reflexivity|]; cbn; auto.
  - destruct (t <? _); [|discriminate]. inversion E; subst. eexists; split; [reflexivity|]; cbn; auto.
Qed.

Lemma same_line_run {T} (O : num_ops T) ms ops : forall l1 l2 l1' os,
  same_line l1 l2 -> fixed_length ops ->
  line_run (n_zero O) (n_add O) ms l1 ops = Some (l1', os) ->
  exists l2', line_run (n_zero O) (n_add O) ms l2 ops = Some (l2', os) /\ same_line l1' l2'.
Proof.
  induction ops as [|op ops IH]; intros l1 l2 l1' os HS Hf E; cbn [line_run] in *.
  - inversion E; subst. eauto.
  - inversion Hf as [|? ? Hop Hrest]; subst.
    destruct (line_step _ _ _ l1 op) as [[l3 o]|] eqn:E1; [|discriminate].
    destruct (line_run _ _ _ l3 ops) as [[l4 os4]|] eqn:E2; [|discriminate].
    inversion E; subst.
    destruct (same_line_step O ms l1 l2 op l3 o HS Hop E1) as [l3' [E3 HS3]]. rewrite E3.
    destruct (IH l3 l3' l1' os4 HS3 Hrest E2) as [l4' [E4 HS4]]. rewrite E4. eauto.
Qed.

(** C17: [clear] empties the line and keeps the settings. *)
Lemma C17_clear_empties_line_thm :
  forall (T : Type) (O : num_ops T) (p : profile) (d m : Z) (ops : list (dl_op Z T)) (s : delay T),
    1 <= n_size_of O -> dl_history O p d m ops s ->
    exists mx, delay_get_max_delay p s = Ok mx
      /\ delay_get_max_delay p (delay_clear O s) = Ok mx
      /\ delay_get_delay (delay_clear O s) = delay_get_delay s
      /\ delay_last_out (delay_clear O s) = n_zero O
      /\ (forall t, 0 <= t <= mx -> delay_tap_out p (delay_clear O s) t = Ok (n_zero O)).
Proof.
  intros T O p d m ops s Hs Hh.
  destruct (history_sane O p Hs d m ops s Hh) as [Hi _].
  destruct (refine_clear O s Hi) as [Hi' Hab].
  exists (vlen (dl_memory s) - 1).
  assert (HL : vlen (dl_memory (delay_clear O s)) = vlen (dl_memory s)).
  { unfold delay_clear, vlen; cbn [dl_memory]. rewrite map_length. reflexivity. }
  rewrite (get_max_ok O p s Hs Hi), (get_max_ok O p _ Hs Hi'), HL.
  repeat split; auto.
  intros t Ht. rewrite (refine_tap_out O p Hs _) by (auto; lia).
  rewrite Hab. unfold line_clear; cbn [l_hist]. f_equal. apply nth_repeat.
Qed.
(*@PROP
Example C17_clear_empties_line_hyps (a b c : f64) :
  exists s, dl_history O64 Debug 2 3 (ex_ops a b c) s.
Proof. eexists. history. Qed.
@*)

(** C17: a cleared delay then behaves as a new one with the same settings, for
    every further call sequence that does not change the maximum length. *)
Lemma C17_clear_is_new_thm :
  forall (T : Type) (O : num_ops T) (p : profile) (d m : Z) (ops ops' : list (dl_op Z T))
         (s : delay T) (mx : Z),
    1 <= n_size_of O -> dl_history O p d m ops s -> timing_trusted ops ->
    delay_get_max_delay p s = Ok mx ->
    Forall op_usize ops' -> fixed_length ops' -> normal_use O mx ops' ->
    exists s1 s2 os,
      dl_run O p (delay_clear O s) ops' = Ok (s1, os)
      /\ dl_session O p (delay_get_delay s) mx ops' = Ok (s2, os).
Proof.
  intros T O p d m ops ops' s mx Hs Hh Htr Hmx Hu Hf Hn.
  destruct (history_trusted O p Hs d m ops s Hh Htr) as [Hi Hlag].
  pose proof (lag_lt O s Hi) as Hlt.
  rewrite (get_max_ok O p s Hs Hi) in Hmx. inversion Hmx; subst mx. clear Hmx.
  destruct (refine_clear O s Hi) as [Hi' Hab].
  pose proof (max_slots_lt O Hs) as Hms.
  destruct (refine_new O p Hs (dl_delay s) (vlen (dl_memory s) - 1)) as [s0 [E0 [Hi0 Hab0]]].
  { destruct Hi. unfold is_usize, two63, two64 in *. lia. }
  { destruct Hi. lia. }
  { destruct Hi. lia. }
  assert (HS : same_line (dl_abs (delay_clear O s)) (dl_abs s0)).
  { rewrite Hab, Hab0. unfold line_clear, line_new, same_line; cbn [l_hist l_lag l_delay l_last].
    rewrite dl_abs_slots. unfold dl_abs; cbn [l_lag l_delay]. fold (dl_lag s). rewrite Hlag.
    destruct Hi. repeat split; try lia. f_equal. unfold vlen in *. lia. }
  destruct (normal_use_line O ops' (dl_abs (delay_clear O s))) as [l' [os E]]; auto.
  { rewrite dl_abs_slots. destruct Hi'. unfold vlen in *; lia. }
  { rewrite dl_abs_slots. destruct Hi'. unfold vlen in *; lia. }
  { rewrite dl_abs_slots. unfold delay_clear; cbn [dl_memory]. rewrite map_length. exact Hn. }
  destruct (same_line_run O _ ops' _ _ _ _ HS Hf E) as [l2 [E2 _]].
  destruct (refine_run O p Hs ops' _ _ _ Hi' Hu E) as [s1 [R1 _]].
  destruct (refine_run O p Hs ops' _ _ _ Hi0 Hu E2) as [s2 [R2 _]].
  exists s1, s2, os. split; [exact R1|]. unfold dl_session, delay_get_delay. rewrite E0. exact R2.
Qed.
(*@PROP
Example C17_clear_is_new_hyps (a b c : f64) :
  let ops' := [DProcess a; DTapOut 3; DSetDelay 3; DAddTo a 0] in
  exists s, dl_history O64 Debug 2 3 (ex_ops a b c) s /\ timing_trusted (ex_ops a b c)
    /\ delay_get_max_delay Debug s = Ok 3
    /\ Forall op_usize ops' /\ fixed_length ops' /\ normal_use O64 3 ops'.
Proof.
  eexists. split; [history|]. split; [reflexivity|]. split; [reflexivity|].
  split; [repeat constructor; easy|].
  split; [repeat constructor; intros; discriminate|].
  repeat split; easy.
Qed.
@*)

Lemma chk_release z : exists r, chk_usize Release z = Ok r.
Proof. unfold chk_usize. destruct (_ && _); eauto. Qed.
Lemma chk_irelease z : exists r, chk_isize Release z = Ok r.
Proof. unfold chk_isize. destruct (_ && _); eauto. Qed.

(** A [Delay] with no slots: every access panics. *)
Lemma empty_panics {T} (O : num_ops T) (p : profile) (s : delay T) :
  dl_memory s = [] ->
  (forall x, delay_process p s x = Panic) /\ delay_next_out s = Panic
  /\ (forall t, delay_tap_out p s t = Panic) /\ (forall t v, delay_tap_in p s v t = Panic)
  /\ (forall t v, delay_add_to O p s v t = Panic).
Proof.
  intros Hm.
  assert (Hg : forall i, vget (dl_memory s) i = Panic).
  { intros i. apply vget_out. rewrite Hm. unfold vlen; cbn. lia. }
  assert (Hset : forall i x, vset (dl_memory s) i x = Panic).
  { intros i x. apply vset_out. rewrite Hm. unfold vlen; cbn. lia. }
  assert (Hti : forall t, tap_index p (dl_write s) (vlen (dl_memory s)) t <> Hang).
  { intros t. unfold tap_index, isub, iadd.
    assert (G : forall z, chk_isize p z <> Hang).
    { intros z. unfold chk_isize. destruct (_ && _), p; discriminate. }
    assert (B : forall A C (m : outcome A) (k : A -> outcome C),
              m <> Hang -> (forall a, k a <> Hang) -> bind m k <> Hang).
    { intros A C m k H1 H2. destruct m; cbn [bind]; auto; congruence. }
    apply B; [apply G|intros a]. apply B; [apply G|intros a0].
    apply B; [|discriminate]. destruct (a0 <? 0); [apply G|discriminate]. }
  split; [|split; [|split; [|split]]].
  - intros x. unfold delay_process. rewrite Hset. reflexivity.
  - apply Hg.
  - intros t. unfold delay_tap_out. specialize (Hti t).
    destruct (tap_index p _ _ t); cbn [bind]; [apply Hg|reflexivity|congruence].
  - intros t v. unfold delay_tap_in. specialize (Hti t).
    destruct (tap_index p _ _ t); cbn [bind]; [rewrite Hset; reflexivity|reflexivity|congruence].
  - intros t v. unfold delay_add_to. specialize (Hti t).
    destruct (tap_index p _ _ t); cbn [bind]; [rewrite Hg; reflexivity|reflexivity|congruence].
Qed.

(** C18: [new] with [usize::MAX] panics in debug builds; in release builds it
    succeeds and returns a line on which every access panics. *)
Lemma C18_new_usize_max_thm :
  forall (T : Type) (O : num_ops T) (d : Z),
    is_usize d ->
    delay_new O Debug d usize_max = Panic
    /\ exists s, delay_new O Release d usize_max = Ok s
       /\ (forall x, delay_process Release s x = Panic)
       /\ delay_next_out s = Panic
       /\ (forall t, delay_tap_out Release s t = Panic)
       /\ (forall t v, delay_tap_in Release s v t = Panic)
       /\ (forall t v, delay_add_to O Release s v t = Panic).
Proof.
  intros T O d Hd. split.
  - unfold delay_new. replace (uadd Debug usize_max 1) with (@Panic Z) by reflexivity. reflexivity.
  - unfold delay_new. replace (uadd Release usize_max 1) with (Ok 0) by reflexivity. cbn [bind].
    unfold vec_repeat. unfold alloc_ok. rewrite Z.mul_0_l.
    replace (0 <=? isize_max) with true by reflexivity. cbn [bind Z.to_nat repeat].
    unfold delay_set_delay. cbn [dl_memory dl_write dl_output].
    replace (usub Release (vlen (@nil T)) 1) with (Ok usize_max) by reflexivity. cbn [bind].
    set (d1 := if usize_max <? d then usize_max else d).
    set (d2 := if usize_max <? d1 then usize_max else d1).
    assert (Hr : exists r, (if d2 <=? 0 then usub Release 0 d2
      else let* t := uadd Release (vlen (@nil T)) 0 in usub Release t d2) = Ok r).
    { unfold usub, uadd. destruct (d2 <=? 0); [apply chk_release|].
      destruct (chk_release (vlen (@nil T) + 0)) as [r ->]. cbn [bind]. apply chk_release. }
    destruct Hr as [r ->]. cbn [bind]. eexists; split; [reflexivity|].
    apply empty_panics. reflexivity.
Qed.

(** C18: any other unallocatable length panics in [new], in every profile. *)
Lemma C18_new_too_large_thm :
  forall (T : Type) (O : num_ops T) (p : profile) (d m : Z),
    is_usize m -> m <> usize_max -> ~ fits O m -> delay_new O p d m = Panic.
Proof.
  intros T O p d m Hm Hne Hf. unfold delay_new, is_usize, usize_max in *.
  unfold uadd. rewrite chk_usize_ok by lia. cbn [bind].
  unfold vec_repeat, alloc_ok. unfold fits in Hf.
  replace ((m + 1) * n_size_of O <=? isize_max) with false by lia. reflexivity.
Qed.
(*@PROP
Example C18_new_too_large_hyps :
  is_usize (usize_max - 1) /\ usize_max - 1 <> usize_max /\ ~ fits O64 (usize_max - 1).
Proof. repeat split; easy. Qed.
@*)

(** C18: [set_max_delay(usize::MAX)] panics in debug builds; in release builds
    it discards the whole line and leaves it unusable, after any history. *)
Lemma C18_set_max_delay_usize_max_thm :
  forall (T : Type) (O : num_ops T) (d m : Z) (ops : list (dl_op Z T)) (s : delay T),
    1 <= n_size_of O ->
    (dl_history O Debug d m ops s -> delay_set_max_delay O Debug s usize_max = Panic)
    /\ (dl_history O Release d m ops s ->
        exists s', delay_set_max_delay O Release s usize_max = Ok s'
          /\ (forall x, delay_process Release s' x = Panic)
          /\ delay_next_out s' = Panic
          /\ (forall t, delay_tap_out Release s' t = Panic)).
Proof.
  intros T O d m ops s Hs. pose proof (max_slots_lt O Hs) as Hms.
  split; intros Hh; apply (history_sane O _ Hs) in Hh; destruct Hh as [[Hl _ _ _] _];
    unfold delay_set_max_delay;
    (replace (usize_max <? vlen (dl_memory s)) with false
      by (unfold usize_max, two63, two64 in *; lia)).
  - replace (uadd Debug usize_max 1) with (@Panic Z) by reflexivity. reflexivity.
  - replace (uadd Release usize_max 1) with (Ok 0) by reflexivity. cbn [bind].
    unfold vec_resize. replace (0 <=? vlen (dl_memory s)) with true by lia.
    cbn [bind Z.to_nat firstn]. eexists; split; [reflexivity|].
    match goal with |- context [delay_process _ ?s0 _] =>
      destruct (empty_panics O Release s0 eq_refl) as [A [B [C _]]] end. auto.
Qed.
(*@PROP
Example C18_set_max_delay_usize_max_hyps (a b c : f64) :
  (exists s, dl_history O64 Debug 2 3 (ex_ops a b c) s) /\ (exists s, dl_history O64 Release 2 3 (ex_ops a b c) s).
Proof. split; eexists; history. Qed.
@*)
