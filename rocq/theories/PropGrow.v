(** Property C110: growing a delay line in mid-stream.

    Vocabulary: [dl_history], [lin_history]: a completed session, [new] followed by
    the calls [ops] ([DelayRun], [LinRun]); [write_after m ops]: the write position
    after them ([PlaceSpec]); [value_behind p s x k v]: [v] is the value [k] samples
    behind the [x] about to be processed, as the taps show it ([LinRun]);
    [lin_timing_after]: the timing of a [LinearDelay] computed from the calls alone
    ([GrowSpec]); [float_line]: [LinearDelay<f32>] and [LinearDelay<f64>]. *)
From Coq Require Import ZArith Reals List Bool Lia Lra.
From Flocq Require Import Core.Core IEEE754.BinarySingleNaN.
From Verif Require Import Base Num NumR NumF Witness DelayM LinDelayM DelaySpec DelayRun
  LinSpec LinRun PlaceSpec GrowSpec LinFloatSpec LinLemmas LinLemmas2 LinWit GrowLemmas.
Import ListNotations.
Open Scope Z_scope.

(** Completed sessions on a [Delay<f64>]. *)
Ltac sane := repeat constructor; unfold op_sane, is_usize, op_usize; repeat split;
  try discriminate; try (intros; discriminate); easy.
Ltac history := unfold dl_history, is_usize; split; [easy|];
  split; [easy|]; split; [discriminate|]; split; [sane|];
  eexists; vm_compute; reflexivity.

(** A completed session on a [LinearDelay] in exact arithmetic, with growths. *)
Definition grow_ops (a b : R) : list (dl_op R R) :=
  [DProcess a; DSetMaxDelay 6; DProcess b; DSetMaxDelay 5; DSetMaxDelay 9].
Lemma grown_R (a b : R) : exists s, lin_history R_ctl R_ops Debug (5 / 2)%R 4 (grow_ops a b) s.
Proof.
  destruct (C22_refines_ideal_thm Debug (5 / 2)%R 4 (grow_ops a b)) as [s [os [_ [E _]]]].
  - easy.
  - discriminate.
  - repeat constructor; easy.
  - cbn. repeat split; discriminate.
  - exists s. split; [easy|]. split; [discriminate|].
    split; [repeat constructor; easy|]. exists os. exact E.
Qed.

(** A completed session on a [LinearDelay<f32>]. *)
Definition lin_ops3 (a b : f32) : list (dl_op f32 f32) :=
  [DProcess a; DProcess b; DTapIn a 3; DProcess b; DGetDelay] ++ [DSetDelay (fl32 5 (-1))].
Lemma lin_ops3_ok (a b : f32) :
  exists s, lin_history f32_ctl_f32 O32 Debug (fl32 3 (-1)) 7 (lin_ops3 a b) s
    /\ lin_get_max_delay Debug s = Ok 7.
Proof.
  destruct (wit_set (fl32 3 (-1)) (fl32 5 (-1)) 7 [DProcess a; DProcess b; DTapIn a 3; DProcess b; DGetDelay])
    as [s [H1 [H2 _]]]; [lia|repeat constructor; easy|cbn; repeat split; discriminate| |].
  - repeat constructor; discriminate.
  - exists s. split; assumption.
Qed.

(** C110: growing a [Delay] inserts zeros at the write position: what [tap_out]
    showed there and beyond moves back by the growth, what it showed before stays. *)
Theorem C110_taps :
  forall (T : Type) (O : num_ops T) (p : profile) (d m : Z) (ops : list (dl_op Z T))
         (s : delay T) (mx m' t : Z),
    1 <= n_size_of O -> dl_history O p d m ops s -> delay_get_max_delay p s = Ok mx ->
    is_usize m' -> fits O m' -> mx < m' -> 0 <= t <= m' ->
    exists s', delay_set_max_delay O p s m' = Ok s'
      /\ delay_tap_out p s' t
         = if t <? write_after m ops then delay_tap_out p s t
           else if t <? write_after m ops + (m' - mx) then Ok (n_zero O)
           else delay_tap_out p s (t - (m' - mx)).
Proof. exact C110_taps_thm. Qed.
Print Assumptions C110_taps.

(* the newest two values stay, seven zeros are inserted, the rest moves back *)
Example C110_taps_hyps (a b c : f64) :
  exists s, dl_history O64 Debug 2 3 [DProcess a; DProcess b; DTapIn c 3] s
    /\ delay_get_max_delay Debug s = Ok 3 /\ is_usize 10 /\ fits O64 10
    /\ exists s', delay_set_max_delay O64 Debug s 10 = Ok s'
       /\ map (delay_tap_out Debug s') [0; 1; 2; 5; 8; 9; 10]
          = [Ok b; Ok a; Ok (n_zero O64); Ok (n_zero O64); Ok (n_zero O64); Ok (n_zero O64); Ok c].
Proof.
  eexists. split; [history|]. split; [reflexivity|]. split; [easy|]. split; [easy|].
  eexists. split; reflexivity.
Qed.

(** C110: growing a [LinearDelay] succeeds after any completed session and keeps
    the reported delay and the last output; the maximum delay becomes the larger
    one; shrinking is a no-op. *)
Theorem C110_linear_grows :
  forall (C T : Type) (K : ctl_ops C T) (O : num_ops T) (p : profile) (d : C) (m : Z)
         (ops : list (dl_op C T)) (s : lin_delay C T) (m' : Z),
    1 <= n_size_of O -> lin_history K O p d m ops s -> is_usize m' -> fits O m' ->
    exists s' mx,
      lin_set_max_delay O p s m' = Ok s'
      /\ lin_get_max_delay p s = Ok mx
      /\ lin_get_max_delay p s' = Ok (Z.max mx m')
      /\ lin_get_delay s' = lin_get_delay s
      /\ lin_last_out s' = lin_last_out s
      /\ (m' <= mx -> s' = s).
Proof. exact C110_linear_grows_thm. Qed.
Print Assumptions C110_linear_grows.

Example C110_linear_grows_hyps (a b : f32) :
  exists s, lin_history f32_ctl_f32 O32 Debug (fl32 3 (-1)) 7 (lin_ops3 a b) s /\ is_usize 10 /\ fits O32 10.
Proof. destruct (lin_ops3_ok a b) as [s [H _]]. exists s. split; [exact H|]. split; easy. Qed.

(** C110: and what its taps show moves as it does in a [Delay]. *)
Theorem C110_linear_taps :
  forall (C T : Type) (K : ctl_ops C T) (O : num_ops T) (p : profile) (d : C) (m : Z)
         (ops : list (dl_op C T)) (s : lin_delay C T) (mx m' t : Z),
    1 <= n_size_of O -> lin_history K O p d m ops s -> lin_get_max_delay p s = Ok mx ->
    is_usize m' -> fits O m' -> mx < m' -> 0 <= t <= m' ->
    exists s', lin_set_max_delay O p s m' = Ok s'
      /\ lin_tap_out p s' t
         = if t <? write_after m ops then lin_tap_out p s t
           else if t <? write_after m ops + (m' - mx) then Ok (n_zero O)
           else lin_tap_out p s (t - (m' - mx)).
Proof. exact C110_linear_taps_thm. Qed.
Print Assumptions C110_linear_taps.

Example C110_linear_taps_hyps (a b : f32) :
  exists s, lin_history f32_ctl_f32 O32 Debug (fl32 3 (-1)) 7 (lin_ops3 a b) s
    /\ lin_get_max_delay Debug s = Ok 7 /\ is_usize 10 /\ fits O32 10 /\ 7 < 10
    /\ write_after 7 (lin_ops3 a b) = 3.
Proof. destruct (lin_ops3_ok a b) as [s [H1 H2]]. exists s. split; [exact H1|]. split; [exact H2|]. repeat split; easy. Qed.

(** C110: the two values [process] blends and their weights, before and after a
    growth, in exact arithmetic and in [f32] and [f64]: the weights are kept; the
    values are as far behind as before if the older of them is no farther behind
    than the write position, and farther behind by the growth if it is. *)
Theorem C110_linear_growth :
  (forall (p : profile) (d : R) (m : Z) (ops : list (dl_op R R)) (s : lin_delay R R) (mx m' : Z),
    lin_history R_ctl R_ops p d m ops s -> unpeeked ops -> lin_get_max_delay p s = Ok mx ->
    mx < m' -> fits R_ops m' -> is_usize m' ->
    exists s' L wo wn, lin_set_max_delay R_ops p s m' = Ok s' /\ 0 <= L <= mx
      /\ (forall x, exists s1 older newer,
            lin_process R_ops p s x = Ok (s1, older * wo + newer * wn)%R
            /\ value_behind p s x L older
            /\ value_behind p s x (if L =? 0 then mx else L - 1) newer)
      /\ (forall x, exists s2 older newer,
            let L' := if L <=? write_after m ops then L else L + (m' - mx) in
            lin_process R_ops p s' x = Ok (s2, older * wo + newer * wn)%R
            /\ value_behind p s' x L' older
            /\ value_behind p s' x (if L' =? 0 then m' else L' - 1) newer))
  /\ (forall (T : Type) (K : ctl_ops f32 T) (O : num_ops T) (val : T -> R) (fin : T -> bool) (rnd : R -> R)
           (p : profile) (d : f32) (m : Z) (ops : list (dl_op f32 T)) (s : lin_delay f32 T) (mx m' : Z),
    float_line K O val fin rnd ->
    lin_history K O p d m ops s -> unpeeked ops -> lin_get_max_delay p s = Ok mx ->
    mx < m' -> m' + 1 <= 2 ^ 24 ->
    exists s' L wo wn, lin_set_max_delay O p s m' = Ok s' /\ 0 <= L <= mx
      /\ (forall x, exists s1 older newer,
            lin_process O p s x = Ok (s1, n_add O (n_mul O older wo) (n_mul O newer wn))
            /\ value_behind p s x L older
            /\ value_behind p s x (if L =? 0 then mx else L - 1) newer)
      /\ (forall x, exists s2 older newer,
            let L' := if L <=? write_after m ops then L else L + (m' - mx) in
            lin_process O p s' x = Ok (s2, n_add O (n_mul O older wo) (n_mul O newer wn))
            /\ value_behind p s' x L' older
            /\ value_behind p s' x (if L' =? 0 then m' else L' - 1) newer)).
Proof. exact C110_linear_growth_thm. Qed.
Print Assumptions C110_linear_growth.

Example C110_linear_growth_hyps :
  (forall a b : R, exists s, lin_history R_ctl R_ops Debug (5 / 2)%R 4 (grow_ops a b) s
     /\ unpeeked (grow_ops a b) /\ fits R_ops 12 /\ is_usize 12)
  /\ (forall a b : f32, exists s, float_line f32_ctl_f32 O32 B2R is_finite RN32
     /\ lin_history f32_ctl_f32 O32 Debug (fl32 3 (-1)) 7 (lin_ops3 a b) s
     /\ unpeeked (lin_ops3 a b) /\ lin_get_max_delay Debug s = Ok 7 /\ 7 < 10).
Proof.
  split.
  - intros a b. destruct (grown_R a b) as [s H]. exists s. split; [exact H|]. split; [reflexivity|]. split; easy.
  - intros a b. destruct (lin_ops3_ok a b) as [s [H1 H2]]. exists s. split; [constructor|].
    split; [exact H1|]. split; [reflexivity|]. split; [exact H2|lia].
Qed.

Open Scope R_scope.

(** C110: after any history of a [LinearDelay] in exact arithmetic, growths
    included, the maximum delay, the reported delay and the latency it really has
    are those that [lin_timing_after] computes from the calls: with a latency of
    k + f, [process(x)] returns (1 - f) times the value k behind x plus f times the
    value k + 1 behind. *)
Theorem C110_linear_latency :
  forall (p : profile) (d : R) (m : Z) (ops : list (dl_op R R)) (s : lin_delay R R) (x : R),
    lin_history R_ctl R_ops p d m ops s -> unpeeked ops ->
    let t := lin_timing_after d m ops in
    let c := lt_latency t in
    let k := Zfloor c in
    let f := c - IZR k in
    lin_get_max_delay p s = Ok (lt_max t)
    /\ lin_get_delay s = lt_reported t
    /\ 0 <= c <= IZR (lt_max t)
    /\ exists s' u v, value_behind p s x k u /\ value_behind p s x (k + 1) v
         /\ lin_process R_ops p s x = Ok (s', (1 - f) * u + f * v).
Proof. exact C110_linear_latency_thm. Qed.
Print Assumptions C110_linear_latency.

(* two growths with the write position below the latency: it becomes 2.5 + 2 + 3
   although the line reports 2.5 *)
Example C110_linear_latency_hyps (a b : R) :
  (exists s, lin_history R_ctl R_ops Debug (5 / 2) 4 (grow_ops a b) s)
  /\ unpeeked (grow_ops a b)
  /\ lin_timing_after (5 / 2) 4 (grow_ops a b) = LinTiming 9 2 (5 / 2) (15 / 2).
Proof.
  split; [apply grown_R|]. split; [reflexivity|].
  unfold lin_timing_after, grow_ops. cbn [fold_left lin_timing_step].
  replace (in_range (5 / 2) 4) with (5 / 2) by (unfold in_range; rewrite Rmin_left, Rmax_right; lra).
  change ((0 + 1) mod (4 + 1))%Z with 1%Z. change (6 <=? 4)%Z with false. cbn [lin_timing_step].
  destruct (Rle_dec (5 / 2) 1); [lra|]. change ((1 + 1) mod (6 + 1))%Z with 2%Z.
  change (5 <=? 6)%Z with true. change (9 <=? 6)%Z with false. cbn [lin_timing_step].
  change (6 - 4)%Z with 2%Z. change (9 - 6)%Z with 3%Z.
  destruct (Rle_dec (5 / 2 + 2) 2); [lra|]. replace (5 / 2 + 2 + 3) with (15 / 2) by lra. reflexivity.
Qed.

(** C110: growing a [LinearDelay] whose write position is below its delay lengthens
    the latency by the growth, although [get_delay] still reports the old delay. *)
Theorem C110_linear_growth_refuted :
  forall (p : profile) (d : R) (m : Z) (ops : list (dl_op R R)) (s : lin_delay R R) (mx m' : Z) (x : R),
    lin_history R_ctl R_ops p d m ops s -> lin_trusted ops -> unpeeked ops ->
    lin_get_max_delay p s = Ok mx -> (mx < m')%Z -> is_usize m' -> fits R_ops m' ->
    IZR (write_after m ops) < lin_get_delay s ->
    exists s' s2 u v,
      lin_set_max_delay R_ops p s m' = Ok s'
      /\ lin_get_delay s' = lin_get_delay s
      /\ let c := lin_get_delay s + IZR (m' - mx) in
         let k := Zfloor c in
         let f := c - IZR k in
         value_behind p s' x k u /\ value_behind p s' x (k + 1) v
         /\ lin_process R_ops p s' x = Ok (s2, (1 - f) * u + f * v).
Proof. exact C110_linear_growth_refuted_thm. Qed.
Print Assumptions C110_linear_growth_refuted.

(* new(2.5, 4), one sample, set_max_delay(9): the latency is 7.5 from here on *)
Example C110_linear_growth_refuted_hyps (a : R) :
  exists s, lin_history R_ctl R_ops Debug (5 / 2) 4 [DProcess a] s
    /\ lin_trusted [@DProcess R R a] /\ unpeeked [@DProcess R R a]
    /\ is_usize 9 /\ fits R_ops 9
    /\ IZR (write_after 4 [@DProcess R R a]) < lin_get_delay s.
Proof.
  destruct (wit_R (5 / 2) 4 [DProcess a]) as [s [H1 H2]]; [lia|lra|repeat constructor| |exact I|].
  - repeat constructor; discriminate.
  - exists s. split; [exact H1|]. split; [reflexivity|]. split; [reflexivity|]. split; [easy|]. split; [discriminate|].
    rewrite H2. change (write_after 4 [@DProcess R R a]) with 1%Z. lra.
Qed.
