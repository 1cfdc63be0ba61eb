(** Properties C22-C27 and C68-C71: [LinearDelay], what it computes.

    Vocabulary: [lin_session K O p d m ops] is [LinearDelay::new(d, m)] followed by
    the calls [ops], [lin_history] says that such a session completed ([LinRun]);
    [R_ctl], [R_ops] is exact arithmetic, [float_line] stands for
    [LinearDelay<f32>] and [LinearDelay<f64>] ([LinFloatSpec]). *)
From Coq Require Import ZArith Reals List Bool Lia Lra.
From Flocq Require Import Core.Core IEEE754.BinarySingleNaN.
From Verif Require Import Base Num NumR NumF Witness DelayM LinDelayM DelaySpec DelayRun
  LinSpec LinRun PlaceSpec LinFloatSpec LinLemmas2 LinWit.
Import ListNotations.
Open Scope R_scope.

(** A concrete [LinearDelay<f32>]: [new(1.5, 7)], some samples, a tap, and last
    [set_delay(d')].  The examples below reuse it. *)
Definition lin_ops2 (a b d' : f32) : list (dl_op f32 f32) :=
  [DProcess a; DProcess b; DTapIn a 3; DSetDelay (fl32 5 (-1)); DProcess b; DGetDelay] ++ [DSetDelay d'].
Lemma lin_ops2_ok (a b d' : f32) :
  exists s, lin_history f32_ctl_f32 O32 Debug (fl32 3 (-1)) 7 (lin_ops2 a b d') s
    /\ lin_get_max_delay Debug s = Ok 7%Z
    /\ (d' <> B754_nan -> is_finite (lin_get_delay s) = true /\ B2R (lin_get_delay s) = clip32 d' (IZR 7))
    /\ (d' = B754_nan -> lin_get_delay s = B754_nan).
Proof.
  apply wit_set; [easy|repeat constructor; easy|cbn; repeat split; discriminate|repeat constructor; discriminate].
Qed.

(** C22: in exact arithmetic every sequence of calls within the documented domain
    behaves as the ideal interpolating line of [LinSpec]. *)
Theorem C22_refines_ideal :
  forall (p : profile) (d : R) (m : Z) (ops : list (dl_op R R)),
    is_usize m -> fits R_ops m -> Forall op_usize_lin ops -> lin_use (max_slots R_ops) m ops ->
    exists s os i, lin_session R_ctl R_ops p d m ops = Ok (s, os)
      /\ ilin_run 0%R Rplus Rmult (max_slots R_ops) ideal_aim
           (ilin_new 0%R ideal_aim d (Z.to_nat m)) ops = Some (i, os).
Proof. exact C22_refines_ideal_thm. Qed.
Print Assumptions C22_refines_ideal.

Example C22_refines_ideal_hyps (a b : R) :
  is_usize 7 /\ fits R_ops 7
  /\ Forall op_usize_lin [DProcess a; DSetDelay b; DNextOut; DSetMaxDelay 9; DTapOut 8; DProcess b]
  /\ lin_use (max_slots R_ops) 7 [DProcess a; DSetDelay b; DNextOut; DSetMaxDelay 9; DTapOut 8; DProcess b].
Proof.
  split; [easy|]. split; [discriminate|]. split; [repeat constructor; easy|]. cbn. repeat split; discriminate.
Qed.

(** C22: a new line with delay [d] = k + f in [0, m] turns any signal [x] into
      (1 - f) x[n - k] + f x[n - k - 1], with zeros before the start. *)
Theorem C22_interpolates :
    forall (p : profile) (d : R) (m : Z) (x : nat -> R) (n : nat),
      is_usize m -> fits R_ops m -> 0 <= d <= IZR m ->
      let k := Z.to_nat (Zfloor d) in
      let f := d - IZR (Zfloor d) in
      exists s, lin_session R_ctl R_ops p d m (map (fun i => DProcess (x i)) (seq 0 n))
        = Ok (s, map OSample (map (fun i => (1 - f) * behind 0 x k i + f * behind 0 x (S k) i) (seq 0 n))).
Proof. exact C22_interpolates_thm. Qed.
Print Assumptions C22_interpolates.

Example C22_interpolates_hyps : is_usize 7 /\ fits R_ops 7 /\ (0 <= 5 / 2 <= IZR 7)%R.
Proof. split; [easy|]. split; [discriminate|]. lra. Qed.

(** C22, mid-stream: after any history, with [get_delay()] = k + f, [process(x)]
      returns (1 - f) times the value k behind x plus f times the value k + 1
      behind, provided the line was not grown since the delay was set and no peek
      is pending. *)
Theorem C22_mid_stream :
    forall (p : profile) (d : R) (m : Z) (ops : list (dl_op R R)) (s : lin_delay R R) (mx : Z) (x : R),
      lin_history R_ctl R_ops p d m ops s -> lin_get_max_delay p s = Ok mx ->
      lin_trusted ops -> unpeeked ops ->
      let c := lin_get_delay s in
      let k := Zfloor c in
      let f := c - IZR k in
      0 <= c <= IZR mx
      /\ exists s' u v, value_behind p s x k u /\ value_behind p s x (k + 1) v
           /\ lin_process R_ops p s x = Ok (s', (1 - f) * u + f * v).
Proof. exact C22_mid_stream_thm. Qed.
Print Assumptions C22_mid_stream.

(** A new line in exact arithmetic always completes; with [C22_refines_ideal] so
    does every session within the documented domain, such as this one, which meets
    the hypotheses of [C22_mid_stream] and of C25 below. *)
Example C22_mid_stream_hyps (a b : R) :
exists s, lin_history R_ctl R_ops Debug (5 / 2)%R 7 [DProcess a; DTapIn b 3; DProcess b; DNextOut; DProcess a] s
    /\ lin_trusted [@DProcess R R a; DTapIn b 3; DProcess b; DNextOut; DProcess a]
    /\ unpeeked [@DProcess R R a; DTapIn b 3; DProcess b; DNextOut; DProcess a].
Proof.
destruct (C22_refines_ideal_thm Debug (5 / 2) 7 [DProcess a; DTapIn b 3; DProcess b; DNextOut; DProcess a]) as [s [os [_ [E _]]]].
- easy.
- discriminate.
- repeat constructor; easy.
- cbn. repeat split; discriminate.
- exists s. split; [|split; reflexivity]. split; [easy|]. split; [discriminate|].
    split; [repeat constructor; easy|]. exists os. exact E.
Qed.

(** C23: if the delay reported by a [LinearDelay<f32>] or [LinearDelay<f64>] is a
    multiple of 2^-j and (max + 1) * 2^j <= 2^24, the weights carry no rounding
    error: [process(x)] is the rounded blend of the values ceil(delay) and
    ceil(delay) - 1 behind x, with weights exactly 1 - (ceil(delay) - delay) and
    ceil(delay) - delay. *)
Theorem C23_dyadic_delays_exact :
  forall (T : Type) (K : ctl_ops f32 T) (O : num_ops T) (val : T -> R) (fin : T -> bool) (rnd : R -> R)
         (p : profile) (d : f32) (m : Z) (ops : list (dl_op f32 T)) (s : lin_delay f32 T)
         (mx j n : Z) (x : T),
    float_line K O val fin rnd ->
    lin_history K O p d m ops s -> lin_trusted ops -> unpeeked ops ->
    lin_get_max_delay p s = Ok mx -> (0 <= j)%Z -> ((mx + 1) * 2 ^ j <= 2 ^ 24)%Z ->
    is_finite (lin_get_delay s) = true -> B2R (lin_get_delay s) = IZR n / IZR (2 ^ j) ->
    let c := B2R (lin_get_delay s) in
    exists s' older newer wo wn,
      lin_process O p s x = Ok (s', n_add O (n_mul O older wo) (n_mul O newer wn))
      /\ value_behind p s x (Zceil c) older
      /\ (0 < c -> value_behind p s x (Zceil c - 1) newer)
      /\ fin wn = true /\ val wn = IZR (Zceil c) - c
      /\ fin wo = true /\ val wo = 1 - (IZR (Zceil c) - c).
Proof. exact C23_dyadic_delays_exact_thm. Qed.
Print Assumptions C23_dyadic_delays_exact.

Example C23_dyadic_delays_exact_hyps (a b : f32) :
  exists s, lin_history f32_ctl_f32 O32 Debug (fl32 3 (-1)) 7 (lin_ops2 a b (fl32 5 (-1))) s
    /\ lin_trusted (lin_ops2 a b (fl32 5 (-1))) /\ unpeeked (lin_ops2 a b (fl32 5 (-1)))
    /\ lin_get_max_delay Debug s = Ok 7%Z /\ ((7 + 1) * 2 ^ 1 <= 2 ^ 24)%Z
    /\ is_finite (lin_get_delay s) = true /\ B2R (lin_get_delay s) = IZR 5 / IZR (2 ^ 1).
Proof.
  destruct (lin_ops2_ok a b (fl32 5 (-1))) as [s [H [H1 [H2 _]]]]. exists s. repeat (split; [easy|]).
  destruct (H2 ltac:(discriminate)) as [H3 H4]. split; [exact H3|]. rewrite H4.
  cbn. unfold clipR, F2R; cbn. rewrite Rmin_left, Rmax_right by lra. lra.
Qed.

(** C24: exactly which weights [set_delay(d')] installs.  With [m] the maximum
    delay and [w] the write position after any history, [c] the clipped request, and
    [q] the position w - c computed with two [f32] roundings: if [q] stays below
    the line length, the weight of the newer value is its fractional part, in
    [0, 1); if [q] rounds up to the line length, the weights are [m + 1] and
    [- m]. *)
Theorem C24_weights :
  forall (T : Type) (K : ctl_ops f32 T) (O : num_ops T) (val : T -> R) (fin : T -> bool) (rnd : R -> R)
         (p : profile) (d : f32) (m0 : Z) (ops : list (dl_op f32 T)) (s : lin_delay f32 T)
         (d' : f32) (x : T),
    float_line K O val fin rnd ->
    lin_history K O p d m0 ops s -> unpeeked ops -> short (2 ^ 24) (max_after m0 ops) ->
    d' <> B754_nan ->
    let m := max_after m0 ops in
    let w := write_after m0 ops in
    let c := clip32 d' (IZR m) in
    let q := pos32 (m + 1) w c in
    let L := lag32 (m + 1) w c in
    exists s1 s2 older newer wo wn,
      lin_set_delay K O p s d' = Ok s1
      /\ lin_process O p s1 x = Ok (s2, n_add O (n_mul O older wo) (n_mul O newer wn))
      /\ value_behind p s1 x L older
      /\ value_behind p s1 x (if (L =? 0)%Z then m else L - 1)%Z newer
      /\ fin wn = true /\ fin wo = true
      /\ val wo = rnd (1 - val wn)
      /\ q <= IZR (m + 1)
      /\ (q < IZR (m + 1) -> 0 <= val wn < 1 /\ val wn = q - IZR (Zfloor q))
      /\ (q = IZR (m + 1) -> val wn = IZR (m + 1) /\ val wo = - IZR m).
Proof. exact C24_weights_thm. Qed.
Print Assumptions C24_weights.

Example C24_weights_hyps (a b : f32) :
  exists s, lin_history f32_ctl_f32 O32 Debug (fl32 3 (-1)) 7 (lin_ops2 a b (fl32 3 (-2))) s
    /\ unpeeked (lin_ops2 a b (fl32 3 (-2)))
    /\ short (2 ^ 24) (max_after 7 (lin_ops2 a b (fl32 3 (-2))))
    /\ write_after 7 (lin_ops2 a b (fl32 3 (-2))) = 3%Z
    /\ (fl32 1 (-1) : f32) <> B754_nan.
Proof.
  destruct (lin_ops2_ok a b (fl32 3 (-2))) as [s [H _]]. exists s. split; [exact H|].
  split; [reflexivity|]. split; [discriminate|]. split; [reflexivity|discriminate].
Qed.

(** C68: after [set_delay(d')], unless the read position rounds up to the line
    length, the line blends the values [L] and [L - 1] samples back with weights
    [wo] and [wn] such that the latency it realises, [L - wn] samples, is within
    (m + 1) * 2^-23 of the delay it reports; and the two values are the neighbours
    of the reported delay: floor <= L <= ceil. *)
Theorem C68_realised_delay :
  forall (T : Type) (K : ctl_ops f32 T) (O : num_ops T) (val : T -> R) (fin : T -> bool) (rnd : R -> R)
         (p : profile) (d : f32) (m0 : Z) (ops : list (dl_op f32 T)) (s : lin_delay f32 T)
         (d' : f32) (x : T),
    float_line K O val fin rnd ->
    lin_history K O p d m0 ops s -> unpeeked ops -> short (2 ^ 24) (max_after m0 ops) ->
    d' <> B754_nan ->
    let m := max_after m0 ops in
    pos32 (m + 1) (write_after m0 ops) (clip32 d' (IZR m)) < IZR (m + 1) ->
    exists s1 s2 older newer wo wn L,
      lin_set_delay K O p s d' = Ok s1
      /\ B2R (lin_get_delay s1) = clip32 d' (IZR m)
      /\ lin_process O p s1 x = Ok (s2, n_add O (n_mul O older wo) (n_mul O newer wn))
      /\ value_behind p s1 x L older
      /\ value_behind p s1 x (if (L =? 0)%Z then m else L - 1)%Z newer
      /\ fin wn = true /\ fin wo = true
      /\ val wo = rnd (1 - val wn)
      /\ (Zfloor (B2R (lin_get_delay s1)) <= L <= Zceil (B2R (lin_get_delay s1)))%Z
      /\ Rabs (IZR L - val wn - B2R (lin_get_delay s1)) <= IZR (m + 1) * bpow radix2 (-23).
Proof. exact C68_realised_delay_thm. Qed.
Print Assumptions C68_realised_delay.

Example C68_realised_delay_hyps (a b : f32) :
  exists s, lin_history f32_ctl_f32 O32 Debug (fl32 3 (-1)) 7 (lin_ops2 a b (fl32 3 (-2))) s
    /\ unpeeked (lin_ops2 a b (fl32 3 (-2)))
    /\ short (2 ^ 24) (max_after 7 (lin_ops2 a b (fl32 3 (-2))))
    /\ write_after 7 (lin_ops2 a b (fl32 3 (-2))) = 3%Z
    /\ (fl32 1 0 : f32) <> B754_nan.
Proof.
  destruct (lin_ops2_ok a b (fl32 3 (-2))) as [s [H _]]. exists s. split; [exact H|].
  split; [reflexivity|]. split; [discriminate|]. split; [reflexivity|discriminate].
Qed.
(* and the position condition is met by every whole-sample delay *)
Example C68_position_ok : pos32 8 2 1 < IZR 8.
Proof.
  unfold pos32. replace (IZR 2 - 1) with (IZR 1) by (simpl; ring).
  rewrite (LinCtlF.RN32_small 1) by lia. rewrite Rlt_bool_false by (simpl; lra). simpl; lra.
Qed.

(** C24, the blow-up: for every line of two to 2^24 slots and every positive delay
    up to 2^-25, [new(d, m)] followed by [process(x)] multiplies [x] by [- m]
    instead of returning about [x]. *)
Theorem C24_tiny_delay_blows_up_refuted :
  forall (T : Type) (K : ctl_ops f32 T) (O : num_ops T) (val : T -> R) (fin : T -> bool) (rnd : R -> R)
         (p : profile) (d : f32) (m : Z) (x : T),
    float_line K O val fin rnd ->
    (1 <= m < 2 ^ 24)%Z -> is_finite d = true -> 0 < B2R d <= bpow radix2 (-25) ->
    exists s wo wn,
      lin_session K O p d m [DProcess x]
        = Ok (s, [OSample (n_add O (n_mul O x wo) (n_mul O (n_zero O) wn))])
      /\ fin wo = true /\ val wo = - IZR m
      /\ fin wn = true /\ val wn = IZR (m + 1).
Proof. exact C24_tiny_delay_blows_up_refuted_thm. Qed.
Print Assumptions C24_tiny_delay_blows_up_refuted.

(* 2^-34 is about 6e-11 samples; the line has 4096 slots *)
Example C24_tiny_delay_blows_up_refuted_hyps :
  (1 <= 4095 < 2 ^ 24)%Z /\ is_finite (fl32 1 (-34) : f32) = true
  /\ 0 < B2R (fl32 1 (-34) : f32) <= bpow radix2 (-25).
Proof. split; [lia|]. split; [reflexivity|]. cbn. unfold F2R; cbn. lra. Qed.
