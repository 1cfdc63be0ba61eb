(** Properties C19-C21: [LinearDelay], robustness.

    Vocabulary: [lin_session K O p d m ops] is [LinearDelay::new(d, m)] followed by
    the calls [ops], [lin_history] says that such a session completed, [lin_sane]
    and [lin_use] describe the arguments ([LinRun]); [f32_ctl_gen cast] is the
    [f32] control arithmetic with the cast to the sample type, [float_line] stands
    for [LinearDelay<f32>] and [LinearDelay<f64>] ([LinFloatSpec]). *)
From Coq Require Import ZArith Reals List Bool Lia Lra.
From Flocq Require Import Core.Core IEEE754.BinarySingleNaN.
From Verif Require Import Base Num NumR NumF Witness DelayM LinDelayM DelaySpec DelayRun
  LinSpec LinRun LinFloatSpec LinLemmas LinWit.
Import ListNotations.
Open Scope Z_scope.

(** C19: on a non-empty line of any length and at any write position, and for
    every [f32] delay (NaN, infinities, negative and subnormal values included),
    the loop of [set_delay] ends after at most one addition: two tests of its
    condition suffice. *)
Theorem C19_set_delay_terminates :
  forall (T : Type) (cast : f32 -> T) (O : num_ops T) (p : profile) (s : lin_delay f32 T) (d : f32),
    1 <= vlen (ld_memory s) < two64 -> 0 <= ld_write s < vlen (ld_memory s) ->
    exists s', forall fuel,
      lin_set_delay_fuel (f32_ctl_gen cast) O p (S (S fuel)) s d = Ok s'.
Proof. exact C19_set_delay_terminates_thm. Qed.
Print Assumptions C19_set_delay_terminates.

Example C19_set_delay_terminates_hyps (a b : f32) :
  let s := MkLin [a; b] a 0 1 (B754_zero false : f32) true a a a in
  1 <= vlen (ld_memory s) < two64 /\ 0 <= ld_write s < vlen (ld_memory s).
Proof. repeat split; easy. Qed.

(** C19: no sequence of calls makes the library loop, unless some length request
    is [usize::MAX]. *)
Theorem C19_no_session_hangs :
  forall (T : Type) (cast : f32 -> T) (O : num_ops T) (p : profile) (d : f32) (m : Z)
         (ops : list (dl_op f32 T)),
    1 <= n_size_of O -> is_usize m -> m <> usize_max -> Forall lin_sane ops ->
    lin_session (f32_ctl_gen cast) O p d m ops <> Hang.
Proof. exact C19_no_session_hangs_thm. Qed.
Print Assumptions C19_no_session_hangs.

Example C19_no_session_hangs_hyps (a : f64) :
  is_usize 8 /\ 8 <> usize_max
  /\ Forall lin_sane [DProcess a; DSetDelay (B754_nan : f32); DSetMaxDelay 16; DProcess a].
Proof. repeat split; try easy. repeat constructor; easy. Qed.

(** C19, the exception: in release builds [LinearDelay::new(d, usize::MAX)] with a
    positive [d] never returns (the capacity computation wraps to an empty line and
    the loop keeps adding a length of zero); in debug builds it panics. *)
Theorem C19_new_usize_max_hangs_refuted :
  forall (T : Type) (cast : f32 -> T) (O : num_ops T) (d : f32) (fuel : nat),
    1 <= n_size_of O ->
    lin_new_fuel (f32_ctl_gen cast) O Debug fuel d usize_max = Panic
    /\ (Bltb (B754_zero false) d = true ->
        lin_new_fuel (f32_ctl_gen cast) O Release fuel d usize_max = Hang).
Proof. exact C19_new_usize_max_hangs_refuted_thm. Qed.
Print Assumptions C19_new_usize_max_hangs_refuted.

Example C19_new_usize_max_hangs_refuted_hyps :
  Bltb (B754_zero false) (fl32 1 0) = true.
Proof. reflexivity. Qed.

(** C20: after any history, [set_delay] with a non-NaN [f32] makes [get_delay]
    return the request clipped to [0, max] (the maximum as an [f32]: exact up to
    2^24); NaN is stored as NaN.  The stored samples, the maximum and [last_out]
    stay as they are. *)
Theorem C20_set_delay_clips :
  forall (T : Type) (cast : f32 -> T) (O : num_ops T) (p : profile) (d : f32) (m : Z)
         (ops : list (dl_op f32 T)) (s : lin_delay f32 T) (mx : Z) (d' : f32),
    1 <= n_size_of O -> lin_history (f32_ctl_gen cast) O p d m ops s ->
    lin_get_max_delay p s = Ok mx ->
    exists s', lin_set_delay (f32_ctl_gen cast) O p s d' = Ok s'
      /\ (d' <> B754_nan -> is_finite (lin_get_delay s') = true
                            /\ B2R (lin_get_delay s') = clip32 d' (RN32 (IZR mx)))
      /\ (d' = B754_nan -> lin_get_delay s' = B754_nan)
      /\ (mx <= 2 ^ 24 -> RN32 (IZR mx) = IZR mx)
      /\ lin_get_max_delay p s' = Ok mx
      /\ lin_last_out s' = lin_last_out s
      /\ (forall t, lin_tap_out p s' t = lin_tap_out p s t).
Proof. exact C20_set_delay_clips_thm. Qed.
Print Assumptions C20_set_delay_clips.

(** C20, construction: [new(d, m)] reports [d] clipped to [0, m] (as above) and the
    maximum [m], and every tap reads zero. *)
Theorem C20_new_clips :
  forall (T : Type) (cast : f32 -> T) (O : num_ops T) (p : profile) (d : f32) (m : Z),
    1 <= n_size_of O -> is_usize m -> fits O m ->
    exists s, lin_new (f32_ctl_gen cast) O p d m = Ok s
      /\ (d <> B754_nan -> is_finite (lin_get_delay s) = true
                           /\ B2R (lin_get_delay s) = clip32 d (RN32 (IZR m)))
      /\ (d = B754_nan -> lin_get_delay s = B754_nan)
      /\ lin_get_max_delay p s = Ok m
      /\ lin_last_out s = n_zero O
      /\ (forall t, 0 <= t <= m -> lin_tap_out p s t = Ok (n_zero O)).
Proof. exact C20_new_clips_thm. Qed.
Print Assumptions C20_new_clips.

(** A concrete [LinearDelay<f32>]: [new(1.5, 7)], some samples, a tap, and last
    [set_delay(d')].  The examples below reuse it. *)
Definition lin_ops (a b : f32) : list (dl_op f32 f32) :=
  [DProcess a; DProcess b; DTapIn a 3; DSetDelay (fl32 5 (-1)); DProcess b; DGetDelay].
Lemma lin_ops_ok (a b d' : f32) :
  exists s, lin_history f32_ctl_f32 O32 Debug (fl32 3 (-1)) 7 (lin_ops a b ++ [DSetDelay d']) s
    /\ lin_get_max_delay Debug s = Ok 7
    /\ (d' <> B754_nan -> is_finite (lin_get_delay s) = true /\ B2R (lin_get_delay s) = clip32 d' (IZR 7))
    /\ (d' = B754_nan -> lin_get_delay s = B754_nan).
Proof.
  apply wit_set; [easy|repeat constructor; easy|cbn; repeat split; discriminate|repeat constructor; discriminate].
Qed.

Example C20_set_delay_clips_hyps (a b : f32) :
  exists s, lin_history f32_ctl_f32 O32 Debug (fl32 3 (-1)) 7 (lin_ops a b ++ [DSetDelay (fl32 1 0)]) s
    /\ lin_get_max_delay Debug s = Ok 7.
Proof. destruct (lin_ops_ok a b (fl32 1 0)) as [s [H [H1 _]]]. eauto. Qed.
Example C20_new_clips_hyps : 1 <= n_size_of O64 /\ is_usize 7 /\ fits O64 7.
Proof. repeat split; easy. Qed.

(** C20: a NaN delay makes every following output non-finite (NaN), for every
    sample, until the delay is set again. *)
Theorem C20_nan_delay_poisons :
  forall (T : Type) (K : ctl_ops f32 T) (O : num_ops T) (val : T -> R) (fin : T -> bool) (rnd : R -> R)
         (p : profile) (d : f32) (m : Z) (ops : list (dl_op f32 T)) (s : lin_delay f32 T) (mx : Z) (x : T),
    float_line K O val fin rnd ->
    lin_history K O p d m ops s -> lin_trusted ops -> unpeeked ops ->
    lin_get_max_delay p s = Ok mx -> mx < 2 ^ 24 -> lin_get_delay s = B754_nan ->
    exists s' y, lin_process O p s x = Ok (s', y) /\ fin y = false.
Proof. exact C20_nan_delay_poisons_thm. Qed.
Print Assumptions C20_nan_delay_poisons.

Example C20_nan_delay_poisons_hyps (a b : f32) :
  exists s, lin_history f32_ctl_f32 O32 Debug (fl32 3 (-1)) 7 (lin_ops a b ++ [DSetDelay B754_nan]) s
    /\ lin_trusted (lin_ops a b ++ [DSetDelay B754_nan]) /\ unpeeked (lin_ops a b ++ [DSetDelay B754_nan])
    /\ lin_get_max_delay Debug s = Ok 7 /\ 7 < 2 ^ 24 /\ lin_get_delay s = B754_nan.
Proof.
  destruct (lin_ops_ok a b B754_nan) as [s [H [H1 [_ H2]]]]. exists s. repeat (split; [easy|]). apply H2. reflexivity.
Qed.

(** C21: as long as the line has at most 2^24 slots and taps stay within it, no
    sequence of calls panics or loops, whatever delays are requested. *)
Theorem C21_never_panics :
  forall (T : Type) (cast : f32 -> T) (O : num_ops T) (p : profile) (d : f32) (m : Z)
         (ops : list (dl_op f32 T)),
    1 <= n_size_of O -> n_size_of O * 2 ^ 24 <= isize_max ->
    is_usize m -> short (2 ^ 24) m -> Forall op_usize_lin ops -> lin_use (2 ^ 24) m ops ->
    exists s os, lin_session (f32_ctl_gen cast) O p d m ops = Ok (s, os).
Proof. exact C21_never_panics_thm. Qed.
Print Assumptions C21_never_panics.

Example C21_never_panics_hyps (a b : f32) :
  n_size_of O64 * 2 ^ 24 <= isize_max /\ is_usize 7 /\ short (2 ^ 24) 7
  /\ Forall op_usize_lin (lin_ops a b) /\ lin_use (2 ^ 24) 7 (lin_ops a b).
Proof.
  split; [discriminate|]. split; [easy|]. split; [discriminate|].
  split; [repeat constructor; easy|]. cbn. repeat split; discriminate.
Qed.

(** C21, the limit is real: with 2^24 + 3 slots, [new(1.0, 2^24 + 2)] puts the read
    position outside the line and the first [process] panics, whatever the
    sample. *)
Theorem C21_long_line_panics_refuted :
  forall (T : Type) (cast : f32 -> T) (O : num_ops T) (p : profile) (d : f32) (m : Z),
    1 <= n_size_of O -> n_size_of O * 2 ^ 25 <= isize_max ->
    m = 2 ^ 24 + 2 -> d = f_of_Z 24 128 1 ->
    exists s, lin_new (f32_ctl_gen cast) O p d m = Ok s
      /\ lin_get_max_delay p s = Ok m
      /\ forall x, lin_process O p s x = Panic.
Proof. exact C21_long_line_panics_refuted_thm. Qed.
Print Assumptions C21_long_line_panics_refuted.

Example C21_long_line_panics_refuted_hyps : 1 <= n_size_of O32 /\ n_size_of O32 * 2 ^ 25 <= isize_max.
Proof. split; discriminate. Qed.
