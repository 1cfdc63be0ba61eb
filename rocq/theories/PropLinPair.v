(** Property C135: two [LinearDelay]s given corresponding calls, in [f32] and [f64].

    Vocabulary: [lin_session K O p d m ops] is [LinearDelay::new(d, m)] followed by the calls [ops] ([LinRun]); [float_line] says that
    the line is one of f32 or f64 samples ([LinFloatSpec]); [same_call r] and [same_answer r] relate calls and answers that are the
    same up to samples related by [r], [alike] says that both sessions complete or both panic, [raised], [raised_answer],
    [same_sample], [near_answer] relate samples ([LinPairSpec]). *)
From Coq Require Import ZArith Reals List Bool Lia Lra.
From Flocq Require Import Core.Core IEEE754.BinarySingleNaN.
From Verif Require Import Base Num NumR NumF FloatSpec Witness DelayM LinDelayM DelaySpec DelayRun LinSpec LinRun LinFloatSpec TrackSpec
  LinPairSpec LinPairLemmas.
Import ListNotations.
Open Scope R_scope.

(** C135: louder by a power of two.  Two lines with the same settings are given the same calls, of any kind and in any order, the
    second with every sample 2^e times as large.  Then they panic together or not at all, report the same sizes and delays, and every
    sample the second returns is, if finite, exactly 2^e times what the first returns.  Lines have at most 2^24 slots; samples must be
    multiples of 2^24 times the smallest normal number, so that the interpolation does not reach the subnormal numbers. *)

Theorem C135_raised :
  forall (T : Type) (K : ctl_ops f32 T) (O : num_ops T) (V : float_view T),
    ieee O V -> float_line K O (val V) (fin V) (rnd V) ->
  forall (p : profile) (e : Z) (d : f32) (m : Z) (ops ops' : list (dl_op f32 T)),
    (0 <= e)%Z -> (0 <= m)%Z -> short (2 ^ 24) m ->
    Forall2 (same_call (raised V e)) ops ops' -> Forall (stays_short (2 ^ 24)) ops ->
    alike (fun r r' => Forall2 (same_answer (raised_answer V e)) (snd r) (snd r')) (lin_session K O p d m ops) (lin_session K O p d m ops').
Proof. exact C135_raised_thm. Qed.
Print Assumptions C135_raised.

(** C135: the same program in f32 and f64 (or twice in one type).  Two lines with the same settings are given the same calls and the
    same samples, of magnitude at most [M], in any order, [add_to] excepted.  They panic together or not at all, report the same sizes
    and delays, and every sample they return is finite, the two within the rounding errors of the two types of each other.  The lines
    have at most [lim] <= 2^24 slots; no delay asked for is NaN. *)

Theorem C135_types_agree :
  forall (T T' : Type) (K : ctl_ops f32 T) (O : num_ops T) (V : float_view T) (K' : ctl_ops f32 T') (O' : num_ops T') (V' : float_view T'),
    ieee O V -> float_line K O (val V) (fin V) (rnd V) -> ieee O' V' -> float_line K' O' (val V') (fin V') (rnd V') ->
  forall (p : profile) (lim : Z) (M : R) (d : f32) (m : Z) (ops : list (dl_op f32 T)) (ops' : list (dl_op f32 T')),
    (lim <= 2 ^ 24)%Z -> 4 * (IZR lim * M) <= bpow radix2 126 -> 0 <= M ->
    d <> B754_nan -> (0 <= m)%Z -> short lim m ->
    Forall2 (same_call (same_sample V V' M)) ops ops' -> Forall (stays_short lim) ops -> Forall no_sum ops ->
    (forall d', In (DSetDelay d') ops -> d' <> B754_nan) ->
    alike (fun r r' => Forall2 (same_answer (near_answer V V' (8 * (half_ulp V + half_ulp V') * (IZR lim * M) + 4 * (half_tiny V + half_tiny V')))) (snd r) (snd r'))
      (lin_session K O p d m ops) (lin_session K' O' p d m ops').
Proof. exact C135_types_agree_thm. Qed.
Print Assumptions C135_types_agree.

(** Corresponding sessions on a line of 8 slots: samples and 8 times these samples, ... *)
Example C135_raised_hyps :
  let V := ieee_view 24 128 in
  ieee O32 V /\ float_line f32_ctl_f32 O32 (val V) (fin V) (rnd V) /\ short (2 ^ 24) 7
  /\ Forall2 (same_call (raised V 3))
       [DProcess (fl32 1 0); DSetDelay (fl32 5 (-1)); DNextOut; DTapIn (fl32 1 0) 2; DAddTo (fl32 1 0) 2; DSetMaxDelay 20; DClear]
       [DProcess (fl32 8 0); DSetDelay (fl32 5 (-1)); DNextOut; DTapIn (fl32 8 0) 2; DAddTo (fl32 8 0) 2; DSetMaxDelay 20; DClear]
  /\ stays_short (2 ^ 24) (@DSetMaxDelay f32 f32 20).
Proof.
  cbv zeta. assert (E1 : B2R (fl32 1 0) = 1) by (cbn; unfold F2R; cbn; lra). assert (E8 : B2R (fl32 8 0) = 8) by (cbn; unfold F2R; cbn; lra).
  assert (R : raised (ieee_view 24 128) 3 (fl32 1 0) (fl32 8 0)).
  { split; [reflexivity|]. split; [reflexivity|]. cbn [val fmin ieee_view]. rewrite E1, E8. split; [cbn; lra|].
    exists (2 ^ 102)%Z. change (2 ^ 102)%Z with (radix2 ^ 102)%Z. rewrite IZR_Zpower by lia. rewrite <- !bpow_plus. reflexivity. }
  split; [constructor|]. split; [constructor|]. split; [unfold short; lia|]. split; [|cbn; unfold short; lia].
  repeat (constructor; [cbn [same_call]; auto|]). constructor.
Qed.

(** ... and the same samples in f32 and f64. *)
Example C135_types_agree_hyps :
  let V := ieee_view 24 128 in let V' := ieee_view 53 1024 in
  float_line f32_ctl_f32 O32 (val V) (fin V) (rnd V) /\ float_line f32_ctl_f64 O64 (val V') (fin V') (rnd V')
  /\ short 8 7 /\ 4 * (IZR 8 * 1) <= bpow radix2 126 /\ fl32 5 (-1) <> B754_nan
  /\ Forall2 (same_call (same_sample V V' 1))
       [DProcess (fl32 1 0); DSetDelay (fl32 5 (-1)); DNextOut; DTapIn (fl32 1 0) 2; DTapOut 2; DClear]
       [DProcess (fl64 1 0); DSetDelay (fl32 5 (-1)); DNextOut; DTapIn (fl64 1 0) 2; DTapOut 2; DClear].
Proof.
  cbv zeta. assert (E1 : B2R (fl32 1 0) = 1) by (cbn; unfold F2R; cbn; lra). assert (E2 : B2R (fl64 1 0) = 1) by (cbn; unfold F2R; cbn; lra).
  assert (R : same_sample (ieee_view 24 128) (ieee_view 53 1024) 1 (fl32 1 0) (fl64 1 0)).
  { split; [reflexivity|]. split; [reflexivity|]. cbn [val ieee_view]. rewrite E1, E2, Rabs_R1. lra. }
  split; [constructor|]. split; [constructor|]. split; [unfold short; lia|]. split.
  { apply Rle_trans with (bpow radix2 5); [cbn; lra|]. apply bpow_le. lia. }
  split; [intros E; apply (f_equal is_finite) in E; discriminate|].
  repeat (constructor; [cbn [same_call]; auto|]). constructor.
Qed.
