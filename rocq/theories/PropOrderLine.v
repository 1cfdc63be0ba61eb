(** Property C118, delay lines: [Delay] and [LinearDelay] preserve the order of signals in [f32]
    and [f64].

    Vocabulary: [below] ([OrderSpec]); [raised_op], [obs_below], [session_below], [ieee_line],
    [on_grid], [grid_op] ([OrderLineSpec]); [dl_session O p d m ops] is [Delay::new(d, m)] followed by
    the calls [ops] in build profile [p] ([DelayRun]), [lin_session] the same for [LinearDelay]
    ([LinRun]). *)
From Coq Require Import ZArith Reals List Bool Lra Lia.
From Flocq Require Import Core.Core IEEE754.BinarySingleNaN.
From Verif Require Import Base Num NumF Witness FloatSpec DelayM LinDelayM DelaySpec DelayRun LinRun
  FltFilterLemmas OrderSpec OrderLineSpec OrderLineLemmas.
Import ListNotations.
Open Scope R_scope.

(** C118: two integer delay lines are given the same calls, except that the samples processed,
    tapped in or added by the second are not smaller.  Then nothing the second returns is smaller,
    whatever is set, cleared, tapped and grown; and one session panics exactly when the other
    does. *)
Theorem C118_delay :
  forall (T : Type) (O : num_ops T) (V : float_view T), ieee O V ->
  forall (p : profile) (d m : Z) (ops ops' : list (dl_op Z T)),
    Forall2 (raised_op V) ops ops' ->
    session_below V (dl_session O p d m ops) (dl_session O p d m ops').
Proof. exact C118_delay_thm. Qed.
Print Assumptions C118_delay.

Example C118_delay_hyps :
  let V := ieee_view 24 128 in
  ieee O32 V
  /\ Forall2 (raised_op V) [DProcess (fl32 1 0); DTapIn (fl32 (-1) 0) 1; DSetDelay 3%Z; DProcess (fl32 1 0)]
                           [DProcess (fl32 2 0); DTapIn (fl32 (-1) (-1)) 1; DSetDelay 3%Z; DProcess (fl32 1 0)].
Proof.
  split; [constructor|].
  constructor; [apply ro_process; intros _ _; cbn [val ieee_view]; lit; lra|].
  constructor; [apply ro_tap_in; intros _ _; cbn [val ieee_view]; lit; lra|].
  constructor; [apply ro_same|]. constructor; [apply ro_same|constructor].
Qed.

(** C118: the same for [LinearDelay] when every delay asked for is a multiple of 2^-j samples
    that [f32] resolves along the whole line (whole samples: j = 0, up to 2^24 slots). *)
Theorem C118_linear_delay :
  forall (T : Type) (K : ctl_ops f32 T) (O : num_ops T) (V : float_view T), ieee_line K O V ->
  forall (p : profile) (j n m : Z) (d : f32) (ops ops' : list (dl_op f32 T)),
    (0 <= j)%Z -> ((n + 1) * 2 ^ j <= 2 ^ 24)%Z -> (0 <= m <= n)%Z -> on_grid j d ->
    Forall (grid_op j n) ops -> Forall2 (raised_op V) ops ops' ->
    session_below V (lin_session K O p d m ops) (lin_session K O p d m ops').
Proof. exact C118_linear_delay_thm. Qed.
Print Assumptions C118_linear_delay.

(** Quarter-sample delays on a line that may grow to a million slots. *)
Example C118_linear_delay_hyps :
  let V := ieee_view 24 128 in
  ieee_line f32_ctl_f32 O32 V /\ (0 <= 2)%Z /\ ((1000000 + 1) * 2 ^ 2 <= 2 ^ 24)%Z /\ on_grid 2 (fl32 5 (-2))
  /\ Forall (grid_op 2 1000000) [DProcess (fl32 1 0); DSetMaxDelay 5000; DSetDelay (fl32 11 (-2)); DNextOut]
  /\ Forall2 (raised_op V) [DProcess (fl32 1 0); DSetMaxDelay 5000; DSetDelay (fl32 11 (-2)); DNextOut]
                           [DProcess (fl32 3 0); DSetMaxDelay 5000; DSetDelay (fl32 11 (-2)); DNextOut].
Proof.
  split; [constructor|]. split; [lia|]. split; [lia|].
  split; [split; [reflexivity|]; exists 5%Z; lit; simpl; lra|]. split.
  - repeat constructor; cbn; try lia. exists 11%Z. lit. simpl. lra.
  - constructor; [apply ro_process; intros _ _; cbn [val ieee_view]; lit; lra|]. repeat constructor.
Qed.

(** C118: with delays that [f32] cannot resolve it does not, on any line of 2 to 2^24 slots: with
    a delay of at most 2^-25 samples a first sample of 0 comes out as 0, and the larger 1 as -m. *)
Theorem C118_linear_delay_refuted :
  forall (T : Type) (K : ctl_ops f32 T) (O : num_ops T) (V : float_view T), ieee_line K O V ->
  forall (p : profile) (d : f32) (m : Z),
    (1 <= m < 2 ^ 24)%Z -> is_finite d = true -> 0 < B2R d <= bpow radix2 (-25) ->
    exists (s s' : lin_delay f32 T) (y y' : T),
      lin_session K O p d m [DProcess (n_zero O)] = Ok (s, [OSample y])
      /\ lin_session K O p d m [DProcess (n_one O)] = Ok (s', [OSample y'])
      /\ fin V y = true /\ val V y = 0 /\ fin V y' = true /\ val V y' = - IZR m.
Proof. exact C118_linear_delay_refuted_thm. Qed.
Print Assumptions C118_linear_delay_refuted.

Example C118_linear_delay_refuted_hyps :
  ieee_line f32_ctl_f32 O32 (ieee_view 24 128) /\ (1 <= 7 < 2 ^ 24)%Z
  /\ is_finite (fl32 1 (-34)) = true /\ 0 < B2R (fl32 1 (-34)) <= bpow radix2 (-25).
Proof. split; [constructor|]. split; [lia|]. split; [reflexivity|]. cbn. unfold F2R; cbn. lra. Qed.
