(** Property C103: inverted polarity and leading silence, bit for bit, in [f32] and [f64].

    Vocabulary: [PolSpec] ([inverted], [same_sample]: equal bits, the sign of a zero left
    open), [Device], [FloatSpec], [DelayRun], [LinRun]. *)
From Coq Require Import ZArith Reals List Bool Lra Lia.
From Flocq Require Import Core.Core IEEE754.BinarySingleNaN.
From Verif Require Import Base Num NumF FloatSpec FilterM RbjM AnalysisM Device DelayM LinDelayM DelaySpec DelayRun
  LinRun LinFloatSpec Witness CrLibm PolSpec PolLemmas.
Import ListNotations.
Open Scope R_scope.

(** C103: inverting the polarity of the input inverts the output, bit for bit. *)
Theorem C103_polarity :
  forall (T : Type) (O : num_ops T) (V : float_view T), ieee O V ->
  forall (S K : Type) (D : device S K T), signed_device O D ->
  forall before calls,
    Forall2 (answers (inverted O V)) (returns D before calls)
            (returns D (map (invert_call O) before) (map (invert_call O) calls)).
Proof. exact C103_polarity_thm. Qed.
Print Assumptions C103_polarity.

Example C103_polarity_hyps :
  ieee O32 (ieee_view 24 128) /\ signed_device O32 (dev_rbj O32 HighShelf)
  /\ invert_call O32 (CProcess (fl32 3 (-1)) : call (f32 * f32) f32) = CProcess (fl32 (-3) (-1)).
Proof.
  split; [apply ieee_f32|]. split; [apply sd_rbj|]. cbn. f_equal. apply B2SF_inj. vm_compute. reflexivity.
Qed.

(** C103: the sign of a zero really is left open: fed +0 and -0, a new [OneZero] returns +0
    both times. *)
Theorem C103_zero_sign_refuted :
  forall (lm : libm f32) (b : bool),
    let O := f32_ops lm b in
    ~ (forall x y, returns (dev_one_zero O) [] [CProcess x] = [Some y] ->
                   returns (dev_one_zero O) [] [CProcess (n_neg O x)] = [Some (n_neg O y)]).
Proof. exact C103_zero_sign_refuted_thm. Qed.
Print Assumptions C103_zero_sign_refuted.

(** C103: silence fed to a cleared processor comes out as silence and is inaudible later:
    the processor goes on as if it had only just been cleared. *)
Theorem C103_leading_silence :
  forall (T : Type) (O : num_ops T) (V : float_view T), ieee O V ->
  forall (S K : Type) (D : device S K T) (ok : K -> Prop), tame O V D ok ->
  forall before z n calls, all_set ok before -> zero_sample V z -> reads_after_process calls ->
    Forall (fun r => match r with Some y => zero_sample V y | None => False end)
           (returns D (before ++ [CClear]) (repeat (CProcess z) n))
    /\ Forall2 (answers (same_sample V)) (returns D (before ++ [CClear] ++ repeat (CProcess z) n) calls)
               (returns D (before ++ [CClear]) calls).
Proof. exact C103_leading_silence_thm. Qed.
Print Assumptions C103_leading_silence.

(** A leaky integrator, a biquad, and silence made of negative zeros. *)
Example C103_leading_silence_hyps :
  let O := f32_ops (cr_libm 24 128) false in let V := ieee_view 24 128 in
  ieee O V /\ tame O V (dev_leaky O) (fun _ => True) /\ all_set (fun _ => True) [CSet (fl32 1 (-1)); CProcess (fl32 3 0)]
  /\ tame O V (dev_biquad2 O) (finite5 V) /\ finite5 V (fl32 1 0, fl32 3 (-2), fl32 1 (-3), fl32 (-3) (-1), fl32 5 (-3))
  /\ zero_sample V (B754_zero true : f32)
  /\ reads_after_process [CSet (fl32 1 (-2)); CProcess (fl32 1 0); CLastOut].
Proof.
  cbv zeta. split; [apply ieee_f32|]. split; [apply tame_leaky|]. split; [intros k _; exact I|].
  split; [apply tame_biquad2|]. split; [repeat split|]. split; [split; reflexivity|exact I].
Qed.

(** C103: the delay lines invert too, with all their taps, in every build profile; and a
    session panics or hangs with inverted samples exactly when it did before. *)
Theorem C103_delay_polarity :
  forall (T : Type) (O : num_ops T) (V : float_view T), ieee O V ->
  forall (p : profile) (d m : Z) (ops : list (dl_op Z T)),
    inverted_session O V (dl_session O p d m ops) (dl_session O p d m (map (invert_op O) ops)).
Proof. exact C103_delay_polarity_thm. Qed.
Print Assumptions C103_delay_polarity.

(** C103: the same for [LinearDelay] with any delay times, including the ones that blow up. *)
Theorem C103_linear_delay_polarity :
  forall (C T : Type) (K : ctl_ops C T) (O : num_ops T) (V : float_view T), ieee O V ->
  forall (p : profile) (d : C) (m : Z) (ops : list (dl_op C T)),
    inverted_session O V (lin_session K O p d m ops) (lin_session K O p d m (map (invert_op O) ops)).
Proof. exact C103_linear_delay_polarity_thm. Qed.
Print Assumptions C103_linear_delay_polarity.

(** A session on a line of five slots that ends with samples, not with a panic. *)
Example C103_delay_polarity_hyps (a b : f64) :
  exists s os, dl_session O64 Debug 2 4 [DProcess a; DTapIn b 0; DAddTo b 1; DProcess a; DNextOut] = Ok (s, os)
  /\ map (invert_op O64) [DProcess a; DTapIn b 0; DAddTo b 1; DProcess a; @DNextOut Z f64]
     = [DProcess (Bopp a); DTapIn (Bopp b) 0; DAddTo (Bopp b) 1; DProcess (Bopp a); DNextOut].
Proof. do 2 eexists. split; reflexivity. Qed.
