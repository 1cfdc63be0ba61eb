(** Property C129: delay lines in series with each other and with the processors.

    Vocabulary: [gear], [sound], [latency], [boxes], [late], [empty_line], [silent] ([RackSpec]); [same_sample]: equal
    bits, the sign of a zero left open ([PolSpec]). *)
From Coq Require Import ZArith Reals List Bool Lia Lra.
From Flocq Require Import Core.Core IEEE754.BinarySingleNaN.
From Verif Require Import Base Num NumF Witness FloatSpec DelayM DelaySpec DelayRun FilterM RbjM AnalysisM Device PolSpec RackSpec RackLemmas.
Import ListNotations.
Open Scope Z_scope.

Ltac sane := repeat constructor; unfold op_sane, is_usize, op_usize; repeat split;
  try discriminate; try (intros; discriminate); easy.
Ltac history := unfold dl_history, is_usize; split; [easy|];
  split; [easy|]; split; [discriminate|]; split; [sane|];
  eexists; vm_compute; reflexivity.

(** C129: delay lines in series delay by the sum of their delays, exactly, whatever the number type. *)
Theorem C129_lines :
  forall (T : Type) (O : num_ops T) (p : profile) (lines : list (delay T)) (xs : list T),
    1 <= n_size_of O -> Forall (empty_line O p) lines ->
    sound p (map GLine lines) xs = Ok (late O (latency (map GLine lines)) xs).
Proof. exact C129_lines_thm. Qed.
Print Assumptions C129_lines.

(** Three lines: a new one, one whose delay was clipped to its maximum, and one that was used and cleared. *)
Example C129_lines_hyps (a b : f64) :
  1 <= n_size_of O64 /\ exists s1 s2 s3, Forall (empty_line O64 Debug) [s1; s2; delay_clear O64 s3]
    /\ latency (map GLine [s1; s2; delay_clear O64 s3]) = 2 + 4 + 1.
Proof.
  split; [easy|]. do 3 eexists. split.
  - constructor; [apply (el_new _ _ 2 5); [easy|easy|easy|reflexivity]|].
    constructor; [apply (el_new _ _ 9 4); [easy|easy|easy|reflexivity]|].
    constructor; [|constructor]. apply (el_cleared _ _ 3 6 [DProcess a; DSetDelay 1; DProcess b]); [history|reflexivity].
  - vm_compute. reflexivity.
Qed.

(** C129: a rack sounds like its processors without the delay lines, late by the sum of the delays, bit for bit. *)
Theorem C129_latency :
  forall (T : Type) (O : num_ops T) (V : float_view T), ieee O V ->
  forall (p : profile) (rack : list (gear T)) (xs : list T), Forall (silent O p V) rack ->
    exists ys zs, sound p rack xs = Ok ys /\ sound p (boxes rack) xs = Ok zs
      /\ Forall2 (same_sample V) ys (late O (latency rack) zs).
Proof. exact C129_latency_thm. Qed.
Print Assumptions C129_latency.

(** A biquad between two delay lines, and a detector at the end. *)
Example C129_latency_hyps :
  ieee O32 (ieee_view 24 128) /\ exists s1 s2,
    Forall (silent O32 Release (ieee_view 24 128))
      [GLine s1; GBox (dev_biquad2 O32) (after (dev_biquad2 O32) ([CSet (fl32 1 0, fl32 3 (-2), fl32 1 (-3), fl32 (-3) (-1), fl32 5 (-3))] ++ [CClear]));
       GLine s2; GBox (dev_peak O32) (after (dev_peak O32) ([] ++ [CClear]))]
    /\ delay_get_delay s1 = 2 /\ delay_get_delay s2 = 3.
Proof.
  split; [apply ieee_f32|]. do 2 eexists. split; [|split].
  - constructor; [apply si_line; apply (el_new _ _ 2 5); [easy|easy|easy|reflexivity]|].
    constructor; [eapply si_box; [apply tame_biquad2|]; intros k [E|[]]; injection E as <-; repeat split|].
    constructor; [apply si_line; apply (el_new _ _ 3 3); [easy|easy|easy|reflexivity]|].
    constructor; [eapply si_box; [apply tame_peak|]; intros k []|constructor].
  - reflexivity.
  - reflexivity.
Qed.

(** C129: it does not matter where in the rack the delay is inserted, nor in how many lines: two racks with the same
    processors and the same total delay sound the same, and wherever the samples are finite their difference is zero. *)
Theorem C129_placement :
  forall (T : Type) (O : num_ops T) (V : float_view T), ieee O V ->
  forall (p : profile) (rack rack' : list (gear T)) (xs : list T),
    Forall (silent O p V) rack -> Forall (silent O p V) rack' ->
    boxes rack = boxes rack' -> latency rack = latency rack' ->
    exists ys ys', sound p rack xs = Ok ys /\ sound p rack' xs = Ok ys'
      /\ Forall2 (same_sample V) ys ys'
      /\ Forall2 (fun y y' => fin V y = true -> zero_sample V (n_sub O y y')) ys ys'.
Proof. exact C129_placement_thm. Qed.
Print Assumptions C129_placement.

(** A one-pole filter with a delay of 3 before it, or 1 before it and 2 after it. *)
Example C129_placement_hyps :
  let box := GBox (dev_one_pole O64) (after (dev_one_pole O64) ([CSet (fl64 1 (-1), fl64 (-1) (-1))] ++ [CClear])) in
  ieee O64 (ieee_view 53 1024) /\ exists a b c,
    Forall (silent O64 Debug (ieee_view 53 1024)) [GLine a; box] /\ Forall (silent O64 Debug (ieee_view 53 1024)) [GLine b; box; GLine c]
    /\ boxes [GLine a; box] = boxes [GLine b; box; GLine c] /\ latency [GLine a; box] = latency [GLine b; box; GLine c].
Proof.
  cbv zeta. split; [apply ieee_f64|]. do 3 eexists. split; [|split; [|split]].
  - constructor; [apply si_line; apply (el_new _ _ 3 3); [easy|easy|easy|reflexivity]|].
    constructor; [eapply si_box; [apply tame_one_pole|]; intros k [E|[]]; injection E as <-; repeat split|constructor].
  - constructor; [apply si_line; apply (el_new _ _ 1 3); [easy|easy|easy|reflexivity]|].
    constructor; [eapply si_box; [apply tame_one_pole|]; intros k [E|[]]; injection E as <-; repeat split|].
    constructor; [apply si_line; apply (el_new _ _ 2 3); [easy|easy|easy|reflexivity]|constructor].
  - reflexivity.
  - reflexivity.
Qed.

(** C129: the sign of a zero does depend on the order: a delay of one sample and a [OnePole] that inverts the signal
    start with -0 in one order and with +0 in the other. *)
Theorem C129_zero_sign_refuted :
  forall (lm : libm f32) (b : bool) (p : profile),
    let O := f32_ops lm b in let V := ieee_view 24 128 in
    ~ (forall rack rack' xs ys ys', Forall (silent O p V) rack -> Forall (silent O p V) rack' ->
         boxes rack = boxes rack' -> latency rack = latency rack' ->
         sound p rack xs = Ok ys -> sound p rack' xs = Ok ys' -> ys = ys').
Proof. exact C129_zero_sign_refuted_thm. Qed.
Print Assumptions C129_zero_sign_refuted.
