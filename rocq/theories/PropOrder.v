(** Property C118: filters that preserve the order of signals in [f32] and [f64], rounding
    included.

    Vocabulary: [below], [raised], [answers_below], [orderly], [sets_ok] ([OrderSpec]);
    [returns D before calls]: what the calls return after the calls [before] on a new object
    ([Device]); [stream D k x n]: what a new object configured with [k] returns for sample [n] of
    [x] ([FltFilterSpec]). *)
From Coq Require Import ZArith Reals List Bool Lra.
From Flocq Require Import Core.Core IEEE754.BinarySingleNaN.
From Verif Require Import Base Num NumF Witness FloatSpec FilterM RbjM AnalysisM Device FltFilterSpec FltFilterLemmas OrderSpec OrderLemmas.
Import ListNotations.
Open Scope R_scope.

(** C118: two objects of the same type are given the same calls, except that the second one is
    fed samples that are not smaller.  If all coefficients set are pushing, then after any number
    of calls nothing the second one returns is smaller, whatever was rounded on the way. *)
Theorem C118_order :
  forall (T : Type) (O : num_ops T) (V : float_view T), ieee O V ->
  forall (S K : Type) (D : device S K T) (ok : K -> Prop), orderly O V D ok ->
  forall (calls calls' : list (call K T)),
    sets_ok ok calls -> Forall2 (raised V) calls calls' ->
    Forall2 (answers_below V) (returns D [] calls) (returns D [] calls').
Proof. exact C118_order_thm. Qed.
Print Assumptions C118_order.

Example C118_order_hyps :
  let O := O32 in let V := ieee_view 24 128 in
  ieee O V /\ sets_ok (fun '(b0, a1) => 0 <= val V b0 /\ val V a1 <= 0) [CSet (fl32 1 (-4), fl32 (-15) (-4)); CProcess (fl32 1 (-3))]
  /\ Forall2 (raised V) [CSet (fl32 1 (-4), fl32 (-15) (-4)); CProcess (fl32 1 (-3)); CLastOut]
                        [CSet (fl32 1 (-4), fl32 (-15) (-4)); CProcess (fl32 1 (-2)); CLastOut].
Proof.
  split; [constructor|]. split.
  - constructor; [split; cbn [val ieee_view]; lit; lra|]. constructor; [exact I|constructor].
  - constructor; [apply raised_same|]. constructor; [|constructor; [apply raised_same|constructor]].
    apply raised_more. intros _ _. cbn [val ieee_view]. lit. lra.
Qed.

(** C118: so a signal that starts at or above zero and never falls comes out, from a newly
    configured filter of this kind, as a signal that never falls: a step is smoothed without the
    slightest dip. *)
Theorem C118_rising :
  forall (T : Type) (O : num_ops T) (V : float_view T), ieee O V ->
  forall (S K : Type) (D : device S K T) (ok : K -> Prop), orderly O V D ok ->
  forall (k : K) (x : nat -> T), ok k ->
    below V (n_zero O) (x 0%nat) -> (forall n, below V (x n) (x (Datatypes.S n))) ->
    forall n, below V (stream D k x n) (stream D k x (Datatypes.S n)).
Proof. exact C118_rising_thm. Qed.
Print Assumptions C118_rising.

Example C118_rising_hyps :
  let O := O32 in let V := ieee_view 24 128 in
  pushing V (fl32 1 0, fl32 1 1, fl32 1 0, fl32 (-1) (-1), fl32 (-1) (-2))
  /\ below V (n_zero O) (fl32 1 0) /\ forall n : nat, below V ((fun _ => fl32 1 0) n) ((fun _ => fl32 1 0) (S n)).
Proof.
  split; [repeat split; cbn [val ieee_view]; lit; lra|]. split; [intros _ _; cbn [val ieee_view]; lit; lra|].
  intros n _ _. apply Rle_refl.
Qed.

(** C118: [LeakyIntegrator] computes the same one-pole filter as x + alpha (y - x), and that does
    not preserve the order: after 1.5, with alpha = 1/2, the larger of two samples gives the
    smaller output in [f32]. *)
Theorem C118_leaky_refuted :
  forall (lm : libm f32) (b : bool),
    let O := f32_ops lm b in
    exists y y' : f32,
      returns (dev_leaky O) [] [CSet (n_zero O); CProcess (fl32 3 (-1)); CSet (fl32 1 (-1)); CProcess (fl32 2 (-25))]
        = [None; Some (fl32 3 (-1)); None; Some y]
      /\ returns (dev_leaky O) [] [CSet (n_zero O); CProcess (fl32 3 (-1)); CSet (fl32 1 (-1)); CProcess (fl32 3 (-25))]
        = [None; Some (fl32 3 (-1)); None; Some y']
      /\ B2R (fl32 2 (-25)) < B2R (fl32 3 (-25)) /\ B2R y' < B2R y.
Proof. exact C118_leaky_refuted_thm. Qed.
Print Assumptions C118_leaky_refuted.
