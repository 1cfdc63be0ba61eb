(** Property C120: a moving sum built from a [Delay] and an accumulator.

    Vocabulary: [comb_into], [moving_sum], [last_sum] ([BoxSpec]); [at_ zero l n] is the [n]-th
    sample of the list [l] ([EchoSpec]); [behind zero x k n] is x[n - k], zero before the start
    ([LinRun]); [stream D k x n] is what a new filter configured with [k] returns for sample [n]
    of [x] ([FltFilterSpec]); [fixed q r]: [r] is a multiple of 2^q ([FixedSpec]). *)
From Coq Require Import ZArith Reals List Bool Lra Lia.
From Flocq Require Import Core.Core IEEE754.BinarySingleNaN.
From Verif Require Import Base Num NumR NumF Witness FloatSpec FilterM RbjM AnalysisM Device Signal FltFilterSpec FltFilterLemmas
  DelayM DelaySpec DelayRun LinRun EchoSpec FixedSpec BoxSpec BoxLemmas.
Import ListNotations.
Open Scope R_scope.

(** C120: on [Delay::new(d, m)], 1 <= d <= m, the program with any filter in place of the
    accumulator never panics; in every arithmetic each output is what the filter, running by
    itself on x[n] - x[n - d], returns. *)

Theorem C120_comb :
  forall (S K T : Type) (D : device S K T) (O : num_ops T) (p : profile) (k : K) (d m : Z) (xs : list T),
    (1 <= n_size_of O)%Z -> (1 <= d <= m)%Z -> is_usize m -> fits O m ->
    exists e ys, comb_into O p D k d m xs = Ok (e, ys) /\ length ys = length xs
      /\ forall n, (n < length xs)%nat ->
           let x := at_ (n_zero O) xs in
           at_ (n_zero O) ys n = stream D k (fun i => n_sub O (x i) (behind (n_zero O) x (Z.to_nat d) i)) n.
Proof. exact C120_comb_thm. Qed.
Print Assumptions C120_comb.

Example C120_comb_hyps : (1 <= n_size_of O64)%Z /\ (1 <= 2 <= 3)%Z /\ is_usize 3 /\ fits O64 3.
Proof. repeat split; easy. Qed.

(** C120, exact arithmetic: the program computes the moving sums. *)

Theorem C120_moving_sum :
  forall (p : profile) (d m : Z) (xs : list R),
    (1 <= d <= m)%Z -> is_usize m -> fits R_ops m ->
    exists e ys, moving_sum R_ops p d m xs = Ok (e, ys) /\ length ys = length xs
      /\ forall n, (n < length xs)%nat -> at_ 0 ys n = last_sum (at_ 0 xs) (Z.to_nat d) n.
Proof. exact C120_moving_sum_thm. Qed.
Print Assumptions C120_moving_sum.

Example C120_moving_sum_hyps : (1 <= 2 <= 3)%Z /\ is_usize 3 /\ fits R_ops 3.
Proof. repeat split; easy. Qed.

(** C120, [f32] and [f64]: for samples that are multiples of 2^q not exceeding [M], with
    (d + 2) M <= 2^(24 + q) (2^(53 + q) in [f64]), the moving sums are exact for ever: not one
    rounding error ever enters the accumulator. *)

Theorem C120_fixed :
  forall (T : Type) (O : num_ops T) (V : float_view T), ieee O V ->
  forall (p : profile) (d m q : Z) (M : R) (xs : list T),
    (1 <= d <= m)%Z -> is_usize m -> fits O m -> (-149 <= q <= 100)%Z ->
    (forall x, In x xs -> fin V x = true /\ fixed q (val V x) /\ Rabs (val V x) <= M) ->
    (IZR d + 2) * M <= bpow radix2 (fprec V + q) ->
    exists e ys, moving_sum O p d m xs = Ok (e, ys) /\ length ys = length xs
      /\ forall n, (n < length xs)%nat ->
           fin V (at_ (n_zero O) ys n) = true
           /\ val V (at_ (n_zero O) ys n) = last_sum (fun i => val V (at_ (n_zero O) xs i)) (Z.to_nat d) n.
Proof. exact C120_fixed_thm. Qed.
Print Assumptions C120_fixed.

(** 16-bit audio over 500 samples in [f32] (q = -15, M = 1). *)
Example C120_fixed_hyps :
  (1 <= 500 <= 500)%Z /\ is_usize 500 /\ fits O32 500 /\ (-149 <= -15 <= 100)%Z
  /\ fixed (-15) (val (ieee_view 24 128) (fl32 32767 (-15))) /\ Rabs (val (ieee_view 24 128) (fl32 32767 (-15))) <= 1
  /\ (500 + 2) * 1 <= bpow radix2 (24 + -15).
Proof.
  assert (E3 : B2R (fl32 32767 (-15)) = 32767 / 32768) by (lit; lra).
  split; [lia|]. split; [easy|]. split; [easy|]. split; [lia|]. cbn [val ieee_view]. rewrite E3.
  split; [exists 32767%Z; cbn; lra|]. split; [rewrite Rabs_pos_eq; lra|]. change (24 + -15)%Z with 9%Z. cbn. lra.
Qed.

(** C120, [f32] and [f64]: whatever is in the accumulator when the last [d] samples were silent
    stays there: after any input [us] the output holds its value through all further silence, so
    rounding errors, once made, are never forgotten. *)

Theorem C120_residue :
  forall (T : Type) (O : num_ops T) (V : float_view T), ieee O V ->
  forall (p : profile) (d m : Z) (us : list T) (k : nat),
    (1 <= d <= m)%Z -> is_usize m -> fits O m ->
    exists e ys, moving_sum O p d m (us ++ repeat (n_zero O) (Z.to_nat d + k)) = Ok (e, ys)
      /\ length ys = (length us + Z.to_nat d + k)%nat
      /\ let n0 := (length us + Z.to_nat d - 1)%nat in
         (fin V (at_ (n_zero O) ys n0) = true ->
          forall n, (n0 <= n < length ys)%nat ->
            fin V (at_ (n_zero O) ys n) = true /\ val V (at_ (n_zero O) ys n) = val V (at_ (n_zero O) ys n0)).
Proof. exact C120_residue_thm. Qed.
Print Assumptions C120_residue.

Example C120_residue_hyps : (1 <= 2 <= 3)%Z /\ is_usize 3 /\ fits O32 3.
Proof. repeat split; easy. Qed.

(** C120: so in general the moving sum is not forgetful, not even of samples that have long left
    the window: after 2^24, 1 and then silence an [f32] moving sum over two samples returns -1
    for ever, although the sum of the last two samples is 0. *)

Theorem C120_forgets_refuted :
  forall (p : profile) (k : nat), exists e ys,
    let xs := [fl32 1 24; fl32 1 0] ++ repeat (n_zero O32) (2 + k) in
    moving_sum O32 p 2 2 xs = Ok (e, ys) /\ length ys = (4 + k)%nat
    /\ forall n, (3 <= n < 4 + k)%nat ->
         val (ieee_view 24 128) (at_ (n_zero O32) ys n) = -1
         /\ last_sum (fun i => val (ieee_view 24 128) (at_ (n_zero O32) xs i)) 2 n = 0.
Proof. exact C120_forgets_refuted_thm. Qed.
Print Assumptions C120_forgets_refuted.
