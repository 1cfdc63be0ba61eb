(** Property C106: feedback echoes built from the delay lines.

    Vocabulary: [EchoSpec] ([echo], [delay_echo], [tap_echo], [lin_echo], [feedback]);
    [behind zero y k n] is the sample [k] before number [n], [zero] before the start
    ([LinRun]); [fits O m]: a buffer for [m] samples of delay can be allocated. *)
From Coq Require Import ZArith Reals List Bool Lia Lra.
From Flocq Require Import Core.Core IEEE754.BinarySingleNaN.
From Verif Require Import Base Num NumR NumF FloatSpec Witness DelayM LinDelayM DelaySpec DelayRun LinRun EchoSpec EchoLemmas.
Import ListNotations.
Open Scope R_scope.

(** C106: an echo made with [Delay::new(d, m)], 1 <= d <= m, and any mixing function never
    panics, and each of its samples is the mixture of the input sample and the output sample
    [d] earlier: exactly, in every arithmetic.  Peeking with [tap_out(d - 1)] instead of
    [next_out()] gives the same output. *)

Theorem C106_delay_echo :
  forall (T : Type) (O : num_ops T) (p : profile) (mix : T -> T -> T) (d m : Z) (xs : list T),
    (1 <= n_size_of O)%Z -> (1 <= d <= m)%Z -> is_usize m -> fits O m ->
    exists s s' ys, delay_echo O p mix d m xs = Ok (s, ys) /\ tap_echo O p mix d m xs = Ok (s', ys)
      /\ length ys = length xs
      /\ forall n, (n < length xs)%nat ->
           at_ (n_zero O) ys n = mix (at_ (n_zero O) xs n) (behind (n_zero O) (at_ (n_zero O) ys) (Z.to_nat d) n).
Proof. exact C106_delay_echo_thm. Qed.
Print Assumptions C106_delay_echo.

Example C106_delay_echo_hyps :
  (1 <= n_size_of O64)%Z /\ (1 <= 2 <= 3)%Z /\ is_usize 3 /\ fits O64 3.
Proof. repeat split; easy. Qed.

(** C106, exact arithmetic: the output of the feedback comb with delay [d] and gain [g] is the
    input plus its echoes, y[n] = sum of g^k x[n - k d]; with |g| < 1 an input within [X]
    stays within X / (1 - |g|). *)

Theorem C106_comb :
  forall (p : profile) (g : R) (d m : Z) (xs : list R) (X : R),
    (1 <= d <= m)%Z -> is_usize m -> fits R_ops m ->
    exists s ys, delay_echo R_ops p (feedback R_ops g) d m xs = Ok (s, ys) /\ length ys = length xs
      /\ (forall n, (n < length xs)%nat ->
           at_ 0 ys n = sum_f_R0 (fun k => g ^ k * at_ 0 xs (n - k * Z.to_nat d)%nat) (n / Z.to_nat d))
      /\ (Rabs g < 1 -> (forall n, Rabs (at_ 0 xs n) <= X) ->
          forall n, (n < length xs)%nat -> Rabs (at_ 0 ys n) <= X / (1 - Rabs g)).
Proof. exact C106_comb_thm. Qed.
Print Assumptions C106_comb.

Example C106_comb_hyps : (1 <= 2 <= 3)%Z /\ is_usize 3 /\ fits R_ops 3 /\ Rabs (1 / 2) < 1.
Proof. repeat split; try easy. rewrite Rabs_pos_eq; lra. Qed.

(** C106, [LinearDelay]: with a fractional delay d = k + f of at least one sample the echo
    mixes in the interpolated output (1 - f) y[n - k] + f y[n - k - 1]; the feedback comb is
    bounded as before. *)

Theorem C106_linear_echo :
  forall (p : profile) (mix : R -> R -> R) (d : R) (m : Z) (xs : list R),
    is_usize m -> fits R_ops m -> 1 <= d <= IZR m ->
    let k := Z.to_nat (Zfloor d) in
    let f := d - IZR (Zfloor d) in
    exists s ys, lin_echo R_ctl R_ops p mix d m xs = Ok (s, ys) /\ length ys = length xs
      /\ (forall n, (n < length xs)%nat ->
           at_ 0 ys n = mix (at_ 0 xs n) ((1 - f) * behind 0 (at_ 0 ys) k n + f * behind 0 (at_ 0 ys) (k + 1) n))
      /\ (forall g X, mix = feedback R_ops g -> Rabs g < 1 -> (forall n, Rabs (at_ 0 xs n) <= X) ->
          forall n, (n < length xs)%nat -> Rabs (at_ 0 ys n) <= X / (1 - Rabs g)).
Proof. exact C106_linear_echo_thm. Qed.
Print Assumptions C106_linear_echo.

Example C106_linear_echo_hyps : is_usize 7 /\ fits R_ops 7 /\ 1 <= 5 / 2 <= IZR 7 /\ Rabs (1 / 2) < 1.
Proof. split; [easy|]. split; [discriminate|]. split; [lra|]. rewrite Rabs_pos_eq; lra. Qed.

(** C106, [f32] and [f64]: the feedback comb stays within [B] for ever, and finite, if numbers
    [G] and [B] of the type leave room: |g| B <= G and X + G <= B. *)

Theorem C106_float_bound :
  forall (T : Type) (O : num_ops T) (V : float_view T) (p : profile) (g : T) (d m : Z) (xs : list T) (X G B : R),
    ieee O V -> (1 <= d <= m)%Z -> is_usize m -> fits O m ->
    fin V g = true -> rnd V G = G -> rnd V B = B -> 0 <= B <= fmax V ->
    Rabs (val V g) * B <= G -> X + G <= B ->
    (forall x, In x xs -> fin V x = true /\ Rabs (val V x) <= X) ->
    exists s ys, delay_echo O p (feedback O g) d m xs = Ok (s, ys) /\ length ys = length xs
      /\ forall y, In y ys -> fin V y = true /\ Rabs (val V y) <= B.
Proof. exact C106_float_bound_thm. Qed.
Print Assumptions C106_float_bound.

Example C106_float_bound_hyps :
  let g := fl32 1 (-1) in let V := ieee_view 24 128 in
  ieee O32 V /\ fin V g = true /\ rnd V 1 = 1 /\ rnd V 2 = 2 /\ 0 <= 2 <= fmax V
  /\ Rabs (val V g) * 2 <= 1 /\ 1 + 1 <= 2 /\ (1 <= 3 <= 5)%Z /\ is_usize 5 /\ fits O32 5.
Proof.
  intros g V. unfold g, V. split; [constructor|]. split; [reflexivity|].
  split; [apply (rnd_bpow 24 128 0); easy|]. split; [apply (rnd_bpow 24 128 1); easy|].
  split. { cbn. lra. }
  split. { unfold fl32. cbn. unfold F2R. cbn. rewrite Rabs_pos_eq; lra. }
  split; [lra|]. repeat split; easy.
Qed.
