(** Property C112: Schroeder's all-pass section built from a [Delay].

    Vocabulary: [diffuser O p g d m xs] runs the section on the input [xs]
    ([SchroederSpec]); [at_ zero l n] is the [n]-th sample of the list [l] ([EchoSpec]);
    [behind zero x k n] is x[n - k], zero before the start ([LinRun]); [energy x n] is
    the sum of the squares of the first [n] samples ([EqSpec]); [feedback]: x + g v. *)
From Coq Require Import ZArith Reals List Bool Lia Lra.
From Flocq Require Import Core.Core IEEE754.BinarySingleNaN.
From Verif Require Import Base Num NumR NumF FloatSpec Witness DelayM DelaySpec DelayRun LinRun EchoSpec EqSpec SchroederSpec EchoLemmas SchroederLemmas.
Import ListNotations.
Open Scope R_scope.

(** C112: with [Delay::new(d, m)], 1 <= d <= m, the section never panics; in every
    arithmetic what it feeds the line and what it emits obey
    w[n] = x[n] + g w[n - d] and y[n] = w[n - d] - g w[n]. *)

Theorem C112_section :
  forall (T : Type) (O : num_ops T) (p : profile) (g : T) (d m : Z) (xs : list T),
    (1 <= n_size_of O)%Z -> (1 <= d <= m)%Z -> is_usize m -> fits O m ->
    exists s ws ys, diffuser O p g d m xs = Ok (s, ys) /\ length ws = length xs /\ length ys = length xs
      /\ forall n, (n < length xs)%nat ->
           let v := behind (n_zero O) (at_ (n_zero O) ws) (Z.to_nat d) n in
           at_ (n_zero O) ws n = n_add O (at_ (n_zero O) xs n) (n_mul O g v)
           /\ at_ (n_zero O) ys n = n_sub O v (n_mul O g (at_ (n_zero O) ws n)).
Proof. exact C112_section_thm. Qed.
Print Assumptions C112_section.

Example C112_section_hyps : (1 <= n_size_of O64)%Z /\ (1 <= 2 <= 3)%Z /\ is_usize 3 /\ fits O64 3.
Proof. repeat split; easy. Qed.

(** C112, exact arithmetic: the section is y[n] = -g x[n] + x[n - d] + g y[n - d], and for
    |g| <= 1 it is passive: at no time has it emitted more energy than it took in. *)

Theorem C112_passive :
  forall (p : profile) (g : R) (d m : Z) (xs : list R),
    (1 <= d <= m)%Z -> is_usize m -> fits R_ops m ->
    exists s ys, diffuser R_ops p g d m xs = Ok (s, ys) /\ length ys = length xs
      /\ (forall n, (n < length xs)%nat ->
           at_ 0 ys n = - g * at_ 0 xs n + behind 0 (at_ 0 xs) (Z.to_nat d) n + g * behind 0 (at_ 0 ys) (Z.to_nat d) n)
      /\ (Rabs g <= 1 -> forall n, (n <= length xs)%nat -> energy (at_ 0 ys) n <= energy (at_ 0 xs) n).
Proof. exact C112_passive_thm. Qed.
Print Assumptions C112_passive.

Example C112_passive_hyps : (1 <= 2 <= 3)%Z /\ is_usize 3 /\ fits R_ops 3 /\ Rabs (-7 / 10) <= 1.
Proof. repeat split; try easy. apply Rabs_le. lra. Qed.

(** C112: and lossless: an input [us] followed by k d samples of silence comes out with
    all of its energy except at most the fraction g^(2k). *)

Theorem C112_lossless :
  forall (p : profile) (g : R) (d m : Z) (us : list R) (k : nat),
    (1 <= d <= m)%Z -> is_usize m -> fits R_ops m -> Rabs g <= 1 ->
    exists s ys, diffuser R_ops p g d m (us ++ repeat 0 (k * Z.to_nat d)) = Ok (s, ys)
      /\ length ys = (length us + k * Z.to_nat d)%nat
      /\ (1 - g ^ (2 * k)) * energy (at_ 0 us) (length us)
         <= energy (at_ 0 ys) (length ys) <= energy (at_ 0 us) (length us).
Proof. exact C112_lossless_thm. Qed.
Print Assumptions C112_lossless.

Example C112_lossless_hyps : (1 <= 1051 <= 2000)%Z /\ is_usize 2000 /\ fits R_ops 2000 /\ Rabs (7 / 10) <= 1
  /\ 1 - (7 / 10) ^ (2 * 10) > 99 / 100.
Proof. repeat split; try easy. - apply Rabs_le. lra. - cbn. lra. Qed.

(** C112, [f32] and [f64]: the section stays finite and within [Y] for ever if numbers [G],
    [B] and [Y] of the type leave room: |g| B <= G, X + G <= B and B + G <= Y. *)

Theorem C112_float_bound :
  forall (T : Type) (O : num_ops T) (V : float_view T) (p : profile) (g : T) (d m : Z) (xs : list T) (X G B Y : R),
    ieee O V -> (1 <= d <= m)%Z -> is_usize m -> fits O m ->
    fin V g = true -> rnd V G = G -> rnd V B = B -> rnd V Y = Y -> 0 <= B <= fmax V -> Y <= fmax V ->
    Rabs (val V g) * B <= G -> X + G <= B -> B + G <= Y ->
    (forall x, In x xs -> fin V x = true /\ Rabs (val V x) <= X) ->
    exists s ys, diffuser O p g d m xs = Ok (s, ys) /\ length ys = length xs
      /\ forall y, In y ys -> fin V y = true /\ Rabs (val V y) <= Y.
Proof. exact C112_float_bound_thm. Qed.
Print Assumptions C112_float_bound.

Example C112_float_bound_hyps :
  let g := fl32 1 (-1) in let V := ieee_view 24 128 in
  ieee O32 V /\ fin V g = true /\ rnd V 1 = 1 /\ rnd V 2 = 2 /\ rnd V 4 = 4 /\ 0 <= 2 <= fmax V /\ 4 <= fmax V
  /\ Rabs (val V g) * 2 <= 1 /\ 1 + 1 <= 2 /\ 2 + 1 <= 4 /\ (1 <= 3 <= 5)%Z /\ is_usize 5 /\ fits O32 5.
Proof.
  intros g V. unfold g, V. split; [constructor|]. split; [reflexivity|].
  split; [apply (rnd_bpow 24 128 0); easy|]. split; [apply (rnd_bpow 24 128 1); easy|].
  split; [apply (rnd_bpow 24 128 2); easy|].
  split. { cbn. lra. } split. { cbn. lra. }
  split. { unfold fl32. cbn. unfold F2R. cbn. rewrite Rabs_pos_eq; lra. }
  split; [lra|]. split; [lra|]. repeat split; easy.
Qed.
