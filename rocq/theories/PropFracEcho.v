(** Property C134: echoes with a fractional delay in [f32] and [f64].

    Vocabulary: [lin_echo K O p mix d m xs] is the program "let v = line.next_out(); let y = mix(x, v); line.process(y); emit y" on
    [LinearDelay::new(d, m)] ([EchoSpec]); [float_line] says that the line is one of f32 or f64 samples, its delay an f32
    ([LinFloatSpec]); [interpolated d y n] is the value [d] samples before number [n] of [y] ([FracEchoSpec]); [feedback O g x v] is
    x + g * v; [at_ z l n] is sample [n] of the list [l]. *)
From Coq Require Import ZArith Reals List Bool Lia Lra.
From Flocq Require Import Core.Core IEEE754.BinarySingleNaN.
From Verif Require Import Base Num NumR NumF FloatSpec Witness DelayM LinDelayM DelaySpec DelayRun LinSpec LinRun LinFloatSpec EchoSpec TrackSpec
  FracEchoSpec FracEchoLemmas.
Import ListNotations.
Open Scope R_scope.

(** C134: an echo with any mixing function on [LinearDelay::new(d, m)], 2 <= d <= m < 2^24, never panics; each sample is the mixture of
    the input with a value [v] read from the line, and while the samples emitted so far are finite and within [B], that value is
    finite, within B (up to rounding), and within (m + 2) 2^-22 B of the ideal interpolation of the output [d] samples ago. *)

Theorem C134_fractional_echo :
  forall (T : Type) (K : ctl_ops f32 T) (O : num_ops T) (val : T -> R) (fin : T -> bool) (rnd : R -> R),
    float_line K O val fin rnd ->
  forall (p : profile) (mix : T -> T -> T) (d : f32) (m : Z) (xs : list T),
    (0 <= m)%Z -> short (2 ^ 24) m -> is_finite d = true -> 2 <= B2R d <= IZR m ->
    exists s ys vs, lin_echo K O p mix d m xs = Ok (s, ys) /\ length ys = length xs /\ length vs = length xs
      /\ forall n, (n < length xs)%nat ->
           at_ (n_zero O) ys n = mix (at_ (n_zero O) xs n) (at_ (n_zero O) vs n)
           /\ forall B, 0 <= B <= bpow radix2 126 ->
                (forall j, (j < n)%nat -> fin (at_ (n_zero O) ys j) = true /\ Rabs (val (at_ (n_zero O) ys j)) <= B) ->
                let v := at_ (n_zero O) vs n in
                fin v = true
                /\ Rabs (val v) <= (1 + bpow radix2 (-22)) * B + bpow radix2 (-148)
                /\ Rabs (val v - interpolated (B2R d) (fun j => val (at_ (n_zero O) ys j)) n)
                   <= IZR (m + 2) * bpow radix2 (-22) * B + bpow radix2 (-148).
Proof. exact C134_fractional_echo_thm. Qed.
Print Assumptions C134_fractional_echo.

(** C134: the feedback comb y[n] = x[n] + g y[n - d] with a fractional delay.  If numbers [G] and [B] of the type leave room for the
    input and the rounding of the interpolation, every output is finite and within [B], for ever; and the output stays within a fixed
    distance of the exact comb [z], for ever. *)

Theorem C134_comb :
  forall (T : Type) (K : ctl_ops f32 T) (O : num_ops T) (V : float_view T),
    ieee O V -> float_line K O (val V) (fin V) (rnd V) ->
  forall (p : profile) (g : T) (d : f32) (m : Z) (xs : list T) (X G B : R),
    (0 <= m)%Z -> short (2 ^ 24) m -> is_finite d = true -> 2 <= B2R d <= IZR m ->
    fin V g = true -> rnd V G = G -> rnd V B = B -> 0 <= X -> 0 <= B <= bpow radix2 126 ->
    Rabs (val V g) * ((1 + bpow radix2 (-22)) * B + bpow radix2 (-148)) <= G -> X + G <= B ->
    (forall x, In x xs -> fin V x = true /\ Rabs (val V x) <= X) ->
    exists s ys, lin_echo K O p (feedback O g) d m xs = Ok (s, ys) /\ length ys = length xs
      /\ (forall y, In y ys -> fin V y = true /\ Rabs (val V y) <= B)
      /\ forall z : nat -> R, Rabs (val V g) < 1 ->
           (forall n, z n = val V (at_ (n_zero O) xs n) + val V g * interpolated (B2R d) z n) ->
           forall n, (n < length xs)%nat ->
             Rabs (val V (at_ (n_zero O) ys n) - z n)
             <= (Rabs (val V g) * (IZR (m + 2) * bpow radix2 (-22) * B + bpow radix2 (-148))
                 + half_ulp V * (G + B) + 2 * half_tiny V) / (1 - Rabs (val V g)).
Proof. exact C134_comb_thm. Qed.
Print Assumptions C134_comb.

(** C134: the exact comb of [C134_comb] exists, for every input, gain and delay of at least 1, and is unique. *)

Theorem C134_exact_comb :
  forall (x : nat -> R) (g d : R), 1 <= d ->
    (exists z : nat -> R, forall n, z n = x n + g * interpolated d z n)
    /\ (forall z z' : nat -> R, (forall n, z n = x n + g * interpolated d z n) -> (forall n, z' n = x n + g * interpolated d z' n) ->
          forall n, z n = z' n).
Proof. exact C134_exact_comb_thm. Qed.
Print Assumptions C134_exact_comb.

(** The premises of the theorems above on a line of 8 f32 samples with a delay of 5/2, a feedback of 1/2 and samples within 1. *)
Example C134_hyps :
  ieee O32 (ieee_view 24 128)
  /\ float_line f32_ctl_f32 O32 (val (ieee_view 24 128)) (fin (ieee_view 24 128)) (rnd (ieee_view 24 128))
  /\ short (2 ^ 24) 7 /\ is_finite (fl32 5 (-1)) = true /\ 2 <= B2R (fl32 5 (-1)) <= IZR 7
  /\ is_finite (fl32 1 (-1)) = true /\ Rabs (B2R (fl32 1 (-1))) < 1
  /\ rnd (ieee_view 24 128) 3 = 3 /\ rnd (ieee_view 24 128) 4 = 4 /\ 0 <= 4 <= bpow radix2 126
  /\ Rabs (B2R (fl32 1 (-1))) * ((1 + bpow radix2 (-22)) * 4 + bpow radix2 (-148)) <= 3 /\ 1 + 3 <= 4
  /\ is_finite (fl32 1 0) = true /\ Rabs (B2R (fl32 1 0)) <= 1.
Proof.
  replace (B2R (fl32 5 (-1))) with (5 / 2) by (cbn; unfold F2R; cbn; lra).
  replace (B2R (fl32 1 (-1))) with (/ 2) by (cbn; unfold F2R; cbn; lra).
  replace (B2R (fl32 1 0)) with 1 by (cbn; unfold F2R; cbn; lra).
  rewrite Rabs_R1, (Rabs_pos_eq (/ 2)) by lra.
  assert (bpow radix2 (-22) <= / 16) by (change (/ 16) with (bpow radix2 (-4)); apply bpow_le; lia).
  assert (bpow radix2 (-148) <= / 16) by (change (/ 16) with (bpow radix2 (-4)); apply bpow_le; lia).
  assert (4 <= bpow radix2 126) by (change 4 with (bpow radix2 2); apply bpow_le; lia).
  repeat match goal with |- _ /\ _ => split end; try lra; try reflexivity; try (unfold short; lia); try constructor.
  - replace 3 with (B2R (fl32 3 0)) by (cbn; unfold F2R; cbn; lra). apply round_generic; [typeclasses eauto|]. apply (generic_format_B2R 24 128).
  - replace 4 with (B2R (fl32 1 2)) by (cbn; unfold F2R; cbn; lra). apply round_generic; [typeclasses eauto|]. apply (generic_format_B2R 24 128).
Qed.
