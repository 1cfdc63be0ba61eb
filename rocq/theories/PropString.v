(** Property C114: plucked strings and damped combs, built from a delay line and a filter.

    Vocabulary: [string], [lin_string], [gain] ([StringSpec]); [stream D k v n] is what a new
    filter [D] configured with [k] returns for sample [n] of [v] ([FltFilterSpec]);
    [behind zero y k n] is the sample [k] before number [n], [zero] before the start
    ([LinRun]); [at_ zero l n] is the [n]-th sample of the list [l] ([EchoSpec]);
    [filter_eq D k c]: filter [D] configured with [k] has the coefficients [c] ([Signal]);
    [fits O m]: a buffer for [m] samples of delay can be allocated. *)
From Coq Require Import ZArith Reals List Bool Lia Lra.
From Flocq Require Import Core.Core IEEE754.BinarySingleNaN.
From Verif Require Import Base Num NumR NumF FloatSpec Witness FilterM RbjM Device Signal FltFilterSpec DelayM LinDelayM
  DelaySpec DelayRun LinRun EchoSpec StringSpec StringLemmas.
Import ListNotations.
Open Scope R_scope.

(** C114: on [Delay::new(d, m)], 1 <= d <= m, the loop with any filter never panics, and each
    output sample is the input sample plus what the filter, running by itself on the output
    delayed by [d], returns: exactly, in every arithmetic. *)

Theorem C114_loop :
  forall (S K T : Type) (D : device S K T) (O : num_ops T) (p : profile) (k : K) (d m : Z) (xs : list T),
    (1 <= n_size_of O)%Z -> (1 <= d <= m)%Z -> is_usize m -> fits O m ->
    exists e ys, string O p D k d m xs = Ok (e, ys) /\ length ys = length xs
      /\ forall n, (n < length xs)%nat ->
           at_ (n_zero O) ys n
           = n_add O (at_ (n_zero O) xs n) (stream D k (behind (n_zero O) (at_ (n_zero O) ys) (Z.to_nat d)) n).
Proof. exact C114_loop_thm. Qed.
Print Assumptions C114_loop.

Example C114_loop_hyps : (1 <= n_size_of O64)%Z /\ (1 <= 2 <= 3)%Z /\ is_usize 3 /\ fits O64 3.
Proof. repeat split; easy. Qed.

(** C114, exact arithmetic: the output is the sum of the input's echoes, the [j]-th echo
    delayed by j d and passed [j] times through the filter; [f j] is the input passed [j]
    times through the filter's difference equation. *)

Theorem C114_echoes :
  forall (S K : Type) (D : device S K R) (p : profile) (k : K) (c : R * R * R * R * R) (d m : Z) (xs : list R)
         (f : nat -> signal),
    filter_eq D k c -> (1 <= d <= m)%Z -> is_usize m -> fits R_ops m ->
    (forall n, f 0%nat n = at_ 0 xs n) -> (forall j, obeys c (f j) (f (j + 1)%nat)) ->
    exists e ys, string R_ops p D k d m xs = Ok (e, ys) /\ length ys = length xs
      /\ forall n, (n < length xs)%nat ->
           at_ 0 ys n = sum_f_R0 (fun j => behind 0 (f j) (j * Z.to_nat d) n) (n / Z.to_nat d).
Proof. exact C114_echoes_thm. Qed.
Print Assumptions C114_echoes.

(** The hypotheses hold, for example, for the averaging filter y[n] = (x[n] + x[n-1]) / 2 of
    Karplus and Strong; its second echo of the impulse is 1/4, 1/2, 1/4. *)
Example C114_echoes_hyps :
  let c := (1 / 2, 1 / 2, 0, 0, 0) in
  let f := fix f (j : nat) : signal :=
    match j with
    | O => at_ 0 [1; 0; 0]
    | S i => fun n => 1 / 2 * f i n + 1 / 2 * back 1 (f i) n
    end in
  filter_eq (dev_one_zero R_ops) (1 / 2, 1 / 2) c /\ (1 <= 2 <= 3)%Z /\ is_usize 3 /\ fits R_ops 3
  /\ (forall n, f 0%nat n = at_ 0 [1; 0; 0] n) /\ (forall j, obeys c (f j) (f (j + 1)%nat))
  /\ f 2%nat 0%nat = 1 / 4 /\ f 2%nat 1%nat = 1 / 2 /\ f 2%nat 2%nat = 1 / 4.
Proof.
  intros c f. split; [constructor|]. split; [easy|]. split; [easy|]. split; [easy|]. split; [reflexivity|].
  split; [|unfold f, back, at_; cbn; lra].
  intros j n. rewrite Nat.add_1_r. cbn [f]. fold f. ring.
Qed.

(** C114, exact arithmetic: if the gain [g] of the filter is below 1, an input within [X]
    gives an output within X / (1 - g).  If it is at most 1, a string plucked with at most [d]
    samples and then left alone is never louder than the pluck. *)

Theorem C114_bounded :
  forall (S K : Type) (D : device S K R) (p : profile) (k : K) (c : R * R * R * R * R) (g : R) (d m : Z),
    filter_eq D k c -> gain c g -> (1 <= d <= m)%Z -> is_usize m -> fits R_ops m ->
    (forall (xs : list R) (X : R), g < 1 -> (forall x, In x xs -> Rabs x <= X) ->
      exists e ys, string R_ops p D k d m xs = Ok (e, ys) /\ length ys = length xs
        /\ forall y, In y ys -> Rabs y <= X / (1 - g))
    /\ (forall (us : list R) (B : R) (j : nat), g <= 1 -> (Z.of_nat (length us) <= d)%Z -> 0 <= B ->
        (forall u, In u us -> Rabs u <= B) ->
      exists e ys, string R_ops p D k d m (us ++ repeat 0 j) = Ok (e, ys) /\ length ys = (length us + j)%nat
        /\ forall y, In y ys -> Rabs y <= B).
Proof. exact C114_bounded_thm. Qed.
Print Assumptions C114_bounded.

(** The averaging filter has gain 1, its half gain 1/2. *)
Example C114_bounded_hyps :
  filter_eq (dev_one_zero R_ops) (1 / 2, 1 / 2) (1 / 2, 1 / 2, 0, 0, 0) /\ gain (1 / 2, 1 / 2, 0, 0, 0) 1
  /\ gain (1 / 4, 1 / 4, 0, 0, 0) (1 / 2) /\ (1 <= 2 <= 3)%Z /\ is_usize 3 /\ fits R_ops 3
  /\ (Z.of_nat (length [1; -1]) <= 2)%Z.
Proof.
  split; [constructor|]. split; [exact C114_average_gain|]. split; [|repeat split; easy].
  assert (Q := fir_gain (1 / 4) (1 / 4) 0). rewrite Rabs_R0, (Rabs_pos_eq (1 / 4)) in Q by lra.
  replace (1 / 4 + 1 / 4 + 0) with (1 / 2) in Q by lra. exact Q.
Qed.

(** C114, [LinearDelay]: with a fractional delay d = k + f of at least one sample the filter
    sees the interpolated output (1 - f) y[n - k] + f y[n - k - 1]; the bounds are the same. *)

Theorem C114_linear :
  forall (S K : Type) (D : device S K R) (p : profile) (kc : K) (c : R * R * R * R * R) (g : R) (d : R) (m : Z) (xs : list R),
    filter_eq D kc c -> gain c g -> is_usize m -> fits R_ops m -> 1 <= d <= IZR m ->
    let k := Z.to_nat (Zfloor d) in
    let f := d - IZR (Zfloor d) in
    exists e ys, lin_string R_ctl R_ops p D kc d m xs = Ok (e, ys) /\ length ys = length xs
      /\ (forall n, (n < length xs)%nat ->
           at_ 0 ys n = at_ 0 xs n
             + stream D kc (fun i => (1 - f) * behind 0 (at_ 0 ys) k i + f * behind 0 (at_ 0 ys) (k + 1) i) n)
      /\ (forall X, g < 1 -> (forall x, In x xs -> Rabs x <= X) -> forall y, In y ys -> Rabs y <= X / (1 - g))
      /\ (forall us B j, xs = us ++ repeat 0 j -> g <= 1 -> (length us <= k)%nat -> 0 <= B ->
          (forall u, In u us -> Rabs u <= B) -> forall y, In y ys -> Rabs y <= B).
Proof. exact C114_linear_thm. Qed.
Print Assumptions C114_linear.

Example C114_linear_hyps :
  filter_eq (dev_one_zero R_ops) (1 / 2, 1 / 2) (1 / 2, 1 / 2, 0, 0, 0) /\ gain (1 / 2, 1 / 2, 0, 0, 0) 1
  /\ is_usize 7 /\ fits R_ops 7 /\ 1 <= 5 / 2 <= IZR 7.
Proof. split; [constructor|]. split; [exact C114_average_gain|]. split; [easy|]. split; [discriminate|]. lra. Qed.

(** C114, [f32] and [f64]: let the samples be within [X] and the filter have gain [g], and let
    [B], a number of the type, leave room for the input, for the filtered past and for the
    rounding noise of the filter (C81).  The loop stays finite and within [B] for ever. *)

Theorem C114_float_bound :
  forall (T : Type) (O : num_ops T) (V : float_view T), ieee O V ->
  forall (S K : Type) (D : device S K T) (k : K) (c : T * T * T * T * T),
    has_coeffs O D k c -> all_finite V c ->
  forall (p : profile) (d m : Z) (xs : list T) (b0 b1 b2 a1 a2 g G A L X B : R),
    (1 <= d <= m)%Z -> is_usize m -> fits O m ->
    vals V c = (b0, b1, b2, a1, a2) ->
    gain (b0, b1, b2, a1, a2) g -> peak_gain a1 a2 G ->
    A = Rabs a1 + Rabs a2 ->
    L = (Rabs b0 + Rabs b1 + Rabs b2) * B + fmin V ->
    A * G <= bpow radix2 (fprec V - 5) ->
    4 * (1 + 4 * A * G) * L <= fmax V ->
    rnd V B = B -> 0 <= B <= fmax V ->
    X + (g * B + bpow radix2 (3 - fprec V) * G * (1 + 4 * A * G) * L) <= B ->
    (forall x, In x xs -> fin V x = true /\ Rabs (val V x) <= X) ->
    exists e ys, string O p D k d m xs = Ok (e, ys) /\ length ys = length xs
      /\ forall y, In y ys -> fin V y = true /\ Rabs (val V y) <= B.
Proof. exact C114_float_bound_thm. Qed.
Print Assumptions C114_float_bound.

(** The hypotheses hold, for example, for the f32 one-zero filter with coefficients 1/4 and
    1/4 and samples within 1, with B = 4. *)
Example C114_float_bound_hyps :
  let c := (fl32 1 (-2), fl32 1 (-2), n_zero O32, n_zero O32, n_zero O32) in
  let V := ieee_view 24 128 in
  let L := (1 / 4 + 1 / 4 + 0) * 4 + fmin V in
  ieee O32 V /\ has_coeffs O32 (dev_one_zero O32) (fl32 1 (-2), fl32 1 (-2)) c /\ all_finite V c
  /\ vals V c = (1 / 4, 1 / 4, 0, 0, 0) /\ gain (1 / 4, 1 / 4, 0, 0, 0) (1 / 2) /\ peak_gain 0 0 1
  /\ 0 * 1 <= bpow radix2 (fprec V - 5) /\ 4 * (1 + 4 * 0 * 1) * L <= fmax V
  /\ rnd V 4 = 4 /\ 0 <= 4 <= fmax V
  /\ 1 + (1 / 2 * 4 + bpow radix2 (3 - fprec V) * 1 * (1 + 4 * 0 * 1) * L) <= 4
  /\ (1 <= 3 <= 5)%Z /\ is_usize 5 /\ fits O32 5.
Proof. exact C114_float_bound_hyps_aux. Qed.

(** C114, [f32] and [f64], at the edge: the string with a [OneZero] filter (Karplus and
    Strong's average), plucked with at most [d] samples within [B] and then left alone, stays
    finite and is never louder than [B], if [B] and numbers [P0], [P1] of the type satisfy
    |b0| B <= P0, |b1| B <= P1 and P0 + P1 <= B. *)

Theorem C114_float_never_louder :
  forall (T : Type) (O : num_ops T) (V : float_view T), ieee O V ->
  forall (p : profile) (b0 b1 : T) (d m : Z) (us : list T) (j : nat) (P0 P1 B : R),
    (1 <= d <= m)%Z -> is_usize m -> fits O m ->
    fin V b0 = true -> fin V b1 = true -> rnd V P0 = P0 -> rnd V P1 = P1 -> rnd V B = B -> 0 <= B <= fmax V ->
    Rabs (val V b0) * B <= P0 -> Rabs (val V b1) * B <= P1 -> P0 + P1 <= B ->
    (Z.of_nat (length us) <= d)%Z -> (forall u, In u us -> fin V u = true /\ Rabs (val V u) <= B) ->
    exists e ys, string O p (dev_one_zero O) (b0, b1) d m (us ++ repeat (n_zero O) j) = Ok (e, ys)
      /\ length ys = (length us + j)%nat
      /\ forall y, In y ys -> fin V y = true /\ Rabs (val V y) <= B.
Proof. exact C114_float_never_louder_thm. Qed.
Print Assumptions C114_float_never_louder.

(** The hypotheses hold, for example, for the f32 average, b0 = b1 = 1/2, and B = 2. *)
Example C114_float_never_louder_hyps :
  let h := fl32 1 (-1) in let V := ieee_view 24 128 in
  ieee O32 V /\ fin V h = true /\ rnd V 1 = 1 /\ rnd V 2 = 2 /\ 0 <= 2 <= fmax V
  /\ Rabs (val V h) * 2 <= 1 /\ 1 + 1 <= 2 /\ (1 <= 3 <= 5)%Z /\ is_usize 5 /\ fits O32 5.
Proof. exact C114_float_never_louder_hyps_aux. Qed.
