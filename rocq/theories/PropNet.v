(** Property C116: feedback delay networks built from any number of [Delay] lines.

    Vocabulary: [network], [fed_to], [sizes_ok], [power], [in_flight], [householder],
    [ping_pong] ([NetSpec]); [behind zero w k n] is the sample [k] before number [n], [zero]
    before the start ([LinRun]); [at_ zero l n] is the [n]-th element of a list ([EchoSpec]). *)
From Coq Require Import ZArith Reals List Bool Lia Lra.
From Flocq Require Import Core.Core IEEE754.BinarySingleNaN.
From Verif Require Import Base Num NumR NumF FloatSpec Witness DelayM DelaySpec DelayRun LinRun EchoSpec EchoLemmas NetSpec NetLemmas.
Import ListNotations.
Open Scope R_scope.

(** C116: a network on lines [Delay::new(d_i, m_i)], 1 <= d_i <= m_i, never panics, whatever the
    mixer; at every step it shows, for each line, what the mixer fed that line d_i steps ago
    (zero before the start).  This holds in every arithmetic. *)
Theorem C116_network :
  forall (T : Type) (O : num_ops T) (p : profile) (mix : T -> list T -> list T) (sizes : list (Z * Z)) (xs : list T),
    (1 <= n_size_of O)%Z -> sizes_ok O sizes ->
    (forall x v, length v = length sizes -> length (mix x v) = length sizes) ->
    exists lines out, network O p mix sizes xs = Ok (lines, out) /\ length out = length xs
      /\ forall n, (n < length xs)%nat ->
           length (at_ [] out n) = length sizes
           /\ forall i, (i < length sizes)%nat ->
                at_ (n_zero O) (at_ [] out n) i
                = behind (n_zero O) (fed_to O mix i xs out) (delay_of sizes i) n.
Proof. exact C116_network_thm. Qed.
Print Assumptions C116_network.

(* four lines of different lengths, mixed by a Householder matrix *)
Example C116_network_hyps :
  sizes_ok R_ops [(149, 149); (211, 256); (263, 300); (293, 293)]%Z
  /\ forall g x v, length v = 4%nat -> length (householder g x v) = 4%nat.
Proof.
  split; [repeat (apply Forall_cons || apply Forall_nil); repeat split; easy|].
  intros g x v H. unfold householder. rewrite map_length. exact H.
Qed.

(** C116: an invariant of the mixer is an invariant of the network.  If zero satisfies [P] and
    the mixer, given an input sample satisfying [Q] and taps satisfying [P], only feeds samples
    satisfying [P], then everything the network ever shows satisfies [P].  In every arithmetic. *)
Theorem C116_invariant :
  forall (T : Type) (O : num_ops T) (p : profile) (mix : T -> list T -> list T) (sizes : list (Z * Z)) (xs : list T)
         (P Q : T -> Prop),
    (1 <= n_size_of O)%Z -> sizes_ok O sizes ->
    (forall x v, length v = length sizes -> length (mix x v) = length sizes) ->
    P (n_zero O) ->
    (forall x v, Q x -> length v = length sizes -> Forall P v -> Forall P (mix x v)) ->
    Forall Q xs ->
    exists lines out, network O p mix sizes xs = Ok (lines, out) /\ length out = length xs /\ Forall (Forall P) out.
Proof. exact C116_invariant_thm. Qed.
Print Assumptions C116_invariant.

(* three lines, each fed the mean of the input and its own tap: everything stays in [0, 1] *)
Example C116_invariant_hyps :
  let mix := fun (x : R) (v : list R) => map (fun a => (x + a) / 2) v in
  let P := fun a => 0 <= a <= 1 in
  sizes_ok R_ops [(1, 1); (2, 2); (3, 3)]%Z /\ P 0 /\ (forall x v, P x -> Forall P v -> Forall P (mix x v)).
Proof.
  intros mix P. split; [repeat (apply Forall_cons || apply Forall_nil); repeat split; easy|].
  split; [unfold P; lra|]. intros x v Hx Hv. unfold mix, P in *.
  induction Hv as [|a v Ha Hv IH]; [constructor|]. constructor; [lra|exact IH].
Qed.

(** C116, exact arithmetic: a lossless mixer makes a lossless network.  If the mixer keeps the
    sum of squares of its taps when there is no input, then once the input [us] has ended the
    energy in flight never changes again, and bounds what is shown at every later step. *)
Theorem C116_lossless :
  forall (p : profile) (mix : R -> list R -> list R) (sizes : list (Z * Z)) (us : list R) (K : nat),
    sizes_ok R_ops sizes ->
    (forall x v, length v = length sizes -> length (mix x v) = length sizes) ->
    (forall v, length v = length sizes -> power (mix 0 v) = power v) ->
    let xs := us ++ repeat 0 K in
    exists lines out, network R_ops p mix sizes xs = Ok (lines, out)
      /\ let energy := in_flight sizes (fun i => fed_to R_ops mix i xs out) in
         forall n, (length us <= n <= length xs)%nat ->
           energy n = energy (length us)
           /\ ((n < length xs)%nat -> power (at_ [] out n) <= energy (length us)).
Proof. exact C116_lossless_thm. Qed.
Print Assumptions C116_lossless.

(* a rotation, on two lines *)
Example C116_lossless_hyps :
  let mix := fun (x : R) v => match v with [a; b] => [x + (3 * a - 4 * b) / 5; (4 * a + 3 * b) / 5] | _ => v end in
  (forall x v, length v = 2%nat -> length (mix x v) = 2%nat) /\ (forall v, length v = 2%nat -> power (mix 0 v) = power v).
Proof.
  intros mix. split; intros.
  - destruct v as [|a [|b [|c v]]]; try discriminate; reflexivity.
  - destruct v as [|a [|b [|c v]]]; try discriminate. unfold power. cbn. field.
Qed.

(** C116, exact arithmetic: a contractive mixer makes a decaying network.  If the mixer
    multiplies the sum of squares of its taps by at most g^2, g <= 1, when there is no input,
    then after the input has ended everything shown in round [k] and later, a round being as
    long as the longest delay [D], is at most g^(2k) times the energy then in flight. *)
Theorem C116_decays :
  forall (p : profile) (mix : R -> list R -> list R) (sizes : list (Z * Z)) (us : list R) (K D : nat) (g : R),
    sizes_ok R_ops sizes ->
    (forall i, (i < length sizes)%nat -> (delay_of sizes i <= D)%nat) ->
    (forall x v, length v = length sizes -> length (mix x v) = length sizes) ->
    0 <= g <= 1 -> (forall v, length v = length sizes -> power (mix 0 v) <= g * g * power v) ->
    let xs := us ++ repeat 0 K in
    exists lines out, network R_ops p mix sizes xs = Ok (lines, out)
      /\ let energy := in_flight sizes (fun i => fed_to R_ops mix i xs out) in
         forall k n, (length us + k * D <= n)%nat -> (n < length xs)%nat ->
           power (at_ [] out n) <= g ^ (2 * k) * energy (length us).
Proof. exact C116_decays_thm. Qed.
Print Assumptions C116_decays.

(* the same rotation with a feedback of 1/2 *)
Example C116_decays_hyps :
  let mix := fun (x : R) v => match v with [a; b] => [x + (3 * a - 4 * b) / 10; (4 * a + 3 * b) / 10] | _ => v end in
  (forall v, length v = 2%nat -> power (mix 0 v) <= / 2 * / 2 * power v)
  /\ forall i, (i < 2)%nat -> (delay_of [(3, 3); (5, 5)]%Z i <= 5)%nat.
Proof.
  intros mix. split; intros.
  - destruct v as [|a [|b [|c v]]]; try discriminate. unfold power. cbn. right. field.
  - destruct i as [|[|i]]; cbn; lia.
Qed.

(** C116: the Householder reverberator.  With any number of lines and a feedback g in [0, 1] its
    tail decays by g per round of the longest delay, and at g = 1 it rings for ever: the energy
    in flight never changes. *)
Theorem C116_householder :
  forall (p : profile) (sizes : list (Z * Z)) (us : list R) (K D : nat) (g : R),
    sizes_ok R_ops sizes ->
    (forall i, (i < length sizes)%nat -> (delay_of sizes i <= D)%nat) ->
    0 <= g <= 1 ->
    let xs := us ++ repeat 0 K in
    exists lines out, network R_ops p (householder g) sizes xs = Ok (lines, out)
      /\ let energy := in_flight sizes (fun i => fed_to R_ops (householder g) i xs out) in
         (forall k n, (length us + k * D <= n)%nat -> (n < length xs)%nat ->
            power (at_ [] out n) <= g ^ (2 * k) * energy (length us))
         /\ (g = 1 -> forall n, (length us <= n <= length xs)%nat -> energy n = energy (length us)).
Proof. exact C116_householder_thm. Qed.
Print Assumptions C116_householder.

Example C116_householder_hyps :
  sizes_ok R_ops [(149, 149); (211, 256); (263, 300); (293, 293)]%Z
  /\ (forall i, (i < 4)%nat -> (delay_of [(149, 149); (211, 256); (263, 300); (293, 293)]%Z i <= 293)%nat).
Proof.
  split; [repeat (apply Forall_cons || apply Forall_nil); repeat split; easy|].
  intros i Hi. destruct i as [|[|[|[|i]]]]; try lia; unfold delay_of; cbn [nth fst]; lia.
Qed.

(** C116: the ping-pong delay, exact arithmetic.  On two lines of the same delay [d] the sum of
    the two sides is a feedback comb with gain [g], and their difference one with gain [-g]. *)
Theorem C116_ping_pong :
  forall (p : profile) (g : R) (d m : Z) (xs : list R),
    sizes_ok R_ops [(d, m)] ->
    exists lines out, network R_ops p (ping_pong R_ops g) [(d, m); (d, m)] xs = Ok (lines, out) /\ length out = length xs
      /\ let left := fun n => at_ 0 (at_ [] out n) 0 in
         let right := fun n => at_ 0 (at_ [] out n) 1 in
         forall n, (n < length xs)%nat ->
           left n + right n = behind 0 (fun k => at_ 0 xs k + g * (left k + right k)) (Z.to_nat d) n
           /\ left n - right n = behind 0 (fun k => at_ 0 xs k + - g * (left k - right k)) (Z.to_nat d) n.
Proof. exact C116_ping_pong_thm. Qed.
Print Assumptions C116_ping_pong.

Example C116_ping_pong_hyps : sizes_ok R_ops [(22050, 44100)]%Z.
Proof. repeat (apply Forall_cons || apply Forall_nil); repeat split; easy. Qed.

(** C116: the ping-pong delay in [f32] and [f64], on any two delays, stays finite and within [B]
    for ever, if numbers [G] and [B] of the type leave room: |g| B <= G and X + G <= B. *)
Theorem C116_ping_pong_float :
  forall (T : Type) (O : num_ops T) (V : float_view T) (p : profile) (g : T) (left right : Z * Z) (xs : list T) (X G B : R),
    ieee O V -> sizes_ok O [left; right] ->
    fin V g = true -> rnd V G = G -> rnd V B = B -> 0 <= X -> 0 <= B <= fmax V ->
    Rabs (val V g) * B <= G -> X + G <= B ->
    Forall (fun x => fin V x = true /\ Rabs (val V x) <= X) xs ->
    exists lines out, network O p (ping_pong O g) [left; right] xs = Ok (lines, out) /\ length out = length xs
      /\ Forall (Forall (fun y => fin V y = true /\ Rabs (val V y) <= B)) out.
Proof. exact C116_ping_pong_float_thm. Qed.
Print Assumptions C116_ping_pong_float.

Example C116_ping_pong_float_hyps :
  let g := fl32 1 (-1) in let V := ieee_view 24 128 in
  ieee O32 V /\ fin V g = true /\ rnd V 1 = 1 /\ rnd V 2 = 2 /\ 2 <= fmax V
  /\ Rabs (val V g) * 2 <= 1 /\ 1 + 1 <= 2 /\ sizes_ok O32 [(3, 5); (4, 4)]%Z.
Proof.
  intros g V. unfold g, V. split; [constructor|]. split; [reflexivity|].
  split; [apply (rnd_bpow 24 128 0); easy|]. split; [apply (rnd_bpow 24 128 1); easy|].
  split. { cbn. lra. }
  split. { unfold fl32. cbn. unfold F2R. cbn. rewrite Rabs_pos_eq; lra. }
  split; [lra|]. repeat (apply Forall_cons || apply Forall_nil); repeat split; easy.
Qed.
