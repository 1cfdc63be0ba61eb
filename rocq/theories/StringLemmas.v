(** Lemmas behind property C114.  The [@PROP] blocks are copied into [PropString.v]. *)
(*@PROP
(** Property C114: plucked strings and damped combs, built from a delay line and a filter.

    Vocabulary: [string], [lin_string], [gain] ([StringSpec]); [stream D k v n] is what a new
    filter [D] configured with [k] returns for sample [n] of [v] ([FltFilterSpec]);
    [behind zero y k n] is the sample [k] before number [n], [zero] before the start
    ([LinRun]); [at_ zero l n] is the [n]-th sample of the list [l] ([EchoSpec]);
    [filter_eq D k c]: filter [D] configured with [k] has the coefficients [c] ([Signal]);
    [fits O m]: a buffer for [m] samples of delay can be allocated. *)
From Coq Require Import ZArith Reals List Bool Lia Lra.
From Flocq Require Import Core.Core IEEE754.BinarySingleNaN.
From Verif Require Import Base Num NumR NumF FloatSpec Witness FilterM RbjM Device Signal FltFilterSpec DelayM LinDelayM
  DelaySpec DelayRun LinRun EchoSpec StringSpec StringLemmas.
Import ListNotations.
Open Scope R_scope.
@*)
From Coq Require Import ZArith Reals List Bool Lia Lra Arith.
From Flocq Require Import Core.Core IEEE754.BinarySingleNaN.
From Verif Require Import Base BaseLemmas Num NumR NumF FloatSpec FloatFacts AnaFacts FilterM RbjM Device Signal SignalFacts FilterFacts
  FltFilterSpec FltFilterFacts FltFilterLemmas DelayM LinDelayM DelaySpec DelayRun DelayProofs DelayFacts
  DelayLemmas LinSpec LinFloatSpec LinRun LinProofs LinCtlR LinFacts LinLemmas LinLemmas2 LinLemmas3 Witness EchoSpec EchoLemmas
  SchroederLemmas StringSpec.
Import ListNotations.
Open Scope R_scope.

(** ** The loop in general *)
Section Fed.
  Context {S K T : Type} (D : device S K T).

  Lemma fed_ext s x y n : (forall i, (i < n)%nat -> x i = y i) -> fed D s x n = fed D s y n.
  Proof. induction n as [|n IH]; intros H; [reflexivity|]. cbn [fed]. rewrite IH, (H n) by auto. reflexivity. Qed.

  Lemma fed_shift s x n : fed D (fst (d_process D s (x 0%nat))) (fun i => x (Datatypes.S i)) n = fed D s x (Datatypes.S n).
  Proof. induction n as [|n IH]; [reflexivity|]. cbn [fed]. rewrite IH. reflexivity. Qed.

  Lemma stream_ext k x y n : (forall i, (i <= n)%nat -> x i = y i) -> stream D k x n = stream D k y n.
  Proof.
    intros H. unfold stream. rewrite (fed_ext _ x y n) by (intros i Hi; apply H; lia). rewrite (H n) by lia. reflexivity.
  Qed.
End Fed.

Section Loop.
  Context {L S K T : Type} (O : num_ops T) (D : device S K T).
  Context (peek : L -> outcome (L * T)) (process : L -> T -> outcome (L * T)).
  Context (past : L -> list T -> Prop) (read : list T -> T).
  Hypothesis step : forall s ys, past s ys ->
    exists s1, peek s = Ok (s1, read ys)
      /\ forall y, exists s2 o, process s1 y = Ok (s2, o) /\ past s2 (ys ++ [y]).
  Notation zero := (n_zero O).

  Lemma strum_gen xs : forall s f ys0, past s ys0 ->
    exists e ys, strum O D peek process s f xs = Ok (e, ys) /\ length ys = length xs
      /\ forall n, (n < length xs)%nat ->
           let v i := read (ys0 ++ firstn i ys) in
           nth n ys zero = n_add O (nth n xs zero) (snd (d_process D (fed D f v n) (v n))).
  Proof.
    induction xs as [|x xs IH]; intros s f ys0 H.
    - exists (s, f), []. cbn. repeat split; auto. intros n Hn. lia.
    - simpl strum. destruct (step s ys0 H) as [s1 [E1 H1]]. rewrite E1. cbv beta iota delta [bind].
      destruct (d_process D f (read ys0)) as [f1 u] eqn:Ef.
      destruct (H1 (n_add O x u)) as [s2 [o [E2 H2]]]. rewrite E2. cbv beta iota delta [bind].
      destruct (IH s2 f1 _ H2) as [e [ys [E [HL Hn]]]]. rewrite E. cbv beta iota delta [bind].
      exists e, (n_add O x u :: ys). split; [reflexivity|]. split; [cbn; lia|].
      intros [|n] Ln v.
      + cbn [nth fed]. unfold v. cbn [firstn]. rewrite app_nil_r, Ef. reflexivity.
      + cbn [length] in Ln. cbn [nth]. rewrite (Hn n) by lia. cbv zeta.
        assert (Ev : forall i, read ((ys0 ++ [n_add O x u]) ++ firstn i ys) = v (Datatypes.S i)).
        { intros i. unfold v. cbn [firstn]. rewrite <- app_assoc. reflexivity. }
        rewrite Ev. rewrite <- (fed_shift D f v n). unfold v at 2. cbn [firstn]. rewrite app_nil_r, Ef. cbn [fst].
        rewrite (fed_ext D f1 (fun i => read ((ys0 ++ [n_add O x u]) ++ firstn i ys)) (fun i => v (Datatypes.S i)) n)
          by (intros; apply Ev). reflexivity.
  Qed.
End Loop.

(*@PROP
(** C114: on [Delay::new(d, m)], 1 <= d <= m, the loop with any filter never panics, and each
    output sample is the input sample plus what the filter, running by itself on the output
    delayed by [d], returns: exactly, in every arithmetic. *)
@*)
Lemma C114_loop_thm :
  forall (S K T : Type) (D : device S K T) (O : num_ops T) (p : profile) (k : K) (d m : Z) (xs : list T),
    (1 <= n_size_of O)%Z -> (1 <= d <= m)%Z -> is_usize m -> fits O m ->
    exists e ys, string O p D k d m xs = Ok (e, ys) /\ length ys = length xs
      /\ forall n, (n < length xs)%nat ->
           at_ (n_zero O) ys n
           = n_add O (at_ (n_zero O) xs n) (stream D k (behind (n_zero O) (at_ (n_zero O) ys) (Z.to_nat d)) n).
Proof.
  intros S K T D O p k d m xs Hs Hd Hm Hf. destruct (past_new O p Hs d m Hd Hm Hf) as [s0 [E0 H0]].
  destruct (strum_gen O D (fun s => let* v := delay_next_out s in Ok (s, v)) (delay_process p)
              (past_dl O d m) (read_back (n_zero O) (Z.to_nat d))) with (xs := xs) (s := s0) (f := after D [CSet k]) (ys0 := @nil T)
    as [e [ys [E [HL Hn]]]]; [|exact H0|].
  { intros s ys H. exists s. rewrite (next_read O d m Hd s ys H). split; [reflexivity|]. intros y.
    apply (past_process O p Hs d m Hd), H. }
  exists e, ys. unfold string. rewrite E0. cbn [bind]. split; [exact E|]. split; [exact HL|].
  intros n L. unfold at_ at 1 2. rewrite (Hn n L). cbn [app]. f_equal.
  assert (B : forall i, (i <= n)%nat -> read_back (n_zero O) (Z.to_nat d) (firstn i ys)
                = behind (n_zero O) (at_ (n_zero O) ys) (Z.to_nat d) i) by (intros; apply read_behind; lia).
  unfold stream. rewrite (fed_ext D _ (fun i => read_back (n_zero O) (Z.to_nat d) (firstn i ys))
    (behind (n_zero O) (at_ (n_zero O) ys) (Z.to_nat d)) n) by (intros; apply B; lia).
  rewrite B by lia. reflexivity.
Qed.

(*@PROP
Example C114_loop_hyps : (1 <= n_size_of O64)%Z /\ (1 <= 2 <= 3)%Z /\ is_usize 3 /\ fits O64 3.
Proof. repeat split; easy. Qed.
@*)

(** ** Exact arithmetic *)
Lemma stream_obeys {S K} (D : device S K R) k c v : filter_eq D k c -> obeys c v (stream D k v).
Proof. intros H. exact (filter_obeys D k c H v). Qed.

Lemma gain_nneg c g : gain c g -> 0 <= g.
Proof.
  intros H. set (z := out (dev_biquad1 R_ops) (configured (dev_biquad1 R_ops) c) (fun _ => 1)).
  assert (Ho : obeys c (fun _ => 1) z) by (apply filter_obeys; constructor).
  assert (Q := H _ _ 1 Ho ltac:(intros; cbv beta; rewrite Rabs_R1; lra) 0%nat).
  assert (P := Rabs_pos (z 0%nat)). lra.
Qed.

(** Bounds need only hold up to the present. *)
Lemma gain_prefix {S K} (D : device S K R) k c g v n B : filter_eq D k c -> gain c g -> 0 <= B ->
  (forall i, (i <= n)%nat -> Rabs (v i) <= B) -> Rabs (stream D k v n) <= g * B.
Proof.
  intros Hc Hg HB Hv. set (v' := fun i => if (i <=? n)%nat then v i else 0).
  rewrite (stream_ext D k v v' n).
  - apply (Hg v' _ B (stream_obeys D k c v' Hc)). intros i. unfold v'.
    destruct (Nat.leb_spec i n); [apply Hv; assumption|rewrite Rabs_R0; exact HB].
  - intros i Hi. unfold v'. apply Nat.leb_le in Hi. rewrite Hi. reflexivity.
Qed.

Section Real.
  Context {S K : Type} (D : device S K R) (k : K) (c : R * R * R * R * R) (g : R) (x y v : nat -> R) (N : nat).
  Hypothesis Hc : filter_eq D k c.
  Hypothesis Hg : gain c g.
  Hypothesis Hy : forall n, (n < N)%nat -> y n = x n + stream D k v n.
  Hypothesis Hv : forall n B, (n < N)%nat -> 0 <= B -> (forall i, (i < n)%nat -> Rabs (y i) <= B) -> Rabs (v n) <= B.

  Lemma loop_bound X : g < 1 -> (forall n, (n < N)%nat -> Rabs (x n) <= X) ->
    forall n, (n < N)%nat -> Rabs (y n) <= X / (1 - g).
  Proof.
    intros Hg1 Hx n. assert (G0 := gain_nneg c g Hg). set (B := X / (1 - g)).
    induction n as [n IH] using lt_wf_ind. intros Hn.
    assert (X0 : 0 <= X) by (eapply Rle_trans; [apply Rabs_pos|apply (Hx n Hn)]).
    assert (EB : B * (1 - g) = X) by (unfold B; field; lra).
    assert (B0 : 0 <= B) by (unfold B; apply Rmult_le_pos; [exact X0|left; apply Rinv_0_lt_compat; lra]).
    rewrite (Hy n Hn). eapply Rle_trans; [apply Rabs_triang|].
    assert (Hxn := Hx n Hn).
    assert (Rabs (stream D k v n) <= g * B).
    { apply (gain_prefix D k c g v n B Hc Hg B0). intros i Hi. apply Hv; [lia|exact B0|]. intros j Hj. apply IH; lia. }
    lra.
  Qed.

  Lemma loop_never_louder B : g <= 1 -> 0 <= B ->
    (forall n, (n < N)%nat -> (Rabs (x n) <= B /\ forall i, (i <= n)%nat -> v i = 0) \/ x n = 0) ->
    forall n, (n < N)%nat -> Rabs (y n) <= B.
  Proof.
    intros Hg1 HB Hx n. assert (G0 := gain_nneg c g Hg).
    induction n as [n IH] using lt_wf_ind. intros Hn. rewrite (Hy n Hn).
    destruct (Hx n Hn) as [[Hxn Hvn]|Hxn].
    - assert (Q : Rabs (stream D k v n) <= g * 0).
      { apply (gain_prefix D k c g v n 0 Hc Hg (Rle_refl _)). intros i Hi. rewrite (Hvn i Hi), Rabs_R0. lra. }
      eapply Rle_trans; [apply Rabs_triang|]. lra.
    - rewrite Hxn, Rplus_0_l. apply Rle_trans with (g * B).
      + apply (gain_prefix D k c g v n B Hc Hg HB). intros i Hi. apply Hv; [lia|exact HB|]. intros j Hj. apply IH; lia.
      + rewrite <- (Rmult_1_l B) at 2. apply Rmult_le_compat_r; lra.
  Qed.
End Real.

(** Superposition and delay of solutions. *)
Lemma obeys_behind c x y E : obeys c x y -> obeys c (behind 0 x E) (behind 0 y E).
Proof.
  destruct c as [[[[b0 b1] b2] a1] a2]. intros H n. unfold behind, back.
  destruct (Nat.leb_spec E n) as [Q|Q].
  - rewrite (H (n - E)%nat). unfold back.
    assert (G : forall j (f : nat -> R), (if (j <=? n - E)%nat then f (n - E - j)%nat else 0)
        = if (j <=? n)%nat then (if (E <=? n - j)%nat then f (n - j - E)%nat else 0) else 0).
    { intros j f. destruct (Nat.leb_spec j (n - E)); destruct (Nat.leb_spec j n); try lia.
      - destruct (Nat.leb_spec E (n - j)); [|lia]. f_equal. lia.
      - destruct (Nat.leb_spec E (n - j)); [lia|reflexivity].
      - reflexivity. }
    rewrite (G 1%nat x), (G 2%nat x), (G 1%nat y), (G 2%nat y). reflexivity.
  - assert (G : forall j (f : nat -> R),
        (if (j <=? n)%nat then (if (E <=? n - j)%nat then f (n - j - E)%nat else 0) else 0) = 0).
    { intros j f. destruct (j <=? n)%nat; [|reflexivity]. destruct (Nat.leb_spec E (n - j)); [lia|reflexivity]. }
    rewrite !G. ring.
Qed.

Lemma obeys_sum c (x y : nat -> signal) N : (forall k, obeys c (x k) (y k)) ->
  obeys c (fun n => sum_f_R0 (fun k => x k n) N) (fun n => sum_f_R0 (fun k => y k n) N).
Proof.
  intros H. destruct c as [[[[b0 b1] b2] a1] a2]. induction N as [|N IH].
  - intros n. cbn. apply (H 0%nat).
  - intros n. cbn [sum_f_R0].
    assert (B : forall j (f : nat -> signal), back j (fun n => sum_f_R0 (fun k => f k n) N + f (Datatypes.S N) n) n
        = back j (fun n => sum_f_R0 (fun k => f k n) N) n + back j (f (Datatypes.S N)) n).
    { intros j f. unfold back. destruct (j <=? n)%nat; ring. }
    rewrite !B, (IH n), (H (Datatypes.S N) n). ring.
Qed.

Lemma obeys_det c x y z n : obeys c x y -> obeys c x z -> y n = z n.
Proof.
  intros Hy Hz. destruct c as [[[[b0 b1] b2] a1] a2].
  induction n as [n IH] using lt_wf_ind. rewrite (Hy n), (Hz n).
  assert (B : forall j, (1 <= j)%nat -> back j y n = back j z n).
  { intros j Hj. unfold back. destruct (Nat.leb_spec j n); [apply IH; lia|reflexivity]. }
  rewrite !B by lia. reflexivity.
Qed.

Lemma sum_tail_zero (f : nat -> R) K N : (K <= N)%nat -> (forall i, (K < i)%nat -> f i = 0) ->
  sum_f_R0 f N = sum_f_R0 f K.
Proof.
  intros H. induction N as [|N IH]; intros Hf.
  - replace K with 0%nat by lia. reflexivity.
  - destruct (Nat.eq_dec K (Datatypes.S N)) as [->|]; [reflexivity|]. cbn [sum_f_R0].
    rewrite IH, (Hf (Datatypes.S N)) by (assumption || lia). ring.
Qed.

Lemma loop_echoes {S K} (Dv : device S K R) k c (x y : nat -> R) (D N : nat) (f : nat -> signal) :
  filter_eq Dv k c -> (1 <= D)%nat ->
  (forall n, (n < N)%nat -> y n = x n + stream Dv k (behind 0 y D) n) ->
  (forall n, f 0%nat n = x n) -> (forall j, obeys c (f j) (f (Datatypes.S j))) ->
  forall n, (n < N)%nat -> y n = sum_f_R0 (fun j => behind 0 (f j) (j * D) n) (n / D).
Proof.
  intros Hc HD Hy H0 Hf.
  set (Y := fun n => sum_f_R0 (fun j => behind 0 (f j) (j * D) n) N).
  set (W := fun n => sum_f_R0 (fun j => behind 0 (f j) (Datatypes.S j * D) n) N).
  set (Z := fun n => sum_f_R0 (fun j => behind 0 (f (Datatypes.S j)) (Datatypes.S j * D) n) N).
  assert (HW : forall n, behind 0 Y D n = W n).
  { intros n. unfold W, Y. unfold behind at 1. destruct (Nat.leb_spec D n) as [Q|Q].
    - apply sum_eq. intros j _. unfold behind. cbn [Nat.mul].
      destruct (Nat.leb_spec (j * D) (n - D)); destruct (Nat.leb_spec (D + j * D) n); try lia; [|reflexivity]. f_equal. lia.
    - rewrite (sum_eq _ (fun _ => 0)); [rewrite sum_cte; ring|]. intros j _. unfold behind. cbn [Nat.mul].
      destruct (Nat.leb_spec (D + j * D) n); [lia|reflexivity]. }
  assert (HZ : obeys c W Z).
  { apply (obeys_sum c (fun j => behind 0 (f j) (Datatypes.S j * D)) (fun j => behind 0 (f (Datatypes.S j)) (Datatypes.S j * D))).
    intros j. apply obeys_behind, Hf. }
  assert (HY : forall n, (n < N)%nat -> Y n = x n + Z n).
  { intros n Hn. destruct N as [|N']; [lia|].
    unfold Y. rewrite decomp_sum by lia. cbn [Nat.mul Init.Nat.pred].
    replace (behind 0 (f 0%nat) 0 n) with (x n) by (unfold behind; cbn; rewrite Nat.sub_0_r; symmetry; apply H0).
    f_equal. unfold Z. cbn [sum_f_R0].
    replace (behind 0 (f (Datatypes.S (Datatypes.S N'))) (Datatypes.S (Datatypes.S N') * D) n) with 0; [cbn [Nat.mul]; ring|].
    unfold behind. destruct (Nat.leb_spec (Datatypes.S (Datatypes.S N') * D) n) as [Q|Q]; [|reflexivity]. nia. }
  assert (E : forall n, (n < N)%nat -> y n = Y n).
  { intros n. induction n as [n IH] using lt_wf_ind. intros Hn. rewrite (Hy n Hn), (HY n Hn). f_equal.
    rewrite (stream_ext Dv k (behind 0 y D) W n).
    - apply (obeys_det c W); [|exact HZ]. apply stream_obeys, Hc.
    - intros i Hi. rewrite <- HW. unfold behind. destruct (Nat.leb_spec D i); [apply IH; lia|reflexivity]. }
  intros n Hn. rewrite (E n Hn). unfold Y. apply sum_tail_zero.
  - assert (n / D <= n)%nat by (apply Nat.div_le_upper_bound; nia). lia.
  - intros i Hi. unfold behind. destruct (Nat.leb_spec (i * D) n) as [Q|Q]; [|reflexivity].
    assert (i <= n / D)%nat by (apply Nat.div_le_lower_bound; lia). lia.
Qed.

Lemma pluck_nth (us : list R) j n : (length us <= n)%nat -> at_ 0 (us ++ repeat 0 j) n = 0.
Proof.
  intros L. unfold at_. rewrite app_nth2 by exact L.
  destruct (Nat.lt_ge_cases (n - length us) j); [apply nth_repeat|apply nth_overflow; rewrite repeat_length; assumption].
Qed.

(*@PROP
(** C114, exact arithmetic: the output is the sum of the input's echoes, the [j]-th echo
    delayed by j d and passed [j] times through the filter; [f j] is the input passed [j]
    times through the filter's difference equation. *)
@*)
Lemma C114_echoes_thm :
  forall (S K : Type) (D : device S K R) (p : profile) (k : K) (c : R * R * R * R * R) (d m : Z) (xs : list R)
         (f : nat -> signal),
    filter_eq D k c -> (1 <= d <= m)%Z -> is_usize m -> fits R_ops m ->
    (forall n, f 0%nat n = at_ 0 xs n) -> (forall j, obeys c (f j) (f (j + 1)%nat)) ->
    exists e ys, string R_ops p D k d m xs = Ok (e, ys) /\ length ys = length xs
      /\ forall n, (n < length xs)%nat ->
           at_ 0 ys n = sum_f_R0 (fun j => behind 0 (f j) (j * Z.to_nat d) n) (n / Z.to_nat d).
Proof.
  intros S K D p k c d m xs f Hc Hd Hm Hf H0 Hj.
  destruct (C114_loop_thm S K R D R_ops p k d m xs) as [e [ys [E [L N]]]]; try assumption. { cbn. lia. }
  exists e, ys. split; [exact E|]. split; [exact L|]. change (n_zero R_ops) with 0 in N.
  apply (loop_echoes D k c (at_ 0 xs) (at_ 0 ys)); [exact Hc|lia|exact N|exact H0|].
  intros j. specialize (Hj j). rewrite Nat.add_1_r in Hj. exact Hj.
Qed.

(*@PROP
(** The hypotheses hold, for example, for the averaging filter y[n] = (x[n] + x[n-1]) / 2 of
    Karplus and Strong; its second echo of the impulse is 1/4, 1/2, 1/4. *)
Example C114_echoes_hyps :
  let c := (1 / 2, 1 / 2, 0, 0, 0) in
  let f := fix f (j : nat) : signal :=
    match j with
    | O => at_ 0 [1; 0; 0]
    | S i => fun n => 1 / 2 * f i n + 1 / 2 * back 1 (f i) n
    end in
  filter_eq (dev_one_zero R_ops) (1 / 2, 1 / 2) c /\ (1 <= 2 <= 3)%Z /\ is_usize 3 /\ fits R_ops 3
  /\ (forall n, f 0%nat n = at_ 0 [1; 0; 0] n) /\ (forall j, obeys c (f j) (f (j + 1)%nat))
  /\ f 2%nat 0%nat = 1 / 4 /\ f 2%nat 1%nat = 1 / 2 /\ f 2%nat 2%nat = 1 / 4.
Proof.
  intros c f. split; [constructor|]. split; [easy|]. split; [easy|]. split; [easy|]. split; [reflexivity|].
  split; [|unfold f, back, at_; cbn; lra].
  intros j n. rewrite Nat.add_1_r. cbn [f]. fold f. ring.
Qed.

(** C114, exact arithmetic: if the gain [g] of the filter is below 1, an input within [X]
    gives an output within X / (1 - g).  If it is at most 1, a string plucked with at most [d]
    samples and then left alone is never louder than the pluck. *)
@*)
Lemma C114_bounded_thm :
  forall (S K : Type) (D : device S K R) (p : profile) (k : K) (c : R * R * R * R * R) (g : R) (d m : Z),
    filter_eq D k c -> gain c g -> (1 <= d <= m)%Z -> is_usize m -> fits R_ops m ->
    (forall (xs : list R) (X : R), g < 1 -> (forall x, In x xs -> Rabs x <= X) ->
      exists e ys, string R_ops p D k d m xs = Ok (e, ys) /\ length ys = length xs
        /\ forall y, In y ys -> Rabs y <= X / (1 - g))
    /\ (forall (us : list R) (B : R) (j : nat), g <= 1 -> (Z.of_nat (length us) <= d)%Z -> 0 <= B ->
        (forall u, In u us -> Rabs u <= B) ->
      exists e ys, string R_ops p D k d m (us ++ repeat 0 j) = Ok (e, ys) /\ length ys = (length us + j)%nat
        /\ forall y, In y ys -> Rabs y <= B).
Proof.
  intros S K D p k c g d m Hc Hg Hd Hm Hf.
  assert (Hv : forall (ys : list R) n B, 0 <= B -> (forall i, (i < n)%nat -> Rabs (at_ 0 ys i) <= B) ->
             Rabs (behind 0 (at_ 0 ys) (Z.to_nat d) n) <= B).
  { intros ys n B HB HI. unfold behind. destruct (Nat.leb_spec (Z.to_nat d) n); [|rewrite Rabs_R0; exact HB].
    apply HI. lia. }
  split.
  - intros xs X Hg1 HX.
    destruct (C114_loop_thm S K R D R_ops p k d m xs) as [e [ys [E [L N]]]]; try assumption. { cbn. lia. }
    exists e, ys. split; [exact E|]. split; [exact L|]. change (n_zero R_ops) with 0 in N.
    intros y Hy. destruct (In_nth ys y 0 Hy) as [n [Hn <-]]. rewrite L in Hn.
    apply (loop_bound D k c g (at_ 0 xs) (at_ 0 ys) _ (length xs) Hc Hg N); auto.
    intros i Hi. apply HX, nth_In, Hi.
  - intros us B j Hg1 Hu HB HU. set (xs := us ++ repeat 0 j).
    destruct (C114_loop_thm S K R D R_ops p k d m xs) as [e [ys [E [L N]]]]; try assumption. { cbn. lia. }
    assert (Lx : length xs = (length us + j)%nat) by (unfold xs; rewrite app_length, repeat_length; reflexivity).
    exists e, ys. split; [exact E|]. split; [congruence|]. change (n_zero R_ops) with 0 in N.
    intros y Hy. destruct (In_nth ys y 0 Hy) as [n [Hn <-]]. rewrite L in Hn.
    apply (loop_never_louder D k c g (at_ 0 xs) (at_ 0 ys) _ (length xs) Hc Hg N); auto.
    intros i Hi. destruct (Nat.lt_ge_cases i (length us)) as [Q|Q].
    + left. split.
      * unfold at_, xs. rewrite app_nth1 by exact Q. apply HU, nth_In, Q.
      * intros i' Hi'. unfold behind. destruct (Nat.leb_spec (Z.to_nat d) i'); [lia|reflexivity].
    + right. apply pluck_nth, Q.
Qed.

(** The gain of a filter without feedback. *)
Lemma fir_gain b0 b1 b2 : gain (b0, b1, b2, 0, 0) (Rabs b0 + Rabs b1 + Rabs b2).
Proof.
  intros x y M Ho Hx n. rewrite (Ho n).
  assert (M0 : 0 <= M) by (eapply Rle_trans; [apply Rabs_pos|exact (Hx 0%nat)]).
  assert (Hb : forall i, Rabs (back i x n) <= M).
  { intros i. unfold back. destruct (i <=? n)%nat; [apply Hx|]. rewrite Rabs_R0. exact M0. }
  replace (b0 * x n + b1 * back 1 x n + b2 * back 2 x n - 0 * back 1 y n - 0 * back 2 y n)
    with (b0 * x n + b1 * back 1 x n + b2 * back 2 x n) by ring.
  eapply Rle_trans; [apply Rabs_triang|]. eapply Rle_trans; [apply Rplus_le_compat_r, Rabs_triang|].
  rewrite !Rabs_mult, !Rmult_plus_distr_r.
  apply Rplus_le_compat; [apply Rplus_le_compat|]; (apply Rmult_le_compat_l; [apply Rabs_pos|]); auto.
Qed.

Lemma C114_average_gain : gain (1 / 2, 1 / 2, 0, 0, 0) 1.
Proof.
  assert (Q := fir_gain (1 / 2) (1 / 2) 0). rewrite Rabs_R0, (Rabs_pos_eq (1 / 2)) in Q by lra.
  replace (1 / 2 + 1 / 2 + 0) with 1 in Q by lra. exact Q.
Qed.

(*@PROP
(** The averaging filter has gain 1, its half gain 1/2. *)
Example C114_bounded_hyps :
  filter_eq (dev_one_zero R_ops) (1 / 2, 1 / 2) (1 / 2, 1 / 2, 0, 0, 0) /\ gain (1 / 2, 1 / 2, 0, 0, 0) 1
  /\ gain (1 / 4, 1 / 4, 0, 0, 0) (1 / 2) /\ (1 <= 2 <= 3)%Z /\ is_usize 3 /\ fits R_ops 3
  /\ (Z.of_nat (length [1; -1]) <= 2)%Z.
Proof.
  split; [constructor|]. split; [exact C114_average_gain|]. split; [|repeat split; easy].
  assert (Q := fir_gain (1 / 4) (1 / 4) 0). rewrite Rabs_R0, (Rabs_pos_eq (1 / 4)) in Q by lra.
  replace (1 / 4 + 1 / 4 + 0) with (1 / 2) in Q by lra. exact Q.
Qed.

(** C114, [LinearDelay]: with a fractional delay d = k + f of at least one sample the filter
    sees the interpolated output (1 - f) y[n - k] + f y[n - k - 1]; the bounds are the same. *)
@*)
Lemma C114_linear_thm :
  forall (S K : Type) (D : device S K R) (p : profile) (kc : K) (c : R * R * R * R * R) (g : R) (d : R) (m : Z) (xs : list R),
    filter_eq D kc c -> gain c g -> is_usize m -> fits R_ops m -> 1 <= d <= IZR m ->
    let k := Z.to_nat (Zfloor d) in
    let f := d - IZR (Zfloor d) in
    exists e ys, lin_string R_ctl R_ops p D kc d m xs = Ok (e, ys) /\ length ys = length xs
      /\ (forall n, (n < length xs)%nat ->
           at_ 0 ys n = at_ 0 xs n
             + stream D kc (fun i => (1 - f) * behind 0 (at_ 0 ys) k i + f * behind 0 (at_ 0 ys) (k + 1) i) n)
      /\ (forall X, g < 1 -> (forall x, In x xs -> Rabs x <= X) -> forall y, In y ys -> Rabs y <= X / (1 - g))
      /\ (forall us B j, xs = us ++ repeat 0 j -> g <= 1 -> (length us <= k)%nat -> 0 <= B ->
          (forall u, In u us -> Rabs u <= B) -> forall y, In y ys -> Rabs y <= B).
Proof.
  intros S K D p kc c g d m xs Hc Hg Hm Hf Hd k f.
  destruct (C22_interpolates_thm p d m (fun _ => 0) 0 Hm Hf ltac:(lra)) as [s0 E0]. cbn [seq map] in E0.
  assert (E1 : lin_new R_ctl R_ops p d m = Ok s0).
  { unfold lin_session in E0. apply bind_Ok in E0. destruct E0 as [s1 [E0 E1]]. cbn [lin_run] in E1. injection E1 as <-. exact E0. }
  destruct (strum_gen R_ops D (lin_next_out R_ops p) (lin_process R_ops p) (past_lin p d m) (lin_read d)
              (past_lin_step p d m Hm Hf Hd) xs s0 (after D [CSet kc]) []) as [e [ys [E [L N]]]].
  { exists []. exact E0. }
  assert (K1 : (1 <= k)%nat).
  { assert (1 <= Zfloor d)%Z by (apply Zfloor_lub; lra). unfold k. lia. }
  set (v := fun i => (1 - f) * behind 0 (at_ 0 ys) k i + f * behind 0 (at_ 0 ys) (k + 1) i).
  assert (Ev : forall i, (i <= length xs)%nat -> lin_read d (firstn i ys) = v i).
  { intros i Hi. unfold lin_read, v. fold k f. rewrite Nat.add_1_r, !read_behind by lia. reflexivity. }
  assert (N' : forall n, (n < length xs)%nat -> at_ 0 ys n = at_ 0 xs n + stream D kc v n).
  { intros n Hn. unfold at_ at 1 2. change 0 with (n_zero R_ops) at 1 2. rewrite (N n Hn). cbn [app n_add R_ops]. f_equal.
    unfold stream. rewrite (fed_ext D _ (fun i => lin_read d (firstn i ys)) v n) by (intros; apply Ev; lia).
    rewrite Ev by lia. reflexivity. }
  assert (Hv : forall n B, (n < length xs)%nat -> 0 <= B -> (forall i, (i < n)%nat -> Rabs (at_ 0 ys i) <= B) -> Rabs (v n) <= B).
  { intros n B Hn HB HI.
    assert (F : 0 <= f <= 1).
    { unfold f. assert (A1 := Zfloor_lb d). assert (A2 := Zfloor_ub d). lra. }
    assert (W : forall j, (1 <= j)%nat -> Rabs (behind 0 (at_ 0 ys) j n) <= B).
    { intros j Hj. unfold behind. destruct (Nat.leb_spec j n); [|rewrite Rabs_R0; exact HB]. apply HI. lia. }
    unfold v. eapply Rle_trans; [apply Rabs_triang|]. rewrite !Rabs_mult, (Rabs_pos_eq (1 - f)), (Rabs_pos_eq f) by lra.
    assert (W1 := W k K1). assert (W2 := W (k + 1)%nat ltac:(lia)).
    assert ((1 - f) * Rabs (behind 0 (at_ 0 ys) k n) <= (1 - f) * B) by (apply Rmult_le_compat_l; lra).
    assert (f * Rabs (behind 0 (at_ 0 ys) (k + 1) n) <= f * B) by (apply Rmult_le_compat_l; lra). lra. }
  exists e, ys. unfold lin_string. rewrite E1. cbn [bind]. split; [exact E|]. split; [exact L|]. split; [exact N'|]. split.
  - intros X Hg1 HX y Hy. destruct (In_nth ys y 0 Hy) as [n [Hn <-]]. rewrite L in Hn.
    apply (loop_bound D kc c g (at_ 0 xs) (at_ 0 ys) v (length xs) Hc Hg N' Hv X Hg1); [|exact Hn].
    intros i Hi. apply HX, nth_In, Hi.
  - intros us B j Ex Hg1 Hu HB HU y Hy. destruct (In_nth ys y 0 Hy) as [n [Hn <-]]. rewrite L in Hn.
    apply (loop_never_louder D kc c g (at_ 0 xs) (at_ 0 ys) v (length xs) Hc Hg N' Hv B Hg1 HB); [|exact Hn].
    intros i Hi. destruct (Nat.lt_ge_cases i (length us)) as [Q|Q].
    + left. split.
      * unfold at_. rewrite Ex, app_nth1 by exact Q. apply HU, nth_In, Q.
      * intros i' Hi'. unfold v, behind. destruct (Nat.leb_spec k i'); [lia|].
        destruct (Nat.leb_spec (k + 1) i'); [lia|]. ring.
    + right. rewrite Ex. apply pluck_nth, Q.
Qed.

(*@PROP
Example C114_linear_hyps :
  filter_eq (dev_one_zero R_ops) (1 / 2, 1 / 2) (1 / 2, 1 / 2, 0, 0, 0) /\ gain (1 / 2, 1 / 2, 0, 0, 0) 1
  /\ is_usize 7 /\ fits R_ops 7 /\ 1 <= 5 / 2 <= IZR 7.
Proof. split; [constructor|]. split; [exact C114_average_gain|]. split; [easy|]. split; [discriminate|]. lra. Qed.
@*)

(** ** Floating point *)
Section Flt.
  Context (prec emax : Z) {Hp : Prec_gt_0 prec} {Hm : Prec_lt_emax prec emax}.
  Local Notation F := (binary_float prec emax).
  Local Notation fx := (SpecFloat.fexp prec emax).
  Local Notation fzero := (B754_zero false : F).

  (** Adding the filtered past to the input. *)
  Lemma sum_ok (x w : F) B : generic_format radix2 fx B -> B < bpow radix2 emax ->
    is_finite x = true -> is_finite w = true -> Rabs (B2R x) + Rabs (B2R w) <= B ->
    is_finite (f_add prec emax x w) = true /\ Rabs (B2R (f_add prec emax x w)) <= B.
  Proof.
    intros GB MB Fx Fw HB.
    assert (Q : Rabs (B2R x + B2R w) <= B) by (eapply Rle_trans; [apply Rabs_triang|exact HB]).
    destruct (add_ok prec emax x w B Fx Fw GB MB Q) as [Fa Ea]. split; [exact Fa|]. rewrite Ea. apply RN_abs_le; assumption.
  Qed.

  Context (H5 : (5 <= prec)%Z) (Ops : num_ops F).
  Hypothesis Hadd : n_add Ops = f_add prec emax.
  Hypothesis Hsub : n_sub Ops = f_sub prec emax.
  Hypothesis Hmul : n_mul Ops = f_mul prec emax.
  Hypothesis Hzero : n_zero Ops = fzero.

  (** The filter on a bounded past. *)
  Lemma filter_level {S K} (D : device S K F) k b0 b1 b2 a1 a2 (v : nat -> F) G g B n :
    has_coeffs Ops D k (b0, b1, b2, a1, a2) -> all_finite (ieee_view prec emax) (b0, b1, b2, a1, a2) ->
    peak_gain (B2R a1) (B2R a2) G -> gain (B2R b0, B2R b1, B2R b2, B2R a1, B2R a2) g -> 0 <= B ->
    let A := Rabs (B2R a1) + Rabs (B2R a2) in
    let L := (Rabs (B2R b0) + Rabs (B2R b1) + Rabs (B2R b2)) * B + bpow radix2 (2 - emax) in
    A * G <= bpow radix2 (prec - 5) ->
    4 * (1 + 4 * A * G) * L <= fmax (ieee_view prec emax) ->
    (forall i, (i <= n)%nat -> is_finite (v i) = true /\ Rabs (B2R (v i)) <= B) ->
    is_finite (stream D k v n) = true
    /\ Rabs (B2R (stream D k v n)) <= g * B + bpow radix2 (3 - prec) * G * (1 + 4 * A * G) * L.
  Proof.
    intros Hc Hf HG Hg HB A L HAG Hbig Hv. set (v' := fun i => if (i <=? n)%nat then v i else fzero).
    rewrite (stream_ext D k v v' n) by (intros i Hi; unfold v'; apply Nat.leb_le in Hi; rewrite Hi; reflexivity).
    assert (Hv' : forall i, is_finite (v' i) = true /\ Rabs (B2R (v' i)) <= B).
    { intros i. unfold v'. destruct (Nat.leb_spec i n); [apply Hv; assumption|]. cbn. rewrite Rabs_R0. split; [reflexivity|exact HB]. }
    set (z := out (dev_biquad1 R_ops) (configured (dev_biquad1 R_ops) (B2R b0, B2R b1, B2R b2, B2R a1, B2R a2)) (fun n => B2R (v' n))).
    assert (Hz : obeys (B2R b0, B2R b1, B2R b2, B2R a1, B2R a2) (fun n => B2R (v' n)) z) by (apply filter_obeys; constructor).
    destruct (track prec emax H5 Ops Hadd Hsub Hmul Hzero D k b0 b1 b2 a1 a2 v' G B Hc Hf HG Hv' HAG Hbig z Hz n) as [T1 T2].
    split; [exact T1|]. fold A L in T2. clearbody A L.
    assert (Zb := Hg _ _ B Hz ltac:(intros; apply Hv') n).
    replace (B2R (stream D k v' n)) with (z n + (B2R (stream D k v' n) - z n)) by ring.
    eapply Rle_trans; [apply Rabs_triang|]. lra.
  Qed.

  (** Two taps without feedback. *)
  Lemma taps_level b0 b1 (v : nat -> F) P0 P1 B n :
    is_finite b0 = true -> is_finite b1 = true ->
    generic_format radix2 fx P0 -> generic_format radix2 fx P1 -> generic_format radix2 fx B -> B < bpow radix2 emax ->
    0 <= B -> Rabs (B2R b0) * B <= P0 -> Rabs (B2R b1) * B <= P1 -> P0 + P1 <= B ->
    (forall i, (i <= n)%nat -> is_finite (v i) = true /\ Rabs (B2R (v i)) <= B) ->
    let w := stream (dev_one_zero Ops) (b0, b1) v n in
    is_finite w = true /\ Rabs (B2R w) <= B /\ ((forall i, (i <= n)%nat -> B2R (v i) = 0) -> B2R w = 0).
  Proof.
    intros F0 F1 G0 G1 GB MB HB HP0 HP1 HPB Hv w.
    assert (E := unroll_one_zero prec emax Ops Hadd Hmul Hzero v b0 b1 n). cbv zeta in E. fold w in E.
    assert (Hv1 : is_finite (fb prec emax 1 v n) = true /\ Rabs (B2R (fb prec emax 1 v n)) <= B).
    { unfold fb. destruct (Nat.leb_spec 1 n); [apply Hv; lia|]. cbn. rewrite Rabs_R0. split; [reflexivity|exact HB]. }
    destruct (Hv n (Nat.le_refl _)) as [Fv Bv]. destruct Hv1 as [Fv1 Bv1].
    assert (R0 : Rabs (B2R b0 * B2R (v n)) <= P0).
    { rewrite Rabs_mult. eapply Rle_trans; [apply Rmult_le_compat_l; [apply Rabs_pos|exact Bv]|exact HP0]. }
    assert (R1 : Rabs (B2R b1 * B2R (fb prec emax 1 v n)) <= P1).
    { rewrite Rabs_mult. eapply Rle_trans; [apply Rmult_le_compat_l; [apply Rabs_pos|exact Bv1]|exact HP1]. }
    assert (P0p : 0 <= P0) by (eapply Rle_trans; [apply Rabs_pos|exact R0]).
    assert (P1p : 0 <= P1) by (eapply Rle_trans; [apply Rabs_pos|exact R1]).
    destruct (mul_ok prec emax b0 (v n) P0 F0 Fv G0 ltac:(lra) R0) as [Fm0 Em0].
    destruct (mul_ok prec emax b1 (fb prec emax 1 v n) P1 F1 Fv1 G1 ltac:(lra) R1) as [Fm1 Em1].
    assert (Q0 := RN_abs_le prec emax _ P0 G0 R0). assert (Q1 := RN_abs_le prec emax _ P1 G1 R1). rewrite <- Em0 in Q0. rewrite <- Em1 in Q1.
    rewrite E. destruct (sum_ok _ _ B GB MB Fm0 Fm1 ltac:(lra)) as [S1 S2]. split; [exact S1|]. split; [exact S2|].
    intros Hz.
    assert (Z1 : B2R (fb prec emax 1 v n) = 0).
    { unfold fb. destruct (Nat.leb_spec 1 n); [apply Hz; lia|reflexivity]. }
    rewrite Z1, Rmult_0_r, round_0 in Em1 by typeclasses eauto.
    rewrite (Hz n) , Rmult_0_r, round_0 in Em0 by (typeclasses eauto || lia).
    assert (S3 : Rabs (B2R (f_mul prec emax b0 (v n)) + B2R (f_mul prec emax b1 (fb prec emax 1 v n))) <= B).
    { rewrite Em0, Em1, Rplus_0_r, Rabs_R0. exact HB. }
    destruct (add_ok prec emax _ _ B Fm0 Fm1 GB MB S3) as [_ Ea]. rewrite Ea, Em0, Em1, Rplus_0_r. apply round_0. typeclasses eauto.
  Qed.
End Flt.

(*@PROP
(** C114, [f32] and [f64]: let the samples be within [X] and the filter have gain [g], and let
    [B], a number of the type, leave room for the input, for the filtered past and for the
    rounding noise of the filter (C81).  The loop stays finite and within [B] for ever. *)
@*)
Lemma C114_float_bound_thm :
  forall (T : Type) (O : num_ops T) (V : float_view T), ieee O V ->
  forall (S K : Type) (D : device S K T) (k : K) (c : T * T * T * T * T),
    has_coeffs O D k c -> all_finite V c ->
  forall (p : profile) (d m : Z) (xs : list T) (b0 b1 b2 a1 a2 g G A L X B : R),
    (1 <= d <= m)%Z -> is_usize m -> fits O m ->
    vals V c = (b0, b1, b2, a1, a2) ->
    gain (b0, b1, b2, a1, a2) g -> peak_gain a1 a2 G ->
    A = Rabs a1 + Rabs a2 ->
    L = (Rabs b0 + Rabs b1 + Rabs b2) * B + fmin V ->
    A * G <= bpow radix2 (fprec V - 5) ->
    4 * (1 + 4 * A * G) * L <= fmax V ->
    rnd V B = B -> 0 <= B <= fmax V ->
    X + (g * B + bpow radix2 (3 - fprec V) * G * (1 + 4 * A * G) * L) <= B ->
    (forall x, In x xs -> fin V x = true /\ Rabs (val V x) <= X) ->
    exists e ys, string O p D k d m xs = Ok (e, ys) /\ length ys = length xs
      /\ forall y, In y ys -> fin V y = true /\ Rabs (val V y) <= B.
Proof.
  intros T O V HO S K D k c Hc Hf p d m xs b0 b1 b2 a1 a2 g G A L X B Hd Hm Hfit E Hg HG EA EL HAG Hbig RB [B0 MB] HX HI.
  assert (Hs : (1 <= n_size_of O)%Z) by (destruct HO; cbn; lia).
  destruct (C114_loop_thm S K T D O p k d m xs Hs Hd Hm Hfit) as [e [ys [Es [LY N]]]].
  exists e, ys. split; [exact Es|]. split; [exact LY|].
  assert (Z0 : fin V (n_zero O) = true /\ Rabs (val V (n_zero O)) <= B).
  { destruct HO; cbn; rewrite Rabs_R0; split; [reflexivity|exact B0|reflexivity|exact B0]. }
  assert (Fl : forall v n, (forall i, (i <= n)%nat -> fin V (v i) = true /\ Rabs (val V (v i)) <= B) ->
     fin V (stream D k v n) = true
     /\ Rabs (val V (stream D k v n)) <= g * B + bpow radix2 (3 - fprec V) * G * (1 + 4 * A * G) * L).
  { destruct c as [[[[c0 c1] c2] d1] d2]. subst A L. destruct HO as [lm b|lm b];
      cbn [vals val ieee_view] in E; injection E as <- <- <- <- <-; intros v n Hv.
    - exact (filter_level 24 128 ltac:(lia) (f32_ops lm b) eq_refl eq_refl eq_refl eq_refl D k c0 c1 c2 d1 d2 v G g B n
               Hc Hf HG Hg B0 HAG Hbig Hv).
    - exact (filter_level 53 1024 ltac:(lia) (f64_ops lm b) eq_refl eq_refl eq_refl eq_refl D k c0 c1 c2 d1 d2 v G g B n
               Hc Hf HG Hg B0 HAG Hbig Hv). }
  assert (Ad : forall x w, fin V x = true -> fin V w = true -> Rabs (val V x) + Rabs (val V w) <= B ->
     fin V (n_add O x w) = true /\ Rabs (val V (n_add O x w)) <= B).
  { clear - HO RB MB. destruct HO as [lm b|lm b]; cbn [fin val rnd fmax ieee_view] in *; intros x w Fx Fw Q;
      cbn [n_add f32_ops f64_ops]; (apply sum_ok; try assumption);
      try (rewrite <- RB; apply generic_format_round; typeclasses eauto).
    all: match type of MB with _ <= (1 - bpow radix2 ?a) * bpow radix2 ?b =>
         assert (0 < bpow radix2 a) by apply bpow_gt_0; assert (0 < bpow radix2 b) by apply bpow_gt_0; nra end. }
  assert (All : forall n, (n < length xs)%nat -> fin V (at_ (n_zero O) ys n) = true /\ Rabs (val V (at_ (n_zero O) ys n)) <= B).
  { intros n. induction n as [n IH] using lt_wf_ind. intros Hn. rewrite (N n Hn).
    destruct (HI (at_ (n_zero O) xs n) (nth_In _ _ Hn)) as [Fx Bx].
    destruct (Fl (behind (n_zero O) (at_ (n_zero O) ys) (Z.to_nat d)) n) as [Fw Bw].
    - intros i Hi. unfold behind. destruct (Nat.leb_spec (Z.to_nat d) i); [apply IH; lia|exact Z0].
    - apply Ad; [exact Fx|exact Fw|lra]. }
  intros y Hy. destruct (In_nth ys y (n_zero O) Hy) as [n [Hn <-]]. rewrite LY in Hn. apply All, Hn.
Qed.

Lemma peak_gain_none : peak_gain 0 0 1.
Proof.
  intros x y M Ho Hx n. assert (Q := fir_gain 1 0 0 x y M Ho Hx n). rewrite Rabs_R1, Rabs_R0 in Q. lra.
Qed.

Lemma C114_float_bound_hyps_aux :
  let c := (fl32 1 (-2), fl32 1 (-2), n_zero O32, n_zero O32, n_zero O32) in
  let V := ieee_view 24 128 in
  let L := (1 / 4 + 1 / 4 + 0) * 4 + fmin V in
  ieee O32 V /\ has_coeffs O32 (dev_one_zero O32) (fl32 1 (-2), fl32 1 (-2)) c /\ all_finite V c
  /\ vals V c = (1 / 4, 1 / 4, 0, 0, 0) /\ gain (1 / 4, 1 / 4, 0, 0, 0) (1 / 2) /\ peak_gain 0 0 1
  /\ 0 * 1 <= bpow radix2 (fprec V - 5) /\ 4 * (1 + 4 * 0 * 1) * L <= fmax V
  /\ rnd V 4 = 4 /\ 0 <= 4 <= fmax V
  /\ 1 + (1 / 2 * 4 + bpow radix2 (3 - fprec V) * 1 * (1 + 4 * 0 * 1) * L) <= 4
  /\ (1 <= 3 <= 5)%Z /\ is_usize 5 /\ fits O32 5.
Proof.
  intros c V L.
  assert (E1 : B2R (fl32 1 (-2)) = 1 / 4) by (lit; lra).
  assert (Fm : 0 < fmin V <= 1).
  { unfold V. cbn [fmin ieee_view]. split; [apply bpow_gt_0|]. apply (bpow_le radix2 _ 0). lia. }
  assert (FM : 1024 <= fmax V).
  { unfold V. cbn [fmax ieee_view].
    assert (bpow radix2 (- (24)) <= bpow radix2 (-1)) by (apply bpow_le; lia).
    assert (bpow radix2 11 <= bpow radix2 128) by (apply bpow_le; lia).
    change (bpow radix2 (-1)) with (/ 2) in *. assert (bpow radix2 11 = 2048) by (cbn; lra).
    assert (0 < bpow radix2 (- (24))) by apply bpow_gt_0. nra. }
  assert (P : 0 < bpow radix2 (3 - fprec V) <= / 4).
  { split; [apply bpow_gt_0|]. unfold V. cbn [fprec ieee_view]. replace (/ 4) with (bpow radix2 (-2)) by (cbn; lra). apply bpow_le. lia. }
  assert (HL : 2 < L <= 3) by (unfold L; lra).
  split; [constructor|]. split; [constructor|]. split; [repeat split|].
  split; [unfold c, V; cbn [vals val ieee_view]; rewrite !E1; reflexivity|].
  split. { assert (Q := fir_gain (1 / 4) (1 / 4) 0). rewrite Rabs_R0, (Rabs_pos_eq (1 / 4)) in Q by lra.
           replace (1 / 4 + 1 / 4 + 0) with (1 / 2) in Q by lra. exact Q. }
  split; [exact peak_gain_none|].
  split; [rewrite Rmult_0_l; apply bpow_ge_0|]. split; [lra|].
  split; [apply (rnd_bpow 24 128 2); easy|]. split; [lra|]. split; [|repeat split; easy].
  assert (bpow radix2 (3 - fprec V) * L <= / 4 * 3) by (apply Rmult_le_compat; lra). lra.
Qed.

(*@PROP
(** The hypotheses hold, for example, for the f32 one-zero filter with coefficients 1/4 and
    1/4 and samples within 1, with B = 4. *)
Example C114_float_bound_hyps :
  let c := (fl32 1 (-2), fl32 1 (-2), n_zero O32, n_zero O32, n_zero O32) in
  let V := ieee_view 24 128 in
  let L := (1 / 4 + 1 / 4 + 0) * 4 + fmin V in
  ieee O32 V /\ has_coeffs O32 (dev_one_zero O32) (fl32 1 (-2), fl32 1 (-2)) c /\ all_finite V c
  /\ vals V c = (1 / 4, 1 / 4, 0, 0, 0) /\ gain (1 / 4, 1 / 4, 0, 0, 0) (1 / 2) /\ peak_gain 0 0 1
  /\ 0 * 1 <= bpow radix2 (fprec V - 5) /\ 4 * (1 + 4 * 0 * 1) * L <= fmax V
  /\ rnd V 4 = 4 /\ 0 <= 4 <= fmax V
  /\ 1 + (1 / 2 * 4 + bpow radix2 (3 - fprec V) * 1 * (1 + 4 * 0 * 1) * L) <= 4
  /\ (1 <= 3 <= 5)%Z /\ is_usize 5 /\ fits O32 5.
Proof. exact C114_float_bound_hyps_aux. Qed.

(** C114, [f32] and [f64], at the edge: the string with a [OneZero] filter (Karplus and
    Strong's average), plucked with at most [d] samples within [B] and then left alone, stays
    finite and is never louder than [B], if [B] and numbers [P0], [P1] of the type satisfy
    |b0| B <= P0, |b1| B <= P1 and P0 + P1 <= B. *)
@*)
Lemma C114_float_never_louder_thm :
  forall (T : Type) (O : num_ops T) (V : float_view T), ieee O V ->
  forall (p : profile) (b0 b1 : T) (d m : Z) (us : list T) (j : nat) (P0 P1 B : R),
    (1 <= d <= m)%Z -> is_usize m -> fits O m ->
    fin V b0 = true -> fin V b1 = true -> rnd V P0 = P0 -> rnd V P1 = P1 -> rnd V B = B -> 0 <= B <= fmax V ->
    Rabs (val V b0) * B <= P0 -> Rabs (val V b1) * B <= P1 -> P0 + P1 <= B ->
    (Z.of_nat (length us) <= d)%Z -> (forall u, In u us -> fin V u = true /\ Rabs (val V u) <= B) ->
    exists e ys, string O p (dev_one_zero O) (b0, b1) d m (us ++ repeat (n_zero O) j) = Ok (e, ys)
      /\ length ys = (length us + j)%nat
      /\ forall y, In y ys -> fin V y = true /\ Rabs (val V y) <= B.
Proof.
  intros T O V HO p b0 b1 d m us j P0 P1 B Hd Hm Hfit F0 F1 R0 R1 RB [B0 MB] HP0 HP1 HPB Hu HU.
  assert (Hs : (1 <= n_size_of O)%Z) by (destruct HO; cbn; lia). set (xs := us ++ repeat (n_zero O) j).
  destruct (C114_loop_thm _ _ T (dev_one_zero O) O p (b0, b1) d m xs Hs Hd Hm Hfit) as [e [ys [Es [LY N]]]].
  assert (Lx : length xs = (length us + j)%nat) by (unfold xs; rewrite app_length, repeat_length; reflexivity).
  exists e, ys. split; [exact Es|]. split; [congruence|].
  assert (Z0 : fin V (n_zero O) = true /\ val V (n_zero O) = 0) by (destruct HO; split; reflexivity).
  destruct Z0 as [Zf Zv].
  assert (Fl : forall v n, (forall i, (i <= n)%nat -> fin V (v i) = true /\ Rabs (val V (v i)) <= B) ->
     let w := stream (dev_one_zero O) (b0, b1) v n in
     fin V w = true /\ Rabs (val V w) <= B /\ ((forall i, (i <= n)%nat -> val V (v i) = 0) -> val V w = 0)).
  { clear - HO F0 F1 R0 R1 RB B0 MB HP0 HP1 HPB. destruct HO as [lm b|lm b]; cbn [fin val rnd fmax ieee_view] in *;
      intros v n Hv.
    1: apply (taps_level 24 128 (f32_ops lm b) eq_refl eq_refl eq_refl b0 b1 v P0 P1 B n); try assumption.
    5: apply (taps_level 53 1024 (f64_ops lm b) eq_refl eq_refl eq_refl b0 b1 v P0 P1 B n); try assumption.
    1,5: rewrite <- R0; apply generic_format_round; typeclasses eauto.
    1,4: rewrite <- R1; apply generic_format_round; typeclasses eauto.
    1,3: rewrite <- RB; apply generic_format_round; typeclasses eauto.
    all: match type of MB with _ <= (1 - bpow radix2 ?a) * bpow radix2 ?b =>
         assert (0 < bpow radix2 a) by apply bpow_gt_0; assert (0 < bpow radix2 b) by apply bpow_gt_0; nra end. }
  assert (Ad : forall x w, fin V x = true -> fin V w = true -> Rabs (val V x) + Rabs (val V w) <= B ->
     fin V (n_add O x w) = true /\ Rabs (val V (n_add O x w)) <= B).
  { clear - HO RB MB. destruct HO as [lm b|lm b]; cbn [fin val rnd fmax ieee_view] in *; intros x w Fx Fw Q;
      cbn [n_add f32_ops f64_ops]; (apply sum_ok; try assumption);
      try (rewrite <- RB; apply generic_format_round; typeclasses eauto).
    all: match type of MB with _ <= (1 - bpow radix2 ?a) * bpow radix2 ?b =>
         assert (0 < bpow radix2 a) by apply bpow_gt_0; assert (0 < bpow radix2 b) by apply bpow_gt_0; nra end. }
  assert (All : forall n, (n < length xs)%nat -> fin V (at_ (n_zero O) ys n) = true /\ Rabs (val V (at_ (n_zero O) ys n)) <= B).
  { intros n. induction n as [n IH] using lt_wf_ind. intros Hn. rewrite (N n Hn).
    destruct (Fl (behind (n_zero O) (at_ (n_zero O) ys) (Z.to_nat d)) n) as [Fw [Bw Bz]].
    - intros i Hi. unfold behind. destruct (Nat.leb_spec (Z.to_nat d) i); [apply IH; lia|].
      rewrite Zv, Rabs_R0. split; [exact Zf|exact B0].
    - destruct (Nat.lt_ge_cases n (length us)) as [Q|Q].
      + replace (at_ (n_zero O) xs n) with (nth n us (n_zero O)) by (unfold at_, xs; rewrite app_nth1 by exact Q; reflexivity).
        destruct (HU _ (nth_In us (n_zero O) Q)) as [Fx Bx]. apply Ad; [exact Fx|exact Fw|].
        rewrite Bz, Rabs_R0; [lra|]. intros i Hi. unfold behind. destruct (Nat.leb_spec (Z.to_nat d) i); [lia|exact Zv].
      + replace (at_ (n_zero O) xs n) with (n_zero O).
        2:{ symmetry. unfold at_, xs. rewrite app_nth2 by exact Q. apply nth_repeat. }
        apply Ad; [exact Zf|exact Fw|]. rewrite Zv, Rabs_R0. lra. }
  intros y Hy. destruct (In_nth ys y (n_zero O) Hy) as [n [Hn <-]]. rewrite LY in Hn. apply All, Hn.
Qed.

Lemma C114_float_never_louder_hyps_aux :
  let h := fl32 1 (-1) in let V := ieee_view 24 128 in
  ieee O32 V /\ fin V h = true /\ rnd V 1 = 1 /\ rnd V 2 = 2 /\ 0 <= 2 <= fmax V
  /\ Rabs (val V h) * 2 <= 1 /\ 1 + 1 <= 2 /\ (1 <= 3 <= 5)%Z /\ is_usize 5 /\ fits O32 5.
Proof.
  intros g V. unfold g, V. split; [constructor|]. split; [reflexivity|].
  split; [apply (rnd_bpow 24 128 0); easy|]. split; [apply (rnd_bpow 24 128 1); easy|].
  split. { cbn. lra. }
  split. { unfold fl32. cbn. unfold F2R. cbn. rewrite Rabs_pos_eq; lra. }
  split; [lra|]. repeat split; easy.
Qed.

(*@PROP
(** The hypotheses hold, for example, for the f32 average, b0 = b1 = 1/2, and B = 2. *)
Example C114_float_never_louder_hyps :
  let h := fl32 1 (-1) in let V := ieee_view 24 128 in
  ieee O32 V /\ fin V h = true /\ rnd V 1 = 1 /\ rnd V 2 = 2 /\ 0 <= 2 <= fmax V
  /\ Rabs (val V h) * 2 <= 1 /\ 1 + 1 <= 2 /\ (1 <= 3 <= 5)%Z /\ is_usize 5 /\ fits O32 5.
Proof. exact C114_float_never_louder_hyps_aux. Qed.
@*)
