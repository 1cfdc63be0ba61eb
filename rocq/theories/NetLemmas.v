(** Lemmas behind property C116.  The [@PROP] blocks are copied into [PropNet.v]. *)
(*@PROP
(** Property C116: feedback delay networks built from any number of [Delay] lines.

    Vocabulary: [network], [fed_to], [sizes_ok], [power], [in_flight], [householder],
    [ping_pong] ([NetSpec]); [behind zero w k n] is the sample [k] before number [n], [zero]
    before the start ([LinRun]); [at_ zero l n] is the [n]-th element of a list ([EchoSpec]). *)
From Coq Require Import ZArith Reals List Bool Lia Lra.
From Flocq Require Import Core.Core IEEE754.BinarySingleNaN.
From Verif Require Import Base Num NumR NumF FloatSpec Witness DelayM DelaySpec DelayRun LinRun EchoSpec EchoLemmas NetSpec NetLemmas.
Import ListNotations.
Open Scope R_scope.
@*)
From Coq Require Import ZArith Reals List Bool Lia Lra Arith.
From Flocq Require Import Core.Core IEEE754.BinarySingleNaN.
From Verif Require Import Base BaseLemmas Num NumR NumF FloatSpec FloatFacts SmoothF AnaFacts DelayM DelaySpec DelayRun DelayProofs DelayFacts
  DelayLemmas LinRun Witness EchoSpec EchoLemmas EqSpec SchroederSpec SchroederLemmas NetSpec.
Import ListNotations.
Open Scope R_scope.

(** ** The network in general *)
Section Gen.
  Context {T : Type} (O : num_ops T) (p : profile) (Hs : (1 <= n_size_of O)%Z).
  Notation zero := (n_zero O).

  (** Line [i] has been fed the samples [col i]. *)
  Fixpoint pasts (ds : list (Z * Z)) (ls : list (delay T)) (col : nat -> list T) : Prop :=
    match ds, ls with
    | [], [] => True
    | (d, m) :: ds', l :: ls' => past_dl O d m l (col 0%nat) /\ pasts ds' ls' (fun i => col (Datatypes.S i))
    | _, _ => False
    end.

  Notation good := (Forall (fun dm : Z * Z => (1 <= fst dm <= snd dm)%Z)).

  Lemma peek_ok ds : good ds -> forall ls col, pasts ds ls col ->
    exists vs, peek_all ls = Ok vs /\ length vs = length ds
      /\ forall i, (i < length ds)%nat -> nth i vs zero = read_back zero (delay_of ds i) (col i).
  Proof.
    induction ds as [|[d m] ds IH]; intros Hg [|l ls] col H; try contradiction.
    - exists []. repeat split. intros i Hi. cbn in Hi. lia.
    - destruct H as [H1 H2]. destruct (IH (Forall_inv_tail Hg) ls _ H2) as [vs [E [HL Hn]]].
      exists (read_back zero (Z.to_nat d) (col 0%nat) :: vs). cbn [peek_all].
      rewrite (next_read O d m (Forall_inv Hg) l _ H1), E. split; [reflexivity|]. split; [cbn; lia|].
      intros [|i] Hi; [reflexivity|]. cbn [nth]. rewrite Hn by (cbn in Hi; lia). reflexivity.
  Qed.

  Lemma feed_ok ds : good ds -> forall ls col ws, pasts ds ls col -> length ws = length ds ->
    exists ls', feed_all p ls ws = Ok ls' /\ pasts ds ls' (fun i => col i ++ [nth i ws zero]).
  Proof using Hs.
    induction ds as [|[d m] ds IH]; intros Hg [|l ls] col [|w ws] H HL; try contradiction; try discriminate.
    - exists []. repeat split.
    - destruct H as [H1 H2]. destruct (past_process O p Hs d m (Forall_inv Hg) l _ w H1) as [l2 [o [E2 H3]]].
      destruct (IH (Forall_inv_tail Hg) ls _ ws H2 ltac:(cbn in HL; lia)) as [ls' [E H4]].
      exists (l2 :: ls'). cbn [feed_all]. rewrite E2. cbn [bind]. rewrite E. split; [reflexivity|]. split; [exact H3|exact H4].
  Qed.

  Lemma new_ok ds : sizes_ok O ds -> exists ls, new_all O p ds = Ok ls /\ pasts ds ls (fun _ => []).
  Proof using Hs.
    induction ds as [|[d m] ds IH]; intros H.
    - exists []. repeat split.
    - destruct (Forall_inv H) as [A [B C]]. destruct (past_new O p Hs d m A B C) as [l [E1 H1]].
      destruct (IH (Forall_inv_tail H)) as [ls [E H2]]. exists (l :: ls). cbn [new_all]. rewrite E1. cbn [bind]. rewrite E.
      split; [reflexivity|]. split; assumption.
  Qed.

  Lemma read_seq (f : nat -> T) d n : (1 <= d)%nat -> read_back zero d (map f (seq 0 n)) = behind zero f d n.
  Proof using.
    intros Hd. unfold read_back, behind. rewrite map_length, seq_length. destruct (Nat.leb_spec d n) as [L|L]; [|reflexivity].
    rewrite (nth_indep _ zero (f 0%nat)) by (rewrite map_length, seq_length; lia).
    rewrite map_nth, seq_nth by lia. reflexivity.
  Qed.

  Context (mix : T -> list T -> list T) (ds : list (Z * Z)).
  Hypothesis Hg : good ds.
  Hypothesis Hmix : forall x v, length v = length ds -> length (mix x v) = length ds.

  Lemma circulate_gen xs : forall ls col, pasts ds ls col ->
    exists ls' out, circulate p mix ls xs = Ok (ls', out) /\ length out = length xs
      /\ forall n, (n < length xs)%nat ->
           length (nth n out []) = length ds
           /\ forall i, (i < length ds)%nat ->
                nth i (nth n out []) zero
                = read_back zero (delay_of ds i) (col i ++ map (fed_to O mix i xs out) (seq 0 n)).
  Proof using Hs Hg Hmix.
    induction xs as [|x xs IH]; intros ls col H.
    - exists ls, []. cbn. repeat split; lia.
    - cbn [circulate]. destruct (peek_ok ds Hg ls col H) as [vs [E1 [L1 N1]]]. rewrite E1. cbn [bind].
      destruct (feed_ok ds Hg ls col (mix x vs) H (Hmix x vs L1)) as [ls1 [E2 H2]]. rewrite E2. cbn [bind].
      destruct (IH ls1 _ H2) as [ls' [out [E [L Hn]]]]. rewrite E. cbn [bind].
      exists ls', (vs :: out). split; [reflexivity|]. split; [cbn; lia|].
      intros [|n] Ln; cbn [nth].
      + split; [exact L1|]. intros i Hi. cbn [seq map]. rewrite app_nil_r. apply N1, Hi.
      + cbn [length] in Ln. destruct (Hn n ltac:(lia)) as [A B]. split; [exact A|]. intros i Hi. rewrite (B i Hi).
        cbn [seq map]. rewrite <- seq_shift, map_map. rewrite <- app_assoc. reflexivity.
  Qed.

End Gen.

Lemma good_delay (sizes : list (Z * Z)) i : Forall (fun dm : Z * Z => (1 <= fst dm <= snd dm)%Z) sizes ->
  (i < length sizes)%nat -> (1 <= delay_of sizes i)%nat.
Proof.
  intros H Hi. unfold delay_of. rewrite Forall_forall in H. specialize (H _ (nth_In sizes (0, 0)%Z Hi)). lia.
Qed.

Lemma sizes_good {T} (O : num_ops T) sizes : sizes_ok O sizes -> Forall (fun dm : Z * Z => (1 <= fst dm <= snd dm)%Z) sizes.
Proof. apply Forall_impl. tauto. Qed.

(** C116: a network on lines [Delay::new(d_i, m_i)], 1 <= d_i <= m_i, never panics, whatever the
    mixer; at every step it shows, for each line, what the mixer fed that line d_i steps ago
    (zero before the start).  This holds in every arithmetic. *)
Lemma C116_network_thm :
  forall (T : Type) (O : num_ops T) (p : profile) (mix : T -> list T -> list T) (sizes : list (Z * Z)) (xs : list T),
    (1 <= n_size_of O)%Z -> sizes_ok O sizes ->
    (forall x v, length v = length sizes -> length (mix x v) = length sizes) ->
    exists lines out, network O p mix sizes xs = Ok (lines, out) /\ length out = length xs
      /\ forall n, (n < length xs)%nat ->
           length (at_ [] out n) = length sizes
           /\ forall i, (i < length sizes)%nat ->
                at_ (n_zero O) (at_ [] out n) i
                = behind (n_zero O) (fed_to O mix i xs out) (delay_of sizes i) n.
Proof.
  intros T O p mix sizes xs Hs Hz Hmix. destruct (new_ok O p Hs sizes Hz) as [ls [E0 H0]].
  destruct (circulate_gen O p Hs mix sizes (sizes_good O sizes Hz) Hmix xs ls _ H0) as [ls' [out [E [L Hn]]]].
  exists ls', out. unfold network. rewrite E0. cbn [bind]. split; [exact E|]. split; [exact L|].
  intros n Ln. destruct (Hn n Ln) as [A B]. split; [exact A|]. intros i Hi. unfold at_ at 1 2. rewrite (B i Hi). cbn [app].
  apply read_seq. apply good_delay; [apply (sizes_good O), Hz|exact Hi].
Qed.

(*@PROP
(* four lines of different lengths, mixed by a Householder matrix *)
Example C116_network_hyps :
  sizes_ok R_ops [(149, 149); (211, 256); (263, 300); (293, 293)]%Z
  /\ forall g x v, length v = 4%nat -> length (householder g x v) = 4%nat.
Proof.
  split; [repeat (apply Forall_cons || apply Forall_nil); repeat split; easy|].
  intros g x v H. unfold householder. rewrite map_length. exact H.
Qed.
@*)

(** C116: an invariant of the mixer is an invariant of the network.  If zero satisfies [P] and
    the mixer, given an input sample satisfying [Q] and taps satisfying [P], only feeds samples
    satisfying [P], then everything the network ever shows satisfies [P].  In every arithmetic. *)
Lemma C116_invariant_thm :
  forall (T : Type) (O : num_ops T) (p : profile) (mix : T -> list T -> list T) (sizes : list (Z * Z)) (xs : list T)
         (P Q : T -> Prop),
    (1 <= n_size_of O)%Z -> sizes_ok O sizes ->
    (forall x v, length v = length sizes -> length (mix x v) = length sizes) ->
    P (n_zero O) ->
    (forall x v, Q x -> length v = length sizes -> Forall P v -> Forall P (mix x v)) ->
    Forall Q xs ->
    exists lines out, network O p mix sizes xs = Ok (lines, out) /\ length out = length xs /\ Forall (Forall P) out.
Proof.
  intros T O p mix sizes xs P Q Hs Hz Hmix P0 Hst HQ.
  destruct (C116_network_thm T O p mix sizes xs Hs Hz Hmix) as [ls [out [E [L Hn]]]].
  exists ls, out. split; [exact E|]. split; [exact L|].
  assert (A : forall n, (n < length xs)%nat -> Forall P (at_ [] out n)).
  { intros n. induction n as [n IH] using lt_wf_ind. intros Ln. destruct (Hn n Ln) as [A B].
    apply Forall_nth. intros i d Hi. rewrite A in Hi. rewrite (nth_indep _ d (n_zero O)) by lia.
    change (P (at_ (n_zero O) (at_ [] out n) i)). rewrite (B i Hi). unfold behind.
    destruct (Nat.leb_spec (delay_of sizes i) n) as [Q1|Q1]; [|exact P0].
    assert (D := good_delay sizes i (sizes_good O sizes Hz) Hi).
    unfold fed_to. set (k := (n - delay_of sizes i)%nat). assert (Hk : (k < n)%nat) by (unfold k; lia).
    assert (F : Forall P (mix (at_ (n_zero O) xs k) (at_ [] out k))).
    { apply Hst; [|apply (Hn k); lia|apply IH; lia].
      rewrite Forall_forall in HQ. apply HQ, nth_In. lia. }
    rewrite Forall_forall in F. apply F, nth_In. rewrite Hmix; [exact Hi|apply (Hn k); lia]. }
  apply Forall_nth. intros n d Ln. rewrite L in Ln. rewrite (nth_indep _ d []) by lia. apply A, Ln.
Qed.

(*@PROP
(* three lines, each fed the mean of the input and its own tap: everything stays in [0, 1] *)
Example C116_invariant_hyps :
  let mix := fun (x : R) (v : list R) => map (fun a => (x + a) / 2) v in
  let P := fun a => 0 <= a <= 1 in
  sizes_ok R_ops [(1, 1); (2, 2); (3, 3)]%Z /\ P 0 /\ (forall x v, P x -> Forall P v -> Forall P (mix x v)).
Proof.
  intros mix P. split; [repeat (apply Forall_cons || apply Forall_nil); repeat split; easy|].
  split; [unfold P; lra|]. intros x v Hx Hv. unfold mix, P in *.
  induction Hv as [|a v Ha Hv IH]; [constructor|]. constructor; [lra|exact IH].
Qed.
@*)

(** ** Energy *)
Lemma total_ext f h N : (forall i, (i < N)%nat -> f i = h i) -> total f N = total h N.
Proof. induction N as [|N IH]; intros H; [reflexivity|]. cbn [total]. rewrite IH, H by auto. reflexivity. Qed.
Lemma total_le f h N : (forall i, (i < N)%nat -> f i <= h i) -> total f N <= total h N.
Proof. induction N as [|N IH]; intros H; [apply Rle_refl|]. cbn [total]. assert (G := H N ltac:(lia)). specialize (IH ltac:(auto)). lra. Qed.
Lemma total_plus f h N : total (fun i => f i + h i) N = total f N + total h N.
Proof. induction N as [|N IH]; cbn [total]; lra. Qed.
Lemma total_minus f h N : total (fun i => f i - h i) N = total f N - total h N.
Proof. induction N as [|N IH]; cbn [total]; lra. Qed.
Lemma total_scal a f N : total (fun i => a * f i) N = a * total f N.
Proof. induction N as [|N IH]; cbn [total]; lra. Qed.
Lemma total_const a N : total (fun _ => a) N = INR N * a.
Proof. induction N as [|N IH]; [cbn; lra|]. cbn [total]. rewrite IH, S_INR. lra. Qed.
Lemma total_pos f N : (forall i, (i < N)%nat -> 0 <= f i) -> 0 <= total f N.
Proof. intros H. rewrite <- (Rmult_0_r (INR N)), <- (total_const 0 N). apply total_le, H. Qed.

Lemma recent_stored w d n : recent w d n = stored d w n.
Proof.
  unfold recent, stored. induction d as [|d IH]; cbn [total]; [rewrite Nat.sub_0_r; lra|]. rewrite IH.
  rewrite Nat.add_1_r. unfold behind. destruct (Nat.leb_spec (Datatypes.S d) n) as [L|L].
  - replace (n - d)%nat with (Datatypes.S (n - Datatypes.S d)) by lia. cbn [energy]. lra.
  - replace (n - d)%nat with (n - Datatypes.S d)%nat by lia. lra.
Qed.

Lemma recent_step w d n : recent w d (Datatypes.S n) = recent w d n + w n * w n - behind 0 w d n * behind 0 w d n.
Proof.
  rewrite !recent_stored. unfold stored, behind. cbn [energy]. destruct (Nat.leb_spec d n) as [L|L].
  - replace (Datatypes.S n - d)%nat with (Datatypes.S (n - d)) by lia. cbn [energy]. lra.
  - replace (Datatypes.S n - d)%nat with (n - d)%nat by lia. lra.
Qed.

Lemma recent_oldest w d n : (1 <= d)%nat -> behind 0 w d n * behind 0 w d n <= recent w d n.
Proof.
  intros H. destruct d as [|d]; [lia|]. unfold recent. cbn [total]. rewrite Nat.add_1_r.
  assert (0 <= total (fun k => behind 0 w (k + 1) n * behind 0 w (k + 1) n) d) by (apply total_pos; intros; apply Rle_0_sqr). lra.
Qed.

Lemma recent_shown w d D n : (d <= D)%nat ->
  recent w d n <= total (fun j => behind 0 w d (n + j) * behind 0 w d (n + j)) D.
Proof.
  intros H. rewrite recent_stored. unfold stored. rewrite <- energy_behind.
  assert (E : energy w n = energy (behind 0 w d) (n + d)) by (rewrite energy_behind; f_equal; lia). rewrite E.
  assert (G : forall j, energy (behind 0 w d) (n + j) - energy (behind 0 w d) n
              = total (fun j => behind 0 w d (n + j) * behind 0 w d (n + j)) j).
  { induction j as [|j IH]; [rewrite Nat.add_0_r; cbn; lra|]. rewrite Nat.add_succ_r. cbn [energy total]. lra. }
  rewrite G. clear - H. induction H as [|D H IH]; [lra|]. cbn [total].
  assert (P := Rle_0_sqr (behind 0 w d (n + D))). unfold Rsqr in P. lra.
Qed.

Section Energy.
  Context (mix : R -> list R -> list R) (sizes : list (Z * Z)) (xs : list R) (out : list (list R)).
  Hypothesis Hg : Forall (fun dm : Z * Z => (1 <= fst dm <= snd dm)%Z) sizes.
  Hypothesis Hmix : forall x v, length v = length sizes -> length (mix x v) = length sizes.
  Hypothesis Hn : forall n, (n < length xs)%nat ->
           length (at_ [] out n) = length sizes
           /\ forall i, (i < length sizes)%nat ->
                at_ 0 (at_ [] out n) i = behind 0 (fed_to R_ops mix i xs out) (delay_of sizes i) n.
  Notation N := (length sizes).
  Notation w := (fun i => fed_to R_ops mix i xs out).
  Notation E := (in_flight sizes w).

  Lemma power_taps n : (n < length xs)%nat ->
    power (at_ [] out n) = total (fun i => behind 0 (w i) (delay_of sizes i) n * behind 0 (w i) (delay_of sizes i) n) N.
  Proof using Hn.
    intros Ln. destruct (Hn n Ln) as [A B]. unfold power. rewrite A. apply total_ext. intros i Hi.
    specialize (B i Hi). unfold at_ at 1 in B. rewrite B. reflexivity.
  Qed.

  Lemma power_fed n : (n < length xs)%nat ->
    power (mix (at_ 0 xs n) (at_ [] out n)) = total (fun i => w i n * w i n) N.
  Proof using Hn Hmix.
    intros Ln. unfold power. rewrite Hmix by apply (Hn n Ln). reflexivity.
  Qed.

  Lemma flight_step n : (n < length xs)%nat ->
    E (Datatypes.S n) = E n + power (mix (at_ 0 xs n) (at_ [] out n)) - power (at_ [] out n).
  Proof using Hn Hmix.
    intros Ln. rewrite power_taps, power_fed by exact Ln. unfold in_flight. rewrite <- total_plus, <- total_minus.
    apply total_ext. intros i Hi. apply recent_step.
  Qed.

  Lemma flight_shown n : (n < length xs)%nat -> power (at_ [] out n) <= E n.
  Proof using Hn Hg.
    intros Ln. rewrite power_taps by exact Ln. unfold in_flight. apply total_le. intros i Hi. apply recent_oldest.
    apply good_delay; assumption.
  Qed.

  Lemma flight_pos n : 0 <= E n.
  Proof. apply total_pos. intros i _. rewrite recent_stored. apply stored_pos. Qed.

  Lemma total_swap (f : nat -> nat -> R) a b : total (fun i => total (fun j => f i j) b) a = total (fun j => total (fun i => f i j) a) b.
  Proof.
    induction a as [|a IH]; cbn [total].
    - rewrite total_const. ring.
    - rewrite IH, total_plus. reflexivity.
  Qed.

  Context (g : R) (n0 : nat).
  Hypothesis Hgain : 0 <= g <= 1.
  Hypothesis Hquiet : forall n, (n0 <= n)%nat -> (n < length xs)%nat ->
    power (mix (at_ 0 xs n) (at_ [] out n)) <= g * g * power (at_ [] out n).

  Lemma power_nonneg v : 0 <= power v.
  Proof. apply total_pos. intros. apply Rle_0_sqr. Qed.

  Lemma flight_round D n : (forall i, (i < N)%nat -> (delay_of sizes i <= D)%nat) -> (n0 <= n)%nat -> (n + D <= length xs)%nat ->
    E (n + D) <= g * g * E n.
  Proof using Hn Hmix Hgain Hquiet.
    intros HD H0 HL.
    assert (G : forall j, (j <= D)%nat -> E (n + j) <= E n - (1 - g * g) * total (fun j => power (at_ [] out (n + j))) j).
    { induction j as [|j IH]; intros Hj; [rewrite Nat.add_0_r; cbn; lra|]. rewrite Nat.add_succ_r, flight_step by lia. cbn [total].
      specialize (IH ltac:(lia)). assert (Q := Hquiet (n + j)%nat ltac:(lia) ltac:(lia)). lra. }
    specialize (G D (Nat.le_refl _)).
    assert (S : E n <= total (fun j => power (at_ [] out (n + j))) D).
    { rewrite (total_ext _ (fun j => total (fun i => behind 0 (w i) (delay_of sizes i) (n + j) * behind 0 (w i) (delay_of sizes i) (n + j)) N))
        by (intros j Hj; apply power_taps; lia).
      rewrite <- total_swap. unfold in_flight. apply total_le. intros i Hi. apply recent_shown, HD, Hi. }
    assert (g * g <= 1) by (rewrite <- (Rmult_1_r 1); apply Rmult_le_compat; lra).
    assert ((1 - g * g) * E n <= (1 - g * g) * total (fun j => power (at_ [] out (n + j))) D) by (apply Rmult_le_compat_l; lra).
    lra.
  Qed.

  Lemma flight_falls n j : (n0 <= n)%nat -> (n + j <= length xs)%nat -> E (n + j) <= E n.
  Proof using Hn Hmix Hgain Hquiet.
    intros H0. induction j as [|j IH]; intros HL; [rewrite Nat.add_0_r; lra|]. rewrite Nat.add_succ_r, flight_step by lia.
    specialize (IH ltac:(lia)). assert (Q := Hquiet (n + j)%nat ltac:(lia) ltac:(lia)).
    assert (P := power_nonneg (at_ [] out (n + j))).
    assert (g * g <= 1) by (rewrite <- (Rmult_1_r 1); apply Rmult_le_compat; lra).
    assert (g * g * power (at_ [] out (n + j)) <= 1 * power (at_ [] out (n + j))) by (apply Rmult_le_compat_r; lra). lra.
  Qed.

  Lemma flight_rounds D k : (forall i, (i < N)%nat -> (delay_of sizes i <= D)%nat) -> (n0 + k * D <= length xs)%nat ->
    E (n0 + k * D) <= g ^ (2 * k) * E n0.
  Proof using Hn Hmix Hgain Hquiet.
    intros HD. induction k as [|k IH]; intros HL; [cbn [Nat.mul]; rewrite Nat.add_0_r; cbn; lra|].
    replace (n0 + Datatypes.S k * D)%nat with (n0 + k * D + D)%nat in * by (cbn; lia).
    eapply Rle_trans; [apply flight_round; auto; lia|]. specialize (IH ltac:(lia)).
    replace (2 * Datatypes.S k)%nat with (Datatypes.S (Datatypes.S (2 * k))) by lia. cbn [pow].
    replace (g * (g * g ^ (2 * k)) * E n0) with (g * g * (g ^ (2 * k) * E n0)) by ring.
    apply Rmult_le_compat_l; [apply Rle_0_sqr|exact IH].
  Qed.
End Energy.

Lemma quiet_input (us : list R) K n : (length us <= n)%nat -> at_ 0 (us ++ repeat 0 K) n = 0.
Proof.
  intros H. unfold at_. rewrite app_nth2 by exact H. destruct (Nat.lt_ge_cases (n - length us) K) as [L|L].
  - apply nth_repeat.
  - apply nth_overflow. rewrite repeat_length. exact L.
Qed.

(** C116, exact arithmetic: a lossless mixer makes a lossless network.  If the mixer keeps the
    sum of squares of its taps when there is no input, then once the input [us] has ended the
    energy in flight never changes again, and bounds what is shown at every later step. *)
Lemma C116_lossless_thm :
  forall (p : profile) (mix : R -> list R -> list R) (sizes : list (Z * Z)) (us : list R) (K : nat),
    sizes_ok R_ops sizes ->
    (forall x v, length v = length sizes -> length (mix x v) = length sizes) ->
    (forall v, length v = length sizes -> power (mix 0 v) = power v) ->
    let xs := us ++ repeat 0 K in
    exists lines out, network R_ops p mix sizes xs = Ok (lines, out)
      /\ let energy := in_flight sizes (fun i => fed_to R_ops mix i xs out) in
         forall n, (length us <= n <= length xs)%nat ->
           energy n = energy (length us)
           /\ ((n < length xs)%nat -> power (at_ [] out n) <= energy (length us)).
Proof.
  intros p mix sizes us K Hz Hmix Hpow xs.
  destruct (C116_network_thm R R_ops p mix sizes xs ltac:(easy) Hz Hmix) as [ls [out [E [L Hn]]]].
  exists ls, out. split; [exact E|]. intros energy.
  assert (Hg := sizes_good R_ops sizes Hz).
  assert (G : forall j, (length us + j <= length xs)%nat -> energy (length us + j)%nat = energy (length us)).
  { induction j as [|j IH]; intros Hj; [rewrite Nat.add_0_r; reflexivity|]. rewrite Nat.add_succ_r. unfold energy.
    rewrite (flight_step mix sizes xs out Hmix Hn) by lia. fold energy. rewrite IH by lia.
    unfold xs. rewrite quiet_input by lia. rewrite Hpow by (apply Hn; lia). lra. }
  intros n [H1 H2]. assert (Gn := G (n - length us)%nat). replace (length us + (n - length us))%nat with n in Gn by lia.
  specialize (Gn H2). split; [exact Gn|]. intros Ln. rewrite <- Gn. apply (flight_shown mix sizes xs out Hg Hn n Ln).
Qed.

(*@PROP
(* a rotation, on two lines *)
Example C116_lossless_hyps :
  let mix := fun (x : R) v => match v with [a; b] => [x + (3 * a - 4 * b) / 5; (4 * a + 3 * b) / 5] | _ => v end in
  (forall x v, length v = 2%nat -> length (mix x v) = 2%nat) /\ (forall v, length v = 2%nat -> power (mix 0 v) = power v).
Proof.
  intros mix. split; intros.
  - destruct v as [|a [|b [|c v]]]; try discriminate; reflexivity.
  - destruct v as [|a [|b [|c v]]]; try discriminate. unfold power. cbn. field.
Qed.
@*)

(** C116, exact arithmetic: a contractive mixer makes a decaying network.  If the mixer
    multiplies the sum of squares of its taps by at most g^2, g <= 1, when there is no input,
    then after the input has ended everything shown in round [k] and later, a round being as
    long as the longest delay [D], is at most g^(2k) times the energy then in flight. *)
Lemma C116_decays_thm :
  forall (p : profile) (mix : R -> list R -> list R) (sizes : list (Z * Z)) (us : list R) (K D : nat) (g : R),
    sizes_ok R_ops sizes ->
    (forall i, (i < length sizes)%nat -> (delay_of sizes i <= D)%nat) ->
    (forall x v, length v = length sizes -> length (mix x v) = length sizes) ->
    0 <= g <= 1 -> (forall v, length v = length sizes -> power (mix 0 v) <= g * g * power v) ->
    let xs := us ++ repeat 0 K in
    exists lines out, network R_ops p mix sizes xs = Ok (lines, out)
      /\ let energy := in_flight sizes (fun i => fed_to R_ops mix i xs out) in
         forall k n, (length us + k * D <= n)%nat -> (n < length xs)%nat ->
           power (at_ [] out n) <= g ^ (2 * k) * energy (length us).
Proof.
  intros p mix sizes us K D g Hz HD Hmix Hg1 Hpow xs.
  destruct (C116_network_thm R R_ops p mix sizes xs ltac:(easy) Hz Hmix) as [ls [out [E [L Hn]]]].
  exists ls, out. split; [exact E|]. intros energy k n H1 H2.
  assert (Hg := sizes_good R_ops sizes Hz).
  assert (Q : forall n, (length us <= n)%nat -> (n < length xs)%nat ->
     power (mix (at_ 0 xs n) (at_ [] out n)) <= g * g * power (at_ [] out n)).
  { intros i Hi Li. unfold xs. rewrite quiet_input by lia. apply Hpow, Hn, Li. }
  eapply Rle_trans; [apply (flight_shown mix sizes xs out Hg Hn n H2)|].
  replace n with (length us + k * D + (n - (length us + k * D)))%nat by lia.
  eapply Rle_trans; [apply (flight_falls mix sizes xs out Hmix Hn g (length us) Hg1 Q); lia|].
  apply (flight_rounds mix sizes xs out Hmix Hn g (length us) Hg1 Q); [exact HD|lia].
Qed.

(*@PROP
(* the same rotation with a feedback of 1/2 *)
Example C116_decays_hyps :
  let mix := fun (x : R) v => match v with [a; b] => [x + (3 * a - 4 * b) / 10; (4 * a + 3 * b) / 10] | _ => v end in
  (forall v, length v = 2%nat -> power (mix 0 v) <= / 2 * / 2 * power v)
  /\ forall i, (i < 2)%nat -> (delay_of [(3, 3); (5, 5)]%Z i <= 5)%nat.
Proof.
  intros mix. split; intros.
  - destruct v as [|a [|b [|c v]]]; try discriminate. unfold power. cbn. right. field.
  - destruct i as [|[|i]]; cbn; lia.
Qed.
@*)

(** ** The Householder mixer *)
Lemma nth_map_R (f : R -> R) v i : (i < length v)%nat -> nth i (map f v) 0 = f (nth i v 0).
Proof. intros H. rewrite (nth_indep _ 0 (f 0)) by (rewrite map_length; exact H). apply map_nth. Qed.

Lemma householder_power g v : power (householder g 0 v) = g * g * power v.
Proof.
  destruct v as [|a0 v0]; [unfold power; cbn; ring|]. set (v := a0 :: v0).
  assert (NZ : INR (length v) <> 0) by (apply not_0_INR; cbn; lia). clearbody v.
  unfold power, householder. rewrite map_length. set (S := total (fun i => nth i v 0) (length v)).
  set (c := 2 / INR (length v) * S).
  rewrite (total_ext _ (fun i => g * g * (nth i v 0 * nth i v 0) + (g * g) * ((- 2 * c) * nth i v 0 + c * c))).
  2:{ intros i Hi. rewrite nth_map_R by exact Hi. ring. }
  rewrite total_plus, !total_scal, total_plus, total_scal, total_const. fold S.
  assert (C : c * INR (length v) = 2 * S) by (unfold c; field; exact NZ).
  replace (- 2 * c * S + INR (length v) * (c * c)) with (c * (c * INR (length v) - 2 * S)) by ring. rewrite C. ring.
Qed.

(** C116: the Householder reverberator.  With any number of lines and a feedback g in [0, 1] its
    tail decays by g per round of the longest delay, and at g = 1 it rings for ever: the energy
    in flight never changes. *)
Lemma C116_householder_thm :
  forall (p : profile) (sizes : list (Z * Z)) (us : list R) (K D : nat) (g : R),
    sizes_ok R_ops sizes ->
    (forall i, (i < length sizes)%nat -> (delay_of sizes i <= D)%nat) ->
    0 <= g <= 1 ->
    let xs := us ++ repeat 0 K in
    exists lines out, network R_ops p (householder g) sizes xs = Ok (lines, out)
      /\ let energy := in_flight sizes (fun i => fed_to R_ops (householder g) i xs out) in
         (forall k n, (length us + k * D <= n)%nat -> (n < length xs)%nat ->
            power (at_ [] out n) <= g ^ (2 * k) * energy (length us))
         /\ (g = 1 -> forall n, (length us <= n <= length xs)%nat -> energy n = energy (length us)).
Proof.
  intros p sizes us K D g Hz HD Hg xs.
  assert (HL : forall (x : R) v, length v = length sizes -> length (householder g x v) = length sizes)
    by (intros x v H; unfold householder; rewrite map_length; exact H).
  destruct (C116_decays_thm p (householder g) sizes us K D g Hz HD HL Hg) as [ls [out [E A]]].
  { intros v _. rewrite householder_power. lra. }
  exists ls, out. split; [exact E|]. intros energy. split; [exact A|]. intros E1.
  destruct (C116_lossless_thm p (householder g) sizes us K Hz HL) as [ls' [out' [E' B]]].
  { intros v _. rewrite householder_power, E1. ring. }
  fold xs in E, E'. rewrite E in E'. injection E' as <- <-. intros n Hn. apply (B n Hn).
Qed.

(*@PROP
Example C116_householder_hyps :
  sizes_ok R_ops [(149, 149); (211, 256); (263, 300); (293, 293)]%Z
  /\ (forall i, (i < 4)%nat -> (delay_of [(149, 149); (211, 256); (263, 300); (293, 293)]%Z i <= 293)%nat).
Proof.
  split; [repeat (apply Forall_cons || apply Forall_nil); repeat split; easy|].
  intros i Hi. destruct i as [|[|[|[|i]]]]; try lia; unfold delay_of; cbn [nth fst]; lia.
Qed.
@*)

(** ** Ping-pong *)
Lemma ping_pong_length {T} (O : num_ops T) g x v : length v = 2%nat -> length (ping_pong O g x v) = 2%nat.
Proof. intros H. destruct v as [|a [|b [|c v]]]; try discriminate; reflexivity. Qed.

(** C116: the ping-pong delay, exact arithmetic.  On two lines of the same delay [d] the sum of
    the two sides is a feedback comb with gain [g], and their difference one with gain [-g]. *)
Lemma C116_ping_pong_thm :
  forall (p : profile) (g : R) (d m : Z) (xs : list R),
    sizes_ok R_ops [(d, m)] ->
    exists lines out, network R_ops p (ping_pong R_ops g) [(d, m); (d, m)] xs = Ok (lines, out) /\ length out = length xs
      /\ let left := fun n => at_ 0 (at_ [] out n) 0 in
         let right := fun n => at_ 0 (at_ [] out n) 1 in
         forall n, (n < length xs)%nat ->
           left n + right n = behind 0 (fun k => at_ 0 xs k + g * (left k + right k)) (Z.to_nat d) n
           /\ left n - right n = behind 0 (fun k => at_ 0 xs k + - g * (left k - right k)) (Z.to_nat d) n.
Proof.
  intros p g d m xs Hz.
  assert (Hz2 : sizes_ok R_ops [(d, m); (d, m)]) by (constructor; [exact (Forall_inv Hz)|exact Hz]).
  destruct (C116_network_thm R R_ops p (ping_pong R_ops g) [(d, m); (d, m)] xs ltac:(easy) Hz2) as [ls [out [E [L Hn]]]].
  { intros x v. apply ping_pong_length. }
  exists ls, out. split; [exact E|]. split; [exact L|]. intros left right n Ln.
  destruct (Hn n Ln) as [_ B]. assert (B0 := B 0%nat ltac:(cbn; lia)). assert (B1 := B 1%nat ltac:(cbn; lia)).
  change (at_ (n_zero R_ops) (at_ [] out n) 0 = behind 0 (fed_to R_ops (ping_pong R_ops g) 0 xs out) (Z.to_nat d) n) in B0.
  change (at_ (n_zero R_ops) (at_ [] out n) 1 = behind 0 (fed_to R_ops (ping_pong R_ops g) 1 xs out) (Z.to_nat d) n) in B1.
  change (n_zero R_ops) with 0 in *. fold (left n) in B0. fold (right n) in B1. rewrite B0, B1.
  unfold behind. destruct (Nat.leb_spec (Z.to_nat d) n) as [Q|Q]; [|split; lra].
  set (k := (n - Z.to_nat d)%nat). assert (Lk : (k < length xs)%nat) by (unfold k; lia).
  destruct (Hn k Lk) as [A _]. unfold fed_to, left, right. change (n_zero R_ops) with 0.
  destruct (at_ [] out k) as [|a [|b [|c v]]]; try discriminate. cbn [ping_pong nth].
  change (at_ 0 [a; b] 0) with a. change (at_ 0 [a; b] 1) with b.
  unfold feedback. cbn [n_add n_mul R_ops]. split; ring.
Qed.

(*@PROP
Example C116_ping_pong_hyps : sizes_ok R_ops [(22050, 44100)]%Z.
Proof. repeat (apply Forall_cons || apply Forall_nil); repeat split; easy. Qed.
@*)

(** One product, within a number [G] of the type. *)
Lemma scaled_ok prec emax {Hp : Prec_gt_0 prec} {Hm : Prec_lt_emax prec emax} (g a : binary_float prec emax) G B :
  is_finite g = true -> is_finite a = true ->
  round radix2 (SpecFloat.fexp prec emax) (round_mode mode_NE) G = G -> G < bpow radix2 emax ->
  Rabs (B2R g) * B <= G -> Rabs (B2R a) <= B -> G <= B ->
  is_finite (f_mul prec emax g a) = true /\ Rabs (B2R (f_mul prec emax g a)) <= B.
Proof.
  intros Fg Fa RG MG HG Ha HB.
  assert (FG : generic_format radix2 (SpecFloat.fexp prec emax) G).
  { rewrite <- RG. apply generic_format_round; [apply fexp_correct; exact Hp|typeclasses eauto]. }
  assert (Q : Rabs (B2R g * B2R a) <= G).
  { rewrite Rabs_mult. eapply Rle_trans; [|exact HG]. apply Rmult_le_compat_l; [apply Rabs_pos|exact Ha]. }
  destruct (mul_ok prec emax g a G Fg Fa FG MG Q) as [M1 M2]. split; [exact M1|]. rewrite M2.
  eapply Rle_trans; [apply (RN_abs_le prec emax); [exact FG|exact Q]|exact HB].
Qed.

(** C116: the ping-pong delay in [f32] and [f64], on any two delays, stays finite and within [B]
    for ever, if numbers [G] and [B] of the type leave room: |g| B <= G and X + G <= B. *)
Lemma C116_ping_pong_float_thm :
  forall (T : Type) (O : num_ops T) (V : float_view T) (p : profile) (g : T) (left right : Z * Z) (xs : list T) (X G B : R),
    ieee O V -> sizes_ok O [left; right] ->
    fin V g = true -> rnd V G = G -> rnd V B = B -> 0 <= X -> 0 <= B <= fmax V ->
    Rabs (val V g) * B <= G -> X + G <= B ->
    Forall (fun x => fin V x = true /\ Rabs (val V x) <= X) xs ->
    exists lines out, network O p (ping_pong O g) [left; right] xs = Ok (lines, out) /\ length out = length xs
      /\ Forall (Forall (fun y => fin V y = true /\ Rabs (val V y) <= B)) out.
Proof.
  intros T O V p g left right xs X G B HO Hz Fg RG RB X0 [B0 MB] HG HX HI.
  assert (Hs : (1 <= n_size_of O)%Z) by (destruct HO; cbn; lia).
  apply (C116_invariant_thm T O p (ping_pong O g) [left; right] xs (fun y => fin V y = true /\ Rabs (val V y) <= B)
           (fun x => fin V x = true /\ Rabs (val V x) <= X) Hs Hz); [intros x v; apply ping_pong_length| | |exact HI].
  { destruct HO; cbn; rewrite Rabs_R0; split; reflexivity || exact B0. }
  intros x v [Fx Bx] Lv Hv. destruct v as [|a [|b [|c v]]]; try discriminate.
  destruct (Forall_inv Hv) as [Fa Ba]. destruct (Forall_inv (Forall_inv_tail Hv)) as [Fb Bb]. cbn [ping_pong].
  constructor; [|constructor; [|constructor]].
  - apply (feedback_ok T O V g x b X G B); assumption.
  - destruct HO as [lm n|lm n]; cbn [fin val rnd fmax ieee_view] in *; cbn [n_mul f32_ops f64_ops].
    + apply (scaled_ok 24 128 g a G B); try assumption; [assert (M := SmoothF.MAX_lt 24 128); lra|lra].
    + apply (scaled_ok 53 1024 g a G B); try assumption; [assert (M := SmoothF.MAX_lt 53 1024); lra|lra].
Qed.

(*@PROP
Example C116_ping_pong_float_hyps :
  let g := fl32 1 (-1) in let V := ieee_view 24 128 in
  ieee O32 V /\ fin V g = true /\ rnd V 1 = 1 /\ rnd V 2 = 2 /\ 2 <= fmax V
  /\ Rabs (val V g) * 2 <= 1 /\ 1 + 1 <= 2 /\ sizes_ok O32 [(3, 5); (4, 4)]%Z.
Proof.
  intros g V. unfold g, V. split; [constructor|]. split; [reflexivity|].
  split; [apply (rnd_bpow 24 128 0); easy|]. split; [apply (rnd_bpow 24 128 1); easy|].
  split. { cbn. lra. }
  split. { unfold fl32. cbn. unfold F2R. cbn. rewrite Rabs_pos_eq; lra. }
  split; [lra|]. repeat (apply Forall_cons || apply Forall_nil); repeat split; easy.
Qed.
@*)
