(** Lemmas behind property C106.  The [@PROP] blocks are copied into [PropEcho.v]. *)
(*@PROP
(** Property C106: feedback echoes built from the delay lines.

    Vocabulary: [EchoSpec] ([echo], [delay_echo], [tap_echo], [lin_echo], [feedback]);
    [behind zero y k n] is the sample [k] before number [n], [zero] before the start
    ([LinRun]); [fits O m]: a buffer for [m] samples of delay can be allocated. *)
From Coq Require Import ZArith Reals List Bool Lia Lra.
From Flocq Require Import Core.Core IEEE754.BinarySingleNaN.
From Verif Require Import Base Num NumR NumF FloatSpec Witness DelayM LinDelayM DelaySpec DelayRun LinRun EchoSpec EchoLemmas.
Import ListNotations.
Open Scope R_scope.
@*)
From Coq Require Import ZArith Reals List Bool Lia Lra Arith.
From Flocq Require Import Core.Core IEEE754.BinarySingleNaN.
From Verif Require Import Base BaseLemmas Num NumR NumF FloatSpec FloatFacts AnaFacts DelayM LinDelayM DelaySpec DelayRun DelayProofs DelayFacts
  DelayLemmas LinSpec LinFloatSpec LinRun LinProofs LinCtlR LinFacts LinLemmas LinLemmas2 LinLemmas3 Witness EchoSpec.
Import ListNotations.
Open Scope R_scope.

(** ** The loop in general *)
Section Loop.
  Context {S T : Type} (zero : T) (peek : S -> outcome (S * T)) (process : S -> T -> outcome (S * T)) (mix : T -> T -> T).
  Context (past : S -> list T -> Prop) (read : list T -> T).
  Hypothesis step : forall s ys, past s ys ->
    exists s1, peek s = Ok (s1, read ys)
      /\ forall y, exists s2 o, process s1 y = Ok (s2, o) /\ past s2 (ys ++ [y]).

  Lemma echo_gen xs : forall s ys0, past s ys0 ->
    exists s' ys, echo peek process mix s xs = Ok (s', ys) /\ length ys = length xs
      /\ forall n, (n < length xs)%nat -> nth n ys zero = mix (nth n xs zero) (read (ys0 ++ firstn n ys)).
  Proof.
    induction xs as [|x xs IH]; intros s ys0 H.
    - exists s, []. cbn. repeat split; auto. intros n Hn. lia.
    - cbn [echo]. destruct (step s ys0 H) as [s1 [E1 H1]]. rewrite E1. cbn [bind].
      destruct (H1 (mix x (read ys0))) as [s2 [o [E2 H2]]]. rewrite E2. cbn [bind].
      destruct (IH s2 _ H2) as [s' [ys [E [HL Hn]]]]. rewrite E. cbn [bind].
      exists s', (mix x (read ys0) :: ys). split; [reflexivity|]. split; [cbn; lia|].
      intros [|n] L; cbn [nth firstn].
      + rewrite app_nil_r. reflexivity.
      + cbn [length] in L. rewrite Hn by lia. do 2 f_equal. rewrite <- app_assoc. reflexivity.
  Qed.
End Loop.

(** ** [Delay] *)
Definition read_back {T} (zero : T) (k : nat) (ys : list T) : T :=
  if (k <=? length ys)%nat then nth (length ys - k) ys zero else zero.

Lemma read_behind {T} (zero : T) k ys n : (1 <= k)%nat -> (n <= length ys)%nat ->
  read_back zero k (firstn n ys) = behind zero (at_ zero ys) k n.
Proof.
  intros Hk Hn. unfold read_back, behind, at_. rewrite firstn_length_le by exact Hn.
  destruct (Nat.leb_spec k n) as [L|L]; [|reflexivity].
  rewrite <- (firstn_skipn n ys) at 2. rewrite app_nth1; [reflexivity|]. rewrite firstn_length. lia.
Qed.

Section D.
  Context {T : Type} (O : num_ops T) (p : profile) (Hs : (1 <= n_size_of O)%Z) (d m : Z) (Hd : (1 <= d <= m)%Z).
  Notation zero := (n_zero O).

  Definition past_dl (s : delay T) (ys : list T) : Prop :=
    dl_inv O s /\ dl_lag s = d /\ vlen (dl_memory s) = (m + 1)%Z
    /\ l_hist (dl_abs s) = firstn (Z.to_nat (m + 1)) (rev ys ++ repeat zero (Z.to_nat (m + 1))).

  Lemma hist_read s ys : past_dl s ys -> nth (Z.to_nat (d - 1)) (l_hist (dl_abs s)) zero = read_back zero (Z.to_nat d) ys.
  Proof.
    intros [_ [_ [_ H]]]. rewrite H.
    assert (G : forall k n (l : list T), (k < n)%nat -> nth k (firstn n l) zero = nth k l zero).
    { clear. intros k n l Hk. revert k Hk l. induction n as [|n IH]; intros k Hk l; [lia|].
      destruct l as [|a l]; [destruct k; reflexivity|]. cbn [firstn]. destruct k; [reflexivity|]. cbn. apply IH. lia. }
    rewrite G by lia. unfold read_back. destruct (Nat.leb_spec (Z.to_nat d) (length ys)) as [L|L].
    - rewrite app_nth1 by (rewrite rev_length; lia). rewrite rev_nth by lia. f_equal. lia.
    - rewrite app_nth2 by (rewrite rev_length; lia).
      destruct (Nat.lt_ge_cases (Z.to_nat (d - 1) - length (rev ys)) (Z.to_nat (m + 1))) as [Q|Q].
      + apply nth_repeat.
      + apply nth_overflow. rewrite repeat_length. exact Q.
  Qed.

  Lemma past_process s ys y : past_dl s ys ->
    exists s2 o, delay_process p s y = Ok (s2, o) /\ past_dl s2 (ys ++ [y]).
  Proof.
    intros [Hi [HL [HV HH]]]. destruct (process_run O p Hs s [y] Hi) as [s2 [E [Hi2 [Hh [Hl [_ _]]]]]].
    cbn [map dl_run dl_step] in E. apply bind_Ok in E. destruct E as [[s3 o] [E1 E]].
    apply bind_Ok in E1. destruct E1 as [[s4 o4] [E4 E1]]. inversion E1; subst; clear E1.
    cbn [bind] in E. inversion E; subst; clear E.
    exists s2, o4. split; [exact E4|]. split; [exact Hi2|]. split; [congruence|].
    assert (HN : length (dl_memory s) = Z.to_nat (m + 1)) by (unfold vlen in HV; lia).
    assert (HX : l_hist (dl_abs s2) = firstn (Z.to_nat (m + 1)) (rev (ys ++ [y]) ++ repeat zero (Z.to_nat (m + 1)))).
    { rewrite Hh, HN, HH, rev_app_distr. cbn [rev app].
      replace (Z.to_nat (m + 1)) with (Datatypes.S (Z.to_nat m)) by lia. rewrite !firstn_cons. f_equal.
      rewrite firstn_firstn. f_equal. lia. }
    split; [|exact HX].
    transitivity (Z.of_nat (length (l_hist (dl_abs s2)))); [unfold vlen; now rewrite hist_len|].
    rewrite HX, firstn_length, app_length, rev_length, repeat_length. lia.
  Qed.

  Lemma past_new : is_usize m -> fits O m -> exists s, delay_new O p d m = Ok s /\ past_dl s [].
  Proof.
    intros Hm Hf. assert (Hdu : is_usize d) by (unfold is_usize in *; lia).
    apply fits_iff in Hf; [|assumption].
    destruct (refine_new O p Hs d m) as [s0 [E0 [Hi Hab]]]; [assumption|unfold is_usize in *; lia|assumption|].
    assert (Hne : m <> usize_max).
    { pose proof (max_slots_lt O Hs). unfold usize_max, two63, two64 in *. lia. }
    destruct (new_sane O p Hs d m s0 Hdu Hm Hne E0) as [_ [HL [_ [HV HD]]]].
    exists s0. split; [exact E0|]. split; [exact Hi|]. split; [rewrite HL, HD; lia|]. split; [exact HV|].
    rewrite Hab. cbn [line_new l_hist rev app].
    replace (Z.to_nat (m + 1)) with (Datatypes.S (Z.to_nat m)) by lia.
    rewrite <- (repeat_length zero (Datatypes.S (Z.to_nat m))) at 2. now rewrite firstn_all.
  Qed.
End D.

(*@PROP
(** C106: an echo made with [Delay::new(d, m)], 1 <= d <= m, and any mixing function never
    panics, and each of its samples is the mixture of the input sample and the output sample
    [d] earlier: exactly, in every arithmetic.  Peeking with [tap_out(d - 1)] instead of
    [next_out()] gives the same output. *)
@*)
Lemma C106_delay_echo_thm :
  forall (T : Type) (O : num_ops T) (p : profile) (mix : T -> T -> T) (d m : Z) (xs : list T),
    (1 <= n_size_of O)%Z -> (1 <= d <= m)%Z -> is_usize m -> fits O m ->
    exists s s' ys, delay_echo O p mix d m xs = Ok (s, ys) /\ tap_echo O p mix d m xs = Ok (s', ys)
      /\ length ys = length xs
      /\ forall n, (n < length xs)%nat ->
           at_ (n_zero O) ys n = mix (at_ (n_zero O) xs n) (behind (n_zero O) (at_ (n_zero O) ys) (Z.to_nat d) n).
Proof.
  intros T O p mix d m xs Hs Hd Hm Hf. destruct (past_new O p Hs d m Hd Hm Hf) as [s0 [E0 H0]].
  assert (R : forall s ys, past_dl O d m s ys -> delay_next_out s = Ok (read_back (n_zero O) (Z.to_nat d) ys)
                /\ delay_tap_out p s (d - 1) = Ok (read_back (n_zero O) (Z.to_nat d) ys)).
  { intros s ys H. assert (G := hist_read O d m Hd s ys H). destruct H as [Hi [HL [HV HH]]]. split.
    - rewrite (refine_next O s Hi). f_equal. rewrite <- G. unfold line_next.
      change (l_lag (dl_abs s)) with (Z.to_nat (dl_lag s)). rewrite HL.
      replace (Z.to_nat d) with (Datatypes.S (Z.to_nat (d - 1))) by lia. reflexivity.
    - rewrite (refine_tap_out O p Hs s _ Hi) by lia. f_equal. exact G. }
  destruct (echo_gen (n_zero O) (fun s => let* v := delay_next_out s in Ok (s, v)) (delay_process p) mix
              (past_dl O d m) (read_back (n_zero O) (Z.to_nat d))) with (xs := xs) (s := s0) (ys0 := @nil T)
    as [s1 [ys [E1 [L1 N1]]]]; [|exact H0|].
  { intros s ys H. exists s. rewrite (proj1 (R s ys H)). split; [reflexivity|]. intros y.
    apply (past_process O p Hs d m Hd), H. }
  destruct (echo_gen (n_zero O) (fun s => let* v := delay_tap_out p s (d - 1) in Ok (s, v)) (delay_process p) mix
              (past_dl O d m) (read_back (n_zero O) (Z.to_nat d))) with (xs := xs) (s := s0) (ys0 := @nil T)
    as [s2 [ys' [E2 [L2 N2]]]]; [|exact H0|].
  { intros s zs H. exists s. rewrite (proj2 (R s zs H)). split; [reflexivity|]. intros y.
    apply (past_process O p Hs d m Hd), H. }
  cbn [app] in N1, N2.
  assert (Y : ys' = ys).
  { apply nth_ext with (d := n_zero O) (d' := n_zero O); [congruence|]. rewrite L2. intros n.
    induction n as [n IH] using lt_wf_ind. intros Hn. rewrite N1, N2 by exact Hn. f_equal.
    rewrite !read_behind by lia. unfold behind, at_. destruct (Nat.leb_spec (Z.to_nat d) n); [|reflexivity].
    apply IH; lia. }
  subst ys'. exists s1, s2, ys. unfold delay_echo, tap_echo. rewrite E0. cbn [bind].
  split; [exact E1|]. split; [exact E2|]. split; [exact L1|].
  intros n Hn. unfold at_ at 1 2. rewrite (N1 n Hn), read_behind by lia. reflexivity.
Qed.

(*@PROP
Example C106_delay_echo_hyps :
  (1 <= n_size_of O64)%Z /\ (1 <= 2 <= 3)%Z /\ is_usize 3 /\ fits O64 3.
Proof. repeat split; easy. Qed.
@*)

(** ** Exact arithmetic *)
Lemma comb_bound (g X : R) (x y r : nat -> R) (N : nat) : Rabs g < 1 ->
  (forall n, (n < N)%nat -> Rabs (x n) <= X) ->
  (forall n, (n < N)%nat -> y n = x n + g * r n) ->
  (forall n B, (n < N)%nat -> 0 <= B -> (forall i, (i < n)%nat -> Rabs (y i) <= B) -> Rabs (r n) <= B) ->
  forall n, (n < N)%nat -> Rabs (y n) <= X / (1 - Rabs g).
Proof.
  intros Hg Hx Hy Hr n. assert (G := Rabs_pos g).
  induction n as [n IH] using lt_wf_ind. intros Hn.
  assert (X0 : 0 <= X) by (eapply Rle_trans; [apply Rabs_pos|apply (Hx n Hn)]).
  set (B := X / (1 - Rabs g)) in *.
  assert (EB : B * (1 - Rabs g) = X) by (unfold B; field; lra).
  assert (B0 : 0 <= B) by (unfold B; apply Rmult_le_pos; [exact X0|left; apply Rinv_0_lt_compat; lra]).
  rewrite (Hy n Hn). eapply Rle_trans; [apply Rabs_triang|]. rewrite Rabs_mult.
  assert (Rabs (r n) <= B) by (apply Hr; [exact Hn|exact B0|]; intros i Hi; apply IH; [exact Hi|lia]).
  assert (Hxn := Hx n Hn).
  assert (Rabs g * Rabs (r n) <= Rabs g * B) by (apply Rmult_le_compat_l; lra). lra.
Qed.

Lemma comb_sum (g : R) (x y : nat -> R) (D N : nat) : (1 <= D)%nat ->
  (forall n, (n < N)%nat -> y n = x n + g * behind 0 y D n) ->
  forall n, (n < N)%nat -> y n = sum_f_R0 (fun k => g ^ k * x (n - k * D)%nat) (n / D).
Proof.
  intros HD Hy n. induction n as [n IH] using lt_wf_ind. intros Hn. rewrite (Hy n Hn). unfold behind.
  destruct (Nat.leb_spec D n) as [L|L].
  - rewrite (IH (n - D)%nat) by lia.
    replace (n / D)%nat with (Datatypes.S ((n - D) / D)).
    2:{ replace n with ((n - D) + 1 * D)%nat at 2 by lia. rewrite Nat.div_add by lia. lia. }
    rewrite (decomp_sum _ (Datatypes.S ((n - D) / D))) by apply Nat.lt_0_succ. cbn [pow Nat.mul Init.Nat.pred]. rewrite Nat.sub_0_r, Rmult_1_l. f_equal.
    rewrite scal_sum. apply sum_eq. intros i _. rewrite Rmult_comm, Rmult_assoc. do 3 f_equal. lia.
  - rewrite Nat.div_small by exact L. cbn. rewrite Nat.sub_0_r. ring.
Qed.

(*@PROP
(** C106, exact arithmetic: the output of the feedback comb with delay [d] and gain [g] is the
    input plus its echoes, y[n] = sum of g^k x[n - k d]; with |g| < 1 an input within [X]
    stays within X / (1 - |g|). *)
@*)
Lemma C106_comb_thm :
  forall (p : profile) (g : R) (d m : Z) (xs : list R) (X : R),
    (1 <= d <= m)%Z -> is_usize m -> fits R_ops m ->
    exists s ys, delay_echo R_ops p (feedback R_ops g) d m xs = Ok (s, ys) /\ length ys = length xs
      /\ (forall n, (n < length xs)%nat ->
           at_ 0 ys n = sum_f_R0 (fun k => g ^ k * at_ 0 xs (n - k * Z.to_nat d)%nat) (n / Z.to_nat d))
      /\ (Rabs g < 1 -> (forall n, Rabs (at_ 0 xs n) <= X) ->
          forall n, (n < length xs)%nat -> Rabs (at_ 0 ys n) <= X / (1 - Rabs g)).
Proof.
  intros p g d m xs X Hd Hm Hf.
  destruct (C106_delay_echo_thm R R_ops p (feedback R_ops g) d m xs) as [s [s' [ys [E [_ [L N]]]]]]; try assumption.
  { cbn. lia. }
  exists s, ys. split; [exact E|]. split; [exact L|]. change (n_zero R_ops) with 0 in N. split.
  - apply (comb_sum g (at_ 0 xs) (at_ 0 ys) (Z.to_nat d) (length xs)); [lia|exact N].
  - intros Hg HX. apply (comb_bound g X (at_ 0 xs) (at_ 0 ys) (behind 0 (at_ 0 ys) (Z.to_nat d)) (length xs)); auto.
    intros n B Hn HB HI. unfold behind. destruct (Nat.leb_spec (Z.to_nat d) n); [|rewrite Rabs_R0; exact HB].
    apply HI. lia.
Qed.

(*@PROP
Example C106_comb_hyps : (1 <= 2 <= 3)%Z /\ is_usize 3 /\ fits R_ops 3 /\ Rabs (1 / 2) < 1.
Proof. repeat split; try easy. rewrite Rabs_pos_eq; lra. Qed.
@*)

(** ** [LinearDelay] *)
Lemma lin_process_delay {C T} (O : num_ops T) p (s : lin_delay C T) x s' o :
  lin_process O p s x = Ok (s', o) -> ld_delay s' = ld_delay s.
Proof.
  intros E1. unfold lin_process in E1.
  do 3 (apply bind_Ok in E1; destruct E1 as [? [_ E1]]).
  apply bind_Ok in E1. destruct E1 as [[t2 y2] [En E1]].
  do 2 (apply bind_Ok in E1; destruct E1 as [? [_ E1]]). injection E1 as <- _. cbn [ld_delay].
  unfold lin_next_out in En. cbn [ld_do_next_out ld_next_out ld_memory ld_read ld_om_alpha ld_alpha ld_delay ld_output ld_write] in En.
  destruct (ld_do_next_out s).
  - do 3 (apply bind_Ok in En; destruct En as [? [_ En]]). injection En as <- _. reflexivity.
  - injection En as <- _. reflexivity.
Qed.

Lemma lin_run_delay {C T} (K : ctl_ops C T) (O : num_ops T) p ys : forall s s' os,
  lin_run K O p s (map DProcess ys) = Ok (s', os) -> ld_delay s' = ld_delay s.
Proof.
  induction ys as [|y ys IH]; intros s s' os E; cbn [map lin_run lin_step] in E.
  - injection E as <- _. reflexivity.
  - apply bind_Ok in E. destruct E as [[s1 o] [E1 E]]. apply bind_Ok in E1. destruct E1 as [[s2 o2] [E2 E1]].
    injection E1 as <- _. apply bind_Ok in E. destruct E as [[s3 os3] [E3 E]]. injection E as <- _.
    rewrite (IH _ _ _ E3). apply (lin_process_delay _ _ _ _ _ _ E2).
Qed.

Lemma new_delay_R p d m s : is_usize m -> fits R_ops m -> 0 <= d <= IZR m ->
  lin_new R_ctl R_ops p d m = Ok s -> ld_delay s = d.
Proof.
  intros Hmu Hfit Hd E0. unfold is_usize in Hmu.
  assert (Hms : (m + 1 <= max_slots R_ops)%Z) by (apply fits_R; exact Hfit).
  assert (Q := max_slots_lt R_ops R_size).
  destruct (ctl_R (m + 1) 0 (clip_delay R_ctl d m)) as [r [Ec [Hr _]]]; [unfold two63, two64 in *; lia|lia|].
  destruct (new_ctl R_ctl R_ops p R_size d m _ _ _ ltac:(lia) Hms Ec ltac:(lia)) as [s' [E' [_ [_ [_ [_ [Hdl _]]]]]]].
  rewrite E0 in E'. injection E' as <-. rewrite Hdl.
  rewrite R_clip by lia. unfold clipR. rewrite !Rmin_left, !Rmax_right;
    rewrite ?Rmin_left, ?Rmax_right; try rewrite plus_IZR; lra || reflexivity.
Qed.

Definition lin_read (d : R) (ys : list R) : R :=
  let k := Z.to_nat (Zfloor d) in
  (1 - (d - IZR (Zfloor d))) * read_back 0 k ys + (d - IZR (Zfloor d)) * read_back 0 (Datatypes.S k) ys.

Lemma map_seq_nth ys : map (fun i => @DProcess R R (nth i ys 0)) (seq 0 (length ys)) = map DProcess ys.
Proof.
  induction ys as [|y ys IH]; [reflexivity|]. cbn [length seq map nth]. f_equal.
  rewrite <- seq_shift, map_map. exact IH.
Qed.

Section L.
  Context (p : profile) (d : R) (m : Z) (Hm : is_usize m) (Hf : fits R_ops m) (Hd : 1 <= d <= IZR m).

  Definition past_lin (s : lin_delay R R) (ys : list R) : Prop :=
    exists os, lin_session R_ctl R_ops p d m (map DProcess ys) = Ok (s, os).

  Lemma past_lin_step s ys : past_lin s ys ->
    exists s1, lin_next_out R_ops p s = Ok (s1, lin_read d ys)
      /\ forall y, exists s2 o, lin_process R_ops p s1 y = Ok (s2, o) /\ past_lin s2 (ys ++ [y]).
  Proof.
    intros [os E].
    assert (Hne : m <> usize_max).
    { apply fits_R in Hf. pose proof (max_slots_lt R_ops R_size). unfold usize_max, two63, two64 in *. lia. }
    assert (HH : lin_history R_ctl R_ops p d m (map DProcess ys) s).
    { split; [exact Hm|]. split; [exact Hne|]. split; [|exists os; exact E].
      apply Forall_forall. intros op Hin. apply in_map_iff in Hin. destruct Hin as [x [<- _]]. split; [exact I|discriminate]. }
    assert (Ht : lin_trusted (map (@DProcess R R) ys)).
    { unfold lin_trusted. clear. induction ys as [|y ys IH]; [reflexivity|exact IH]. }
    assert (Hu : unpeeked (map (@DProcess R R) ys)).
    { unfold unpeeked. clear. induction ys as [|y ys IH]; [reflexivity|exact IH]. }
    assert (E' := E). unfold lin_session in E'. apply bind_Ok in E'. destruct E' as [s0 [E0 Er]].
    assert (HD : lin_get_delay s = d).
    { unfold lin_get_delay. rewrite (lin_run_delay _ _ _ _ _ _ _ Er). apply (new_delay_R p d m); try assumption. lra. }
    assert (P : forall y, exists s1 s2 v, lin_next_out R_ops p s = Ok (s1, v)
      /\ lin_process R_ops p s y = Ok (s2, v) /\ lin_process R_ops p s1 y = Ok (s2, v)).
    { intros y. apply (C25_peek_harmless_thm p d m (map DProcess ys) s y HH Ht Hu). rewrite HD. lra. }
    assert (App : forall y s2 v, lin_process R_ops p s y = Ok (s2, v) ->
      lin_session R_ctl R_ops p d m (map DProcess (ys ++ [y])) = Ok (s2, os ++ [OSample v])).
    { intros y s2 v Ep. unfold lin_session. rewrite E0. cbn [bind]. rewrite map_app, lin_run_app, Er. cbn [bind map lin_run lin_step].
      rewrite Ep. reflexivity. }
    assert (V : forall y s2 v, lin_process R_ops p s y = Ok (s2, v) -> v = lin_read d ys).
    { intros y s2 v Ep. assert (A := App y s2 v Ep).
      destruct (C22_interpolates_thm p d m (fun i => nth i (ys ++ [y]) 0) (length (ys ++ [y])) Hm Hf ltac:(lra)) as [s3 A'].
      rewrite map_seq_nth, A in A'. injection A' as _ A'.
      rewrite app_length in A'. cbn [length] in A'. rewrite Nat.add_1_r, seq_S, !map_app in A'. cbn [map plus] in A'.
      apply app_inj_tail in A'. destruct A' as [_ A']. injection A' as ->. unfold lin_read, Nat.add.
      assert (K : (1 <= Z.to_nat (Zfloor d))%nat).
      { assert (1 <= Zfloor d)%Z by (apply Zfloor_lub; lra). lia. }
      assert (B : forall j, (1 <= j)%nat -> behind 0 (fun i => nth i (ys ++ [y]) 0) j (length ys) = read_back 0 j ys).
      { intros j Hj. unfold behind, read_back. destruct (Nat.leb_spec j (length ys)); [|reflexivity].
        rewrite app_nth1 by lia. reflexivity. }
      rewrite !B by lia. reflexivity. }
    destruct (P 0) as [s1 [s2 [v [P1 [P2 P3]]]]]. exists s1. split; [rewrite P1, (V _ _ _ P2); reflexivity|].
    intros y. destruct (P y) as [s1' [s2' [v' [Q1 [Q2 Q3]]]]]. rewrite P1 in Q1. injection Q1 as <- <-.
    exists s2', v. split; [exact Q3|]. eexists. apply (App _ _ _ Q2).
  Qed.
End L.

(*@PROP
(** C106, [LinearDelay]: with a fractional delay d = k + f of at least one sample the echo
    mixes in the interpolated output (1 - f) y[n - k] + f y[n - k - 1]; the feedback comb is
    bounded as before. *)
@*)
Lemma C106_linear_echo_thm :
  forall (p : profile) (mix : R -> R -> R) (d : R) (m : Z) (xs : list R),
    is_usize m -> fits R_ops m -> 1 <= d <= IZR m ->
    let k := Z.to_nat (Zfloor d) in
    let f := d - IZR (Zfloor d) in
    exists s ys, lin_echo R_ctl R_ops p mix d m xs = Ok (s, ys) /\ length ys = length xs
      /\ (forall n, (n < length xs)%nat ->
           at_ 0 ys n = mix (at_ 0 xs n) ((1 - f) * behind 0 (at_ 0 ys) k n + f * behind 0 (at_ 0 ys) (k + 1) n))
      /\ (forall g X, mix = feedback R_ops g -> Rabs g < 1 -> (forall n, Rabs (at_ 0 xs n) <= X) ->
          forall n, (n < length xs)%nat -> Rabs (at_ 0 ys n) <= X / (1 - Rabs g)).
Proof.
  intros p mix d m xs Hm Hf Hd k f.
  destruct (C22_interpolates_thm p d m (fun _ => 0) 0 Hm Hf ltac:(lra)) as [s0 E0]. cbn [seq map] in E0.
  assert (E1 : lin_new R_ctl R_ops p d m = Ok s0).
  { unfold lin_session in E0. apply bind_Ok in E0. destruct E0 as [s1 [E0 E1]]. cbn [lin_run] in E1. injection E1 as <-. exact E0. }
  destruct (echo_gen 0 (lin_next_out R_ops p) (lin_process R_ops p) mix (past_lin p d m) (lin_read d)
              (past_lin_step p d m Hm Hf Hd) xs s0 []) as [s [ys [E [L N]]]].
  { exists []. exact E0. }
  assert (K : (1 <= k)%nat).
  { assert (1 <= Zfloor d)%Z by (apply Zfloor_lub; lra). unfold k. lia. }
  assert (N' : forall n, (n < length xs)%nat ->
           at_ 0 ys n = mix (at_ 0 xs n) ((1 - f) * behind 0 (at_ 0 ys) k n + f * behind 0 (at_ 0 ys) (k + 1) n)).
  { intros n Hn. unfold at_ at 1 2. rewrite (N n Hn). cbn [app]. unfold lin_read. fold k f.
    rewrite Nat.add_1_r, !read_behind by lia. reflexivity. }
  exists s, ys. unfold lin_echo. rewrite E1. cbn [bind]. split; [exact E|]. split; [exact L|]. split; [exact N'|].
  intros g X -> Hg HX.
  apply (comb_bound g X (at_ 0 xs) (at_ 0 ys) (fun n => (1 - f) * behind 0 (at_ 0 ys) k n + f * behind 0 (at_ 0 ys) (k + 1) n) (length xs)); auto.
  intros n B Hn HB HI.
  assert (F : 0 <= f <= 1).
  { unfold f. assert (A1 := Zfloor_lb d). assert (A2 := Zfloor_ub d). lra. }
  assert (W : forall j, (1 <= j)%nat -> Rabs (behind 0 (at_ 0 ys) j n) <= B).
  { intros j Hj. unfold behind. destruct (Nat.leb_spec j n); [|rewrite Rabs_R0; exact HB]. apply HI. lia. }
  eapply Rle_trans; [apply Rabs_triang|]. rewrite !Rabs_mult, (Rabs_pos_eq (1 - f)), (Rabs_pos_eq f) by lra.
  assert (W1 := W k K). assert (W2 := W (k + 1)%nat ltac:(lia)).
  assert ((1 - f) * Rabs (behind 0 (at_ 0 ys) k n) <= (1 - f) * B) by (apply Rmult_le_compat_l; lra).
  assert (f * Rabs (behind 0 (at_ 0 ys) (k + 1) n) <= f * B) by (apply Rmult_le_compat_l; lra). lra.
Qed.

(*@PROP
Example C106_linear_echo_hyps : is_usize 7 /\ fits R_ops 7 /\ 1 <= 5 / 2 <= IZR 7 /\ Rabs (1 / 2) < 1.
Proof. split; [easy|]. split; [discriminate|]. split; [lra|]. rewrite Rabs_pos_eq; lra. Qed.
@*)

Lemma rnd_bpow (prec emax e : Z) {Hp : Prec_gt_0 prec} : (SpecFloat.emin prec emax <= e)%Z ->
  rnd (ieee_view prec emax) (bpow radix2 e) = bpow radix2 e.
Proof. intros H. cbn [rnd ieee_view]. apply round_generic; [apply valid_rnd_round_mode|]. now apply format_bpow. Qed.

Section Fb.
  Context (prec emax : Z) {Hp : Prec_gt_0 prec} {Hm : Prec_lt_emax prec emax}.
  Let fx := SpecFloat.fexp prec emax.
  Local Notation F := (binary_float prec emax).

  Lemma feedback_gen (g x v : F) X G B :
    is_finite g = true -> generic_format radix2 fx G -> generic_format radix2 fx B -> B < bpow radix2 emax ->
    0 <= X -> Rabs (B2R g) * B <= G -> X + G <= B ->
    is_finite x = true -> Rabs (B2R x) <= X -> is_finite v = true -> Rabs (B2R v) <= B ->
    is_finite (f_add prec emax x (f_mul prec emax g v)) = true
    /\ Rabs (B2R (f_add prec emax x (f_mul prec emax g v))) <= B.
  Proof.
    intros Fg GG GB MB X0 HG HX Fx Bx Fv Bv.
    assert (P : Rabs (B2R g * B2R v) <= G).
    { rewrite Rabs_mult. eapply Rle_trans; [apply Rmult_le_compat_l; [apply Rabs_pos|exact Bv]|exact HG]. }
    destruct (mul_ok prec emax g v G Fg Fv GG ltac:(lra) P) as [Fm Em].
    assert (Pm : Rabs (B2R (f_mul prec emax g v)) <= G) by (rewrite Em; apply RN_abs_le; assumption).
    assert (Q : Rabs (B2R x + B2R (f_mul prec emax g v)) <= B).
    { eapply Rle_trans; [apply Rabs_triang|]. lra. }
    destruct (add_ok prec emax x (f_mul prec emax g v) B Fx Fm GB MB Q) as [Fa Ea].
    split; [exact Fa|]. rewrite Ea. apply RN_abs_le; assumption.
  Qed.
End Fb.

Lemma feedback_ok (T : Type) (O : num_ops T) (V : float_view T) (g x v : T) X G B :
    ieee O V -> fin V g = true -> rnd V G = G -> rnd V B = B -> B <= fmax V -> 0 <= X ->
    Rabs (val V g) * B <= G -> X + G <= B ->
    fin V x = true -> Rabs (val V x) <= X -> fin V v = true -> Rabs (val V v) <= B ->
    fin V (feedback O g x v) = true /\ Rabs (val V (feedback O g x v)) <= B.
Proof.
  intros HO Fg RG RB MB X0 HG HX Fx Bx Fv Bv.
  destruct HO; cbn [fin val rnd fmax ieee_view] in *; unfold feedback; cbn [n_add n_mul f32_ops f64_ops]; apply (feedback_gen _ _ g x v X G B); try assumption.
  1,4: rewrite <- RG; apply generic_format_round; typeclasses eauto.
  1,3: rewrite <- RB; apply generic_format_round; typeclasses eauto.
  all: match type of MB with _ <= (1 - bpow radix2 ?a) * bpow radix2 ?b =>
         assert (0 < bpow radix2 a) by apply bpow_gt_0; assert (0 < bpow radix2 b) by apply bpow_gt_0; nra end.
Qed.

(*@PROP
(** C106, [f32] and [f64]: the feedback comb stays within [B] for ever, and finite, if numbers
    [G] and [B] of the type leave room: |g| B <= G and X + G <= B. *)
@*)
Lemma C106_float_bound_thm :
  forall (T : Type) (O : num_ops T) (V : float_view T) (p : profile) (g : T) (d m : Z) (xs : list T) (X G B : R),
    ieee O V -> (1 <= d <= m)%Z -> is_usize m -> fits O m ->
    fin V g = true -> rnd V G = G -> rnd V B = B -> 0 <= B <= fmax V ->
    Rabs (val V g) * B <= G -> X + G <= B ->
    (forall x, In x xs -> fin V x = true /\ Rabs (val V x) <= X) ->
    exists s ys, delay_echo O p (feedback O g) d m xs = Ok (s, ys) /\ length ys = length xs
      /\ forall y, In y ys -> fin V y = true /\ Rabs (val V y) <= B.
Proof.
  intros T O V p g d m xs X G B HO Hd Hm Hf Fg RG RB [B0 MB] HG HX HI.
  assert (Hs : (1 <= n_size_of O)%Z) by (destruct HO; cbn; lia).
  destruct xs as [|x0 xs'] eqn:Exs.
  { destruct (C106_delay_echo_thm T O p (feedback O g) d m [] Hs Hd Hm Hf) as [s [s' [ys [E [_ [L _]]]]]].
    exists s, ys. split; [exact E|]. split; [exact L|]. destruct ys; [|discriminate]. intros y []. }
  rewrite <- Exs in *.
  assert (X0 : 0 <= X).
  { destruct (HI x0) as [_ Q]; [rewrite Exs; left; reflexivity|]. eapply Rle_trans; [apply Rabs_pos|exact Q]. }
  assert (St : forall x v, (fin V x = true /\ Rabs (val V x) <= X) -> (fin V v = true /\ Rabs (val V v) <= B) ->
     fin V (feedback O g x v) = true /\ Rabs (val V (feedback O g x v)) <= B).
  { intros x v [Fx Bx] [Fv Bv]. apply (feedback_ok T O V g x v X G B); assumption. }
  assert (Z0 : fin V (n_zero O) = true /\ Rabs (val V (n_zero O)) <= B).
  { destruct HO; cbn; rewrite Rabs_R0; split; [reflexivity|exact B0|reflexivity|exact B0]. }
  destruct (C106_delay_echo_thm T O p (feedback O g) d m xs Hs Hd Hm Hf) as [s [s' [ys [E [_ [L N]]]]]].
  exists s, ys. split; [exact E|]. split; [exact L|].
  assert (A : forall n, (n < length xs)%nat -> fin V (at_ (n_zero O) ys n) = true /\ Rabs (val V (at_ (n_zero O) ys n)) <= B).
  { intros n. induction n as [n IH] using lt_wf_ind. intros Hn. rewrite (N n Hn). apply St.
    - apply HI, nth_In, Hn.
    - unfold behind. destruct (Nat.leb_spec (Z.to_nat d) n); [|exact Z0]. apply IH; lia. }
  intros y Hy. destruct (In_nth ys y (n_zero O) Hy) as [n [Hn <-]]. apply A. lia.
Qed.

(*@PROP
Example C106_float_bound_hyps :
  let g := fl32 1 (-1) in let V := ieee_view 24 128 in
  ieee O32 V /\ fin V g = true /\ rnd V 1 = 1 /\ rnd V 2 = 2 /\ 0 <= 2 <= fmax V
  /\ Rabs (val V g) * 2 <= 1 /\ 1 + 1 <= 2 /\ (1 <= 3 <= 5)%Z /\ is_usize 5 /\ fits O32 5.
Proof.
  intros g V. unfold g, V. split; [constructor|]. split; [reflexivity|].
  split; [apply (rnd_bpow 24 128 0); easy|]. split; [apply (rnd_bpow 24 128 1); easy|].
  split. { cbn. lra. }
  split. { unfold fl32. cbn. unfold F2R. cbn. rewrite Rabs_pos_eq; lra. }
  split; [lra|]. repeat split; easy.
Qed.
@*)
