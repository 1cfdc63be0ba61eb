(** Lemmas behind property C121.  The [@PROP] blocks are copied into [PropFir.v]. *)
(*@PROP
(** Property C121: FIR filters of any length built from a delay line and its taps.

    Vocabulary: [delay_fir], [lin_fir], [weighted], [convolved], [loudness] ([FirSpec]);
    [at_ zero l n] is the [n]-th sample of the list [l] ([EchoSpec]); [behind zero x k n] is
    x[n - k], zero before the start ([LinRun]); [stream D k x n] is what a new filter configured
    with [k] returns for sample [n] of [x] ([FltFilterSpec]); [fixed q r]: [r] is a multiple of
    2^q ([FixedSpec]). *)
From Coq Require Import ZArith Reals List Bool Lra Lia.
From Flocq Require Import Core.Core IEEE754.BinarySingleNaN.
From Verif Require Import Base Num NumR NumF Witness FloatSpec FilterM RbjM AnalysisM Device Signal FltFilterSpec FltFilterLemmas
  DelayM LinDelayM DelaySpec DelayRun LinSpec LinRun EchoSpec FixedSpec FirSpec FirLemmas.
Import ListNotations.
Open Scope R_scope.
@*)
From Coq Require Import ZArith Reals List Bool Lra Lia Arith ZifyBool.
From Flocq Require Import Core.Core IEEE754.BinarySingleNaN.
From Verif Require Import Base BaseLemmas Num NumR NumF FloatSpec FloatFacts AnaFacts FilterM RbjM AnalysisM Device Signal FltFilterSpec FltFilterFacts FltFilterLemmas
  DelayM LinDelayM DelaySpec DelayRun DelayProofs DelayFacts DelayLemmas LinSpec LinRun LinFacts LinLemmas LinTapLemmas
  EchoSpec EchoLemmas Witness FixedSpec FixedLemmas BoxLemmas FirSpec.
Import ListNotations.
Open Scope R_scope.

(** ** The loop *)
Section Loop.
  Context {L T : Type} (O : num_ops T).
  Context (process : L -> T -> outcome (L * T)) (tap : L -> Z -> outcome T).
  Notation zero := (n_zero O).
  (** [past s xs]: [s] is the state after processing [xs]. *)
  Context (past : L -> list T -> Prop) (m : Z).
  Hypothesis tap_ok : forall s xs k, past s xs -> (0 <= k <= m)%Z -> tap s k = Ok (nth (Z.to_nat k) (rev xs) zero).

  Lemma nth_rev_behind xs x k : nth k (rev (xs ++ [x])) zero = behind zero (at_ zero (xs ++ [x])) k (length xs).
  Proof.
    unfold behind, at_. destruct (Nat.leb_spec k (length xs)) as [H|H].
    - rewrite rev_nth by (rewrite app_length; cbn; lia). f_equal. rewrite app_length. cbn. lia.
    - apply nth_overflow. rewrite rev_length, app_length. cbn. lia.
  Qed.

  Lemma behind_prefix (xs ys : list T) k n : (n < length xs)%nat -> behind zero (at_ zero (xs ++ ys)) k n = behind zero (at_ zero xs) k n.
  Proof.
    intros H. unfold behind, at_. destruct (k <=? n)%nat; [|reflexivity]. apply app_nth1. lia.
  Qed.

  Lemma gather_ok h : forall s xs x y k, past s (xs ++ [x]) -> (Z.of_nat k + Z.of_nat (length h) <= m + 1)%Z ->
    gather O tap s y (Z.of_nat k) h = Ok (add_taps O y k h (at_ zero (xs ++ [x])) (length xs)).
  Proof.
    induction h as [|hk h IH]; intros s xs x y k Hp Hk; [reflexivity|]. cbn [length] in Hk.
    cbn [gather add_taps]. rewrite (tap_ok s _ _ Hp) by lia. cbn [bind].
    rewrite Nat2Z.id, nth_rev_behind. replace (Z.of_nat k + 1)%Z with (Z.of_nat (Datatypes.S k)) by lia.
    apply IH; [exact Hp|lia].
  Qed.

  Lemma add_taps_prefix h : forall (xs ys : list T) y k n, (n < length xs)%nat ->
    add_taps O y k h (at_ zero (xs ++ ys)) n = add_taps O y k h (at_ zero xs) n.
  Proof.
    induction h as [|hk h IH]; intros xs ys y k n Hn; [reflexivity|]. cbn [add_taps]. rewrite behind_prefix by exact Hn. apply IH, Hn.
  Qed.

  Lemma fir_gen h0 h : (Z.of_nat (length h) <= m)%Z -> (forall s xs x s' y, past s xs -> process s x = Ok (s', y) -> past s' (xs ++ [x])) ->
    forall xs s xs0, past s xs0 ->
    (forall us x vs s', xs = us ++ x :: vs -> past s' (xs0 ++ us) -> exists s2 y, process s' x = Ok (s2, y)) ->
    exists e ys, fir O process tap h0 h s xs = Ok (e, ys) /\ past e (xs0 ++ xs) /\ length ys = length xs
      /\ forall n, (n < length xs)%nat -> at_ zero ys n = weighted O h0 h (at_ zero (xs0 ++ xs)) (length xs0 + n).
  Proof.
    intros Hl Hstep. assert (Hm : (0 <= m)%Z) by lia.
    induction xs as [|x xs IH]; intros s xs0 Hp Hrun.
    - exists s, []. rewrite app_nil_r. cbn. repeat split; auto. intros; lia.
    - destruct (Hrun [] x xs s eq_refl) as [s2 [y0 E]]; [rewrite app_nil_r; exact Hp|].
      assert (Hp2 := Hstep _ _ _ _ _ Hp E).
      destruct (IH s2 (xs0 ++ [x]) Hp2) as [e [ys [EF [He [HL Hn]]]]].
      { intros us x' vs s' Ex Hs'. apply (Hrun (x :: us) x' vs s'); [rewrite Ex; reflexivity|]. rewrite <- app_assoc in Hs'. exact Hs'. }
      cbn [fir]. rewrite E. cbn [bind]. rewrite (tap_ok s2 _ 0 Hp2) by lia. cbn [bind].
      change 1%Z with (Z.of_nat 1). rewrite (gather_ok h s2 xs0 x _ 1 Hp2) by lia. cbn [bind]. rewrite EF. cbn [bind].
      exists e. eexists. split; [reflexivity|]. rewrite <- app_assoc in He, Hn. split; [exact He|]. split; [cbn; lia|].
      intros [|n] Ln.
      + rewrite Nat.add_0_r. unfold at_ at 1, weighted. cbn [nth].
        rewrite <- (add_taps_prefix h (xs0 ++ [x]) xs) by (rewrite app_length; cbn; lia). rewrite <- app_assoc. cbn [app].
        f_equal. f_equal. change (Z.to_nat 0) with 0%nat. rewrite nth_rev_behind. unfold behind, at_. cbn [Nat.leb]. rewrite Nat.sub_0_r.
        rewrite !app_nth2, Nat.sub_diag by lia. reflexivity.
      + cbn [length] in Ln. unfold at_ at 1. cbn [nth]. specialize (Hn n ltac:(lia)). unfold at_ at 1 in Hn. rewrite Hn.
        rewrite app_length. cbn [length]. f_equal. lia.
  Qed.
End Loop.

(*@PROP
(** C121: on [Delay::new(d, m)], any [d], with at most m + 1 coefficients, the program never
    panics; in every arithmetic output [n] is h0 x[n] + h1 x[n-1] + ..., added in this order, and
    the line ends as if the input had only been processed. *)
@*)
Lemma C121_delay_thm :
  forall (T : Type) (O : num_ops T) (p : profile) (h0 : T) (h : list T) (d m : Z) (xs : list T),
    (1 <= n_size_of O)%Z -> is_usize d -> is_usize m -> fits O m -> (Z.of_nat (length h) <= m)%Z ->
    exists e ys os, delay_fir O p h0 h d m xs = Ok (e, ys) /\ dl_session O p d m (map DProcess xs) = Ok (e, os)
      /\ length ys = length xs
      /\ forall n, (n < length xs)%nat -> at_ (n_zero O) ys n = weighted O h0 h (at_ (n_zero O) xs) n.
Proof.
  intros T O p h0 h d m xs Hs Hd Hm Hf Hl.
  assert (Hne : m <> usize_max).
  { assert (F := Hf). apply fits_iff in F; [|assumption]. pose proof (max_slots_lt O Hs). unfold usize_max, two63, two64 in *. lia. }
  set (past := fun (s : delay T) (us : list T) => dl_history O p d m (map DProcess us) s).
  assert (Sane : forall us : list T, Forall (fun op : dl_op Z T => op_sane op) (map DProcess us)).
  { induction us; constructor; [split; [exact I|discriminate]|assumption]. }
  destruct (C07_delay_is_pure_delay_thm T O p d m [] Hs Hd Hm Hf) as [s0 E0].
  assert (P0 : past s0 []) by (repeat split; auto; try apply Hd; try apply Hm; eexists; exact E0).
  destruct (fir_gen O (delay_process p) (delay_tap_out p) past m) with (h0 := h0) (h := h) (xs := xs) (s := s0) (xs0 := @nil T)
    as [e [ys [E [He [HL Hn]]]]].
  - intros s us k Hp Hk. apply (C13_tap_out_reads_back_thm T O p d m us s k Hs Hp Hk).
  - exact Hl.
  - intros s us x s' y [_ [_ [_ [_ [os E]]]]] Ep. split; [exact Hd|]. split; [exact Hm|]. split; [exact Hne|]. split; [apply Sane|].
    eexists. unfold dl_session in *. destruct (delay_new O p d m) as [sn| |]; try discriminate. cbn [bind] in *.
    rewrite map_app, dl_step_app, E. cbn [bind map dl_run dl_step]. rewrite Ep. cbn [bind]. reflexivity.
  - exact P0.
  - intros us x vs s' _ [_ [_ [_ [_ [os E]]]]].
    destruct (C07_delay_is_pure_delay_thm T O p d m (([] ++ us) ++ [x]) Hs Hd Hm Hf) as [s1 E1].
    unfold dl_session in *. destruct (delay_new O p d m) as [sn| |]; try discriminate. cbn [bind] in *.
    rewrite map_app, dl_step_app, E in E1. cbn [bind map dl_run dl_step] in E1.
    destruct (delay_process p s' x) as [[s2 y]| |]; try discriminate. exists s2, y. reflexivity.
  - destruct He as [_ [_ [_ [_ [os Es]]]]]. exists e, ys, os. split.
    + unfold delay_fir. unfold dl_session in E0. destruct (delay_new O p d m) as [sn| |]; try discriminate. cbn [bind map dl_run] in *.
      injection E0 as <-. exact E.
    + split; [exact Es|]. split; [exact HL|]. exact Hn.
Qed.
(*@PROP
Example C121_delay_hyps : (1 <= n_size_of O32)%Z /\ is_usize 0 /\ is_usize 63 /\ fits O32 63 /\ (Z.of_nat (length (repeat (fl32 1 (-6)) 63)) <= 63)%Z.
Proof. repeat split; easy. Qed.

(** C121: the same on [LinearDelay::new(d, m)], whatever the delay [d]. *)
@*)
Lemma C121_linear_delay_thm :
  forall (T : Type) (cast : f32 -> T) (O : num_ops T) (p : profile) (h0 : T) (h : list T) (d : f32) (m : Z) (xs : list T),
    (1 <= n_size_of O)%Z -> (n_size_of O * 2 ^ 24 <= isize_max)%Z -> is_usize m -> short (2 ^ 24) m -> (Z.of_nat (length h) <= m)%Z ->
    exists e ys os, lin_fir (f32_ctl_gen cast) O p h0 h d m xs = Ok (e, ys)
      /\ lin_session (f32_ctl_gen cast) O p d m (map DProcess xs) = Ok (e, os)
      /\ length ys = length xs
      /\ forall n, (n < length xs)%nat -> at_ (n_zero O) ys n = weighted O h0 h (at_ (n_zero O) xs) n.
Proof.
  intros T cast O p h0 h d m xs Hs Hsz Hm Hsh Hl. set (K := f32_ctl_gen cast).
  assert (Hne : m <> usize_max) by (unfold short, usize_max, two64 in *; lia).
  set (past := fun (s : lin_delay f32 T) (us : list T) => lin_history K O p d m (map DProcess us) s).
  assert (Sane : forall us : list T, Forall (fun op : dl_op f32 T => lin_sane op) (map DProcess us)).
  { induction us; constructor; [split; [exact I|discriminate]|assumption]. }
  assert (All : forall us : list T, exists s os, lin_session K O p d m (map DProcess us) = Ok (s, os)).
  { intros us. apply C21_never_panics_thm; auto.
    - induction us; constructor; [exact I|assumption].
    - induction us; cbn; auto. }
  destruct (All []) as [s0 [os0 E0]].
  assert (P0 : past s0 []) by (repeat split; auto; try apply Hm; eexists; exact E0).
  destruct (fir_gen O (lin_process O p) (lin_tap_out p) past m) with (h0 := h0) (h := h) (xs := xs) (s := s0) (xs0 := @nil T)
    as [e [ys [E [He [HL Hn]]]]].
  - intros s us k Hp Hk. apply (C13_linear_tap_out_reads_back_thm f32 T K O p d m us s k Hs Hp Hk).
  - exact Hl.
  - intros s us x s' y [_ [_ [_ [os E]]]] Ep. split; [exact Hm|]. split; [exact Hne|]. split; [apply Sane|].
    eexists. unfold lin_session in *. destruct (lin_new K O p d m) as [sn| |]; try discriminate. cbn [bind] in *.
    rewrite map_app, lin_run_app, E. cbn [bind map lin_run lin_step]. rewrite Ep. cbn [bind]. reflexivity.
  - exact P0.
  - intros us x vs s' _ [_ [_ [_ [os E]]]].
    destruct (All (([] ++ us) ++ [x])) as [s1 [os1 E1]].
    unfold lin_session in *. destruct (lin_new K O p d m) as [sn| |]; try discriminate. cbn [bind] in *.
    rewrite map_app, lin_run_app, E in E1. cbn [bind map lin_run lin_step] in E1.
    destruct (lin_process O p s' x) as [[s2 y]| |]; try discriminate. exists s2, y. reflexivity.
  - destruct He as [_ [_ [_ [os Es]]]]. exists e, ys, os. split.
    + unfold lin_fir. unfold lin_session in E0. fold K. destruct (lin_new K O p d m) as [sn| |]; try discriminate. cbn [bind map lin_run] in *.
      injection E0 as <- _. exact E.
    + split; [exact Es|]. split; [exact HL|]. exact Hn.
Qed.
(*@PROP
Example C121_linear_delay_hyps : (1 <= n_size_of O64)%Z /\ (n_size_of O64 * 2 ^ 24 <= isize_max)%Z /\ is_usize 63 /\ short (2 ^ 24) 63
  /\ (Z.of_nat (length (repeat (fl64 1 (-6)) 63)) <= 63)%Z.
Proof. repeat split; easy. Qed.

(** C121: with two or three coefficients it is [OneZero] or [TwoZero], bit for bit, in every
    arithmetic. *)
@*)
Lemma C121_short_thm :
  forall (T : Type) (O : num_ops T) (h0 h1 h2 : T) (x : nat -> T) (n : nat),
    weighted O h0 [h1] x n = stream (dev_one_zero O) (h0, h1) x n
    /\ weighted O h0 [h1; h2] x n = stream (dev_two_zero O) (h0, h1, h2) x n.
Proof.
  intros T O h0 h1 h2 x n. set (z := n_zero O).
  assert (A : forall n, exists o, fed (dev_one_zero O) (after (dev_one_zero O) [CSet (h0, h1)]) x n
                = OneZero (behind z x 1 n) o h0 h1).
  { intros i. induction i as [|i [o IH]]; [eexists; reflexivity|]. cbn [fed]. rewrite IH. eexists.
    unfold behind. cbn [Nat.leb]. replace (Datatypes.S i - 1)%nat with i by lia. reflexivity. }
  assert (B : forall n, exists o, fed (dev_two_zero O) (after (dev_two_zero O) [CSet (h0, h1, h2)]) x n
                = TwoZero (behind z x 1 n) (behind z x 2 n) o h0 h1 h2).
  { intros i. induction i as [|i [o IH]]; [eexists; reflexivity|]. cbn [fed]. rewrite IH. eexists.
    cbn [dev_two_zero d_process]. unfold two_zero_process.
    cbn [fst tz_x_z1 tz_x_z2 tz_b0 tz_b1 tz_b2]. f_equal.
    unfold behind. cbn [Nat.leb]. f_equal. lia. }
  destruct (A n) as [o1 E1]. destruct (B n) as [o2 E2]. unfold stream. rewrite E1, E2. split; reflexivity.
Qed.

(*@PROP
(** C121: the output forgets: in every arithmetic, whatever came before the last
    [length h] + 1 samples (infinities and NaN included) makes no difference. *)
@*)
Lemma C121_forgets_thm :
  forall (T : Type) (O : num_ops T) (h0 : T) (h : list T) (x x' : nat -> T) (n n' : nat),
    (length h <= n)%nat -> (length h <= n')%nat ->
    (forall k, (k <= length h)%nat -> x (n - k)%nat = x' (n' - k)%nat) ->
    weighted O h0 h x n = weighted O h0 h x' n'.
Proof.
  intros T O h0 h x x' n n' Hn Hn' H. unfold weighted.
  assert (G : forall h1 k y, (k + length h1 <= Datatypes.S (length h))%nat -> add_taps O y k h1 x n = add_taps O y k h1 x' n').
  { induction h1 as [|a h1 IH]; intros k y Hk; [reflexivity|]. cbn [add_taps length] in *.
    assert (E : behind (n_zero O) x k n = behind (n_zero O) x' k n').
    { unfold behind. rewrite !(proj2 (Nat.leb_le _ _)) by lia. apply H. lia. }
    rewrite E. apply IH. lia. }
  assert (E0 := H 0%nat ltac:(lia)). rewrite !Nat.sub_0_r in E0. rewrite E0. apply G. lia.
Qed.
(*@PROP
(** Two signals that differ in an infinite sample at the start. *)
Example C121_forgets_hyps :
  let x i := match i with O => B754_infinity false | _ => fl32 1 0 end in let x' (_ : nat) := fl32 1 0 in
  (length [fl32 1 0; fl32 1 0] <= 3)%nat
  /\ (forall k, (k <= length [fl32 1 0; fl32 1 0])%nat -> x (3 - k)%nat = x' (3 - k)%nat) /\ x 0%nat <> x' 0%nat.
Proof.
  split; [cbn; lia|]. split; [|discriminate]. intros k Hk. cbn [length] in Hk.
  destruct k as [|[|[|k]]]; try reflexivity. lia.
Qed.

(** C121, exact arithmetic: the output is the convolution of the input with the coefficients. *)
@*)
Lemma C121_convolution_thm :
  forall (h0 : R) (h : list R) (x : signal) (n : nat), weighted R_ops h0 h x n = convolved (h0 :: h) 0 x n.
Proof.
  intros h0 h x n. unfold weighted. cbn [convolved n_mul R_ops].
  assert (G : forall g k y, add_taps R_ops y k g x n = y + convolved g k x n).
  { induction g as [|a g IH]; intros k y; cbn [add_taps convolved]; [symmetry; apply Rplus_0_r|]. rewrite IH. cbn [n_add n_mul n_zero R_ops].
    rewrite behind_back. apply Rplus_assoc. }
  rewrite G. unfold back. cbn [Nat.leb]. rewrite Nat.sub_0_r. reflexivity.
Qed.

(** ** Floating point *)
Lemma convolved_le h : forall k x n, Rabs (convolved h k x n) <= loudness h k x n.
Proof.
  induction h as [|a h IH]; intros k x n; cbn [convolved loudness]; [rewrite Rabs_R0; lra|].
  eapply Rle_trans; [apply Rabs_triang|]. apply Rplus_le_compat_l, IH.
Qed.
Lemma loudness_pos h : forall k x n, 0 <= loudness h k x n.
Proof. intros k x n. eapply Rle_trans; [apply Rabs_pos|apply convolved_le]. Qed.

Section Float.
  Context (prec emax : Z) {Hp : Prec_gt_0 prec} {Hm : Prec_lt_emax prec emax} (Hm3 : (3 <= emax)%Z).
  Notation F := (binary_float prec emax).
  Notation V := (ieee_view prec emax).
  Notation u := (uro prec).
  Notation et := (eta prec emax).
  Context (Ops : num_ops F).
  Hypothesis Hadd : n_add Ops = f_add prec emax.
  Hypothesis Hmul : n_mul Ops = f_mul prec emax.
  Hypothesis Hzero : n_zero Ops = (B754_zero false : F).

  Lemma behind_B2R (x : nat -> F) k n : B2R (behind (n_zero Ops) x k n) = back k (fun i => B2R (x i)) n.
  Proof. unfold behind, back. destruct (k <=? n)%nat; [reflexivity|rewrite Hzero; reflexivity]. Qed.
  Lemma behind_finite (x : nat -> F) k n : (forall i, is_finite (x i) = true) -> is_finite (behind (n_zero Ops) x k n) = true.
  Proof. intros H. unfold behind. destruct (k <=? n)%nat; [apply H|rewrite Hzero; reflexivity]. Qed.

  Lemma add_taps_near (x : nat -> F) n (Hx : forall i, is_finite (x i) = true) (N : nat) (Stot : R)
    (Hroom : (1 + u) ^ N * (Stot + INR N * et) <= fmax V) :
    forall h y k j r S, (forall a, In a h -> is_finite a = true) -> (1 <= j)%nat -> (j + length h <= N)%nat ->
    near prec emax j (INR j) y r S -> S + loudness (map B2R h) k (fun i => B2R (x i)) n <= Stot ->
    near prec emax (j + length h) (INR (j + length h)) (add_taps Ops y k h x n)
      (r + convolved (map B2R h) k (fun i => B2R (x i)) n) (S + loudness (map B2R h) k (fun i => B2R (x i)) n).
  Proof using Hm3 Hadd Hmul Hzero.
    assert (P := uro_pos prec). assert (E := eta_pos prec emax).
    set (X := fun i => B2R (x i)) in *.
    induction h as [|a h IH]; intros y k j r S Fh Hj HN Hy HS.
    - cbn [map loudness convolved length add_taps]. rewrite Nat.add_0_r, !Rplus_0_r. exact Hy.
    - cbn [map loudness convolved length add_taps] in *. assert (EB := behind_B2R x k n). fold X in EB. rewrite <- EB in *. clear EB.
      set (b := behind (n_zero Ops) x k n) in *.
      assert (Fb : is_finite b = true) by (apply behind_finite, Hx).
      assert (L0 := loudness_pos (map B2R h) (Datatypes.S k) X n).
      assert (S0 : 0 <= S) by (destruct Hy as [_ [H _]]; eapply Rle_trans; [apply Rabs_pos|exact H]).
      set (t := Rabs (B2R a * B2R b)) in *. assert (T0 : 0 <= t) by apply Rabs_pos.
      assert (W1 : 1 <= (1 + u) ^ N) by (apply pow_R1_Rle; lra).
      assert (EN : 0 <= INR N * et) by (apply Rmult_le_pos; [apply pos_INR|lra]).
      assert (Room1 : Stot + INR N * et <= fmax V).
      { eapply Rle_trans; [|exact Hroom]. rewrite <- (Rmult_1_l (Stot + INR N * et)) at 1. apply Rmult_le_compat_r; lra. }
      assert (Np : near prec emax 1 1 (n_mul Ops a b) (B2R a * B2R b) t).
      { rewrite Hmul. apply (near_mul prec emax (fmax V)); [apply (SmoothF.MAX_fmt prec emax Hm3)|apply (SmoothF.MAX_lt prec emax)| | | |]; auto.
        - apply Fh. left. reflexivity.
        - apply Rle_refl.
        - lra. }
      apply (near_mono prec emax 1 j) in Np; [|exact Hj|lra].
      assert (Nn : near prec emax (Datatypes.S j) (INR (Datatypes.S j)) (n_add Ops y (n_mul Ops a b)) (r + B2R a * B2R b) (S + t)).
      { rewrite S_INR, Hadd. apply (near_add prec emax (fmax V)); [apply (SmoothF.MAX_fmt prec emax Hm3)|apply (SmoothF.MAX_lt prec emax)| | | | |]; auto.
        - apply pos_INR.
        - lra.
        - eapply Rle_trans; [|exact Hroom]. replace (INR j + 1) with (INR (Datatypes.S j)) by apply S_INR.
          assert (Hw : (1 + u) ^ j <= (1 + u) ^ N) by (apply Rle_pow; [lra|lia]).
          assert (HI : INR (Datatypes.S j) <= INR N) by (apply le_INR; lia).
          replace ((1 + u) ^ j * (S + t) + INR (Datatypes.S j) * (1 + u) ^ j * et) with ((1 + u) ^ j * (S + t + INR (Datatypes.S j) * et)) by ring.
          apply Rmult_le_compat; [apply pow_le; lra| |exact Hw|].
          + assert (0 <= INR (Datatypes.S j) * et) by (apply Rmult_le_pos; [apply pos_INR|lra]). lra.
          + assert (INR (Datatypes.S j) * et <= INR N * et) by (apply Rmult_le_compat_r; lra). lra. }
      replace (j + Datatypes.S (length h))%nat with (Datatypes.S j + length h)%nat by lia.
      replace (r + (B2R a * B2R b + convolved (map B2R h) (Datatypes.S k) X n)) with (r + B2R a * B2R b + convolved (map B2R h) (Datatypes.S k) X n) by ring.
      replace (S + (t + loudness (map B2R h) (Datatypes.S k) X n)) with (S + t + loudness (map B2R h) (Datatypes.S k) X n) by ring.
      apply IH; auto; try lia; [intros c Hc; apply Fh; right; exact Hc|lra].
  Qed.

  Lemma fir_near (h0 : F) (h : list F) (x : nat -> F) n :
    (forall a, In a (h0 :: h) -> is_finite a = true) -> (forall i, is_finite (x i) = true) ->
    let N := Datatypes.S (length h) in let S := loudness (map B2R (h0 :: h)) 0 (fun i => B2R (x i)) n in
    (1 + u) ^ N * (S + INR N * et) <= fmax V ->
    near prec emax N (INR N) (weighted Ops h0 h x n) (convolved (map B2R (h0 :: h)) 0 (fun i => B2R (x i)) n) S.
  Proof using Hm3 Hadd Hmul Hzero.
    intros Fh Hx N S HR. assert (P := uro_pos prec). assert (E := eta_pos prec emax).
    assert (B0 : back 0 (fun i => B2R (x i)) n = B2R (x n)) by (unfold back; cbn [Nat.leb]; rewrite Nat.sub_0_r; reflexivity).
    unfold weighted, S in *. cbn [map convolved loudness] in *. rewrite B0 in *.
    set (X := fun i => B2R (x i)) in *.
    assert (L0 := loudness_pos (map B2R h) 1 X n). assert (T0 := Rabs_pos (B2R h0 * B2R (x n))).
    apply (add_taps_near x n Hx N _ HR h (n_mul Ops h0 (x n)) 1 1 (B2R h0 * B2R (x n)) (Rabs (B2R h0 * B2R (x n)))).
    - intros a Ha. apply Fh. right. exact Ha.
    - lia.
    - unfold N. lia.
    - rewrite Hmul. apply (near_mul prec emax (fmax V)); [apply (SmoothF.MAX_fmt prec emax Hm3)|apply (SmoothF.MAX_lt prec emax)| | | |]; auto.
      + apply Fh. left. reflexivity.
      + apply Rle_refl.
      + eapply Rle_trans; [|exact HR].
        assert (W1 : 1 <= (1 + u) ^ N) by (apply pow_R1_Rle; lra).
        assert (EN : 0 <= INR N * et) by (apply Rmult_le_pos; [apply pos_INR|lra]).
        rewrite <- (Rmult_1_l (Rabs _)). apply Rmult_le_compat; lra.
    - apply Rle_refl.
  Qed.

  (** Fixed point. *)
  Context (e : Z) (He : (SpecFloat.emin prec emax <= e)%Z) (He' : (prec + e < emax)%Z).
  Notation B := (bpow radix2 (prec + e)).
  Lemma add_taps_exact (p q : Z) (x : nat -> F) n : e = (p + q)%Z -> (forall i, is_finite (x i) = true /\ fixed q (B2R (x i))) ->
    forall h y k r, (forall a, In a h -> is_finite a = true /\ fixed p (B2R a)) -> ex prec emax e y r ->
    Rabs r + loudness (map B2R h) k (fun i => B2R (x i)) n <= B ->
    ex prec emax e (add_taps Ops y k h x n) (r + convolved (map B2R h) k (fun i => B2R (x i)) n).
  Proof using Hadd Hmul Hzero He He'.
    intros Ee Hx. set (X := fun i => B2R (x i)) in *.
    induction h as [|a h IH]; intros y k r Fh Hy HS; cbn [map loudness convolved add_taps] in *.
    - rewrite Rplus_0_r. exact Hy.
    - assert (EB := behind_B2R x k n). fold X in EB. rewrite <- EB in *. clear EB. set (b := behind (n_zero Ops) x k n) in *.
      assert (Fb : is_finite b = true) by (apply behind_finite; intros; apply Hx).
      assert (Gb : fixed q (B2R b)) by (unfold b; rewrite behind_B2R; unfold back; destruct (k <=? n)%nat; [apply Hx|apply fx_0]).
      destruct (Fh a (or_introl eq_refl)) as [Fa Ga].
      assert (L0 := loudness_pos (map B2R h) (Datatypes.S k) X n). assert (R0 := Rabs_pos r). assert (T0 := Rabs_pos (B2R a * B2R b)).
      assert (Tri := Rabs_triang r (B2R a * B2R b)).
      replace (r + (B2R a * B2R b + convolved (map B2R h) (Datatypes.S k) X n)) with (r + B2R a * B2R b + convolved (map B2R h) (Datatypes.S k) X n) by ring.
      apply IH.
      + intros c Hc. apply Fh. right. exact Hc.
      + rewrite Hadd, Hmul. apply ex_add; auto; [|lra]. apply ex_mul; auto; [rewrite Ee; apply fx_mul; assumption|lra].
      + lra.
  Qed.
End Float.

(*@PROP
(** C121, [f32] and [f64]: with N finite coefficients and finite samples, output [n] is finite and
    within ((1 + u)^N - 1) S + N (1 + u)^N eta of the exact convolution, where S is the sum of
    |h_k x[n-k]|, u = 2^-24 (2^-53) and eta half the smallest positive number, unless S is so
    large that the sum could overflow. *)
@*)
Lemma C121_accurate_thm :
  forall (T : Type) (O : num_ops T) (V : float_view T), ieee O V ->
  forall (h0 : T) (h : list T) (x : nat -> T) (n : nat),
    (forall a, In a (h0 :: h) -> fin V a = true) -> (forall i, fin V (x i) = true) ->
    let N := Datatypes.S (length h) in
    let u := bpow radix2 (- fprec V) in
    let eta := u * fmin V in
    let X i := val V (x i) in
    let S := loudness (map (val V) (h0 :: h)) 0 X n in
    (1 + u) ^ N * (S + INR N * eta) <= fmax V ->
    fin V (weighted O h0 h x n) = true
    /\ Rabs (val V (weighted O h0 h x n) - convolved (map (val V) (h0 :: h)) 0 X n)
       <= ((1 + u) ^ N - 1) * S + INR N * (1 + u) ^ N * eta.
Proof.
  intros T O V HO. destruct HO as [lm b|lm b]; intros h0 h x n Fh Fx N u eta X S HR.
  - destruct (fir_near 24 128 ltac:(lia) (f32_ops lm b) eq_refl eq_refl eq_refl h0 h x n Fh Fx HR) as [A [_ B]]. split; [exact A|exact B].
  - destruct (fir_near 53 1024 ltac:(lia) (f64_ops lm b) eq_refl eq_refl eq_refl h0 h x n Fh Fx HR) as [A [_ B]]. split; [exact A|exact B].
Qed.
(*@PROP
(** A smoother over four samples in [f32], on full-scale samples: S = 1. *)
Example C121_accurate_hyps :
  let V := ieee_view 24 128 in let h := [fl32 1 (-2); fl32 1 (-2); fl32 1 (-2)] in let x (_ : nat) := fl32 1 0 in
  (forall a, In a (fl32 1 (-2) :: h) -> fin V a = true) /\ (forall i, fin V (x i) = true)
  /\ loudness (map (val V) (fl32 1 (-2) :: h)) 0 (fun i => val V (x i)) 5 = 1
  /\ (1 + bpow radix2 (-24)) ^ 4 * (1 + INR 4 * (bpow radix2 (-24) * fmin V)) <= fmax V.
Proof.
  cbv zeta. split; [intros a Ha; cbn in Ha; intuition (subst; reflexivity)|]. split; [reflexivity|]. split.
  - cbn [map val ieee_view loudness]. unfold back. cbn [Nat.leb].
    assert (E1 : B2R (fl32 1 (-2)) = 1 / 4) by (lit; lra). assert (E2 : B2R (fl32 1 0) = 1) by (lit; lra).
    rewrite E1, E2, !Rabs_pos_eq by lra. lra.
  - cbn [fmin fmax ieee_view]. assert (A : bpow radix2 (-24) <= 1) by (cbn; lra). assert (A0 := bpow_gt_0 radix2 (-24)).
    assert (B : bpow radix2 (2 - 128) <= 1) by (apply (bpow_le radix2 _ 0); lia). assert (B0 := bpow_gt_0 radix2 (2 - 128)).
    apply Rle_trans with (2 ^ 4 * (1 + 4 * (1 * 1))).
    + apply Rmult_le_compat.
      * apply pow_le. lra.
      * assert (0 <= INR 4 * (bpow radix2 (-24) * bpow radix2 (2 - 128))) by (apply Rmult_le_pos; [apply pos_INR|apply Rmult_le_pos; lra]). lra.
      * apply pow_incr. lra.
      * apply Rplus_le_compat_l. apply Rmult_le_compat; [apply pos_INR|apply Rmult_le_pos; lra|cbn; lra|]. apply Rmult_le_compat; lra.
    + apply Rle_trans with (/ 2 * bpow radix2 8); [cbn; lra|]. apply Rmult_le_compat; [lra|apply bpow_ge_0|cbn; lra|apply bpow_le; lia].
Qed.

(** C121: exact for fixed-point signals: coefficients multiples of 2^p, samples multiples of 2^q,
    and S at most 2^(24 + p + q) (2^(53 + p + q) in [f64]). *)
@*)
Lemma C121_fixed_thm :
  forall (T : Type) (O : num_ops T) (V : float_view T), ieee O V ->
  forall (h0 : T) (h : list T) (x : nat -> T) (p q : Z) (n : nat), (-149 <= p + q <= 100)%Z ->
    (forall a, In a (h0 :: h) -> fin V a = true /\ fixed p (val V a)) ->
    (forall i, fin V (x i) = true /\ fixed q (val V (x i))) ->
    loudness (map (val V) (h0 :: h)) 0 (fun i => val V (x i)) n <= bpow radix2 (fprec V + (p + q)) ->
    fin V (weighted O h0 h x n) = true
    /\ val V (weighted O h0 h x n) = convolved (map (val V) (h0 :: h)) 0 (fun i => val V (x i)) n.
Proof.
  intros T O V HO.
  assert (Gen : forall prec emax (Hp : Prec_gt_0 prec) (Hm : Prec_lt_emax prec emax) (Ops : num_ops (binary_float prec emax)),
    n_add Ops = f_add prec emax -> n_mul Ops = f_mul prec emax -> n_zero Ops = B754_zero false ->
    forall (h0 : binary_float prec emax) (h : list (binary_float prec emax)) (x : nat -> binary_float prec emax) (p q : Z) (n : nat),
    (SpecFloat.emin prec emax <= p + q)%Z -> (prec + (p + q) < emax)%Z ->
    (forall a, In a (h0 :: h) -> is_finite a = true /\ fixed p (B2R a)) ->
    (forall i, is_finite (x i) = true /\ fixed q (B2R (x i))) ->
    loudness (map B2R (h0 :: h)) 0 (fun i => B2R (x i)) n <= bpow radix2 (prec + (p + q)) ->
    is_finite (weighted Ops h0 h x n) = true
    /\ B2R (weighted Ops h0 h x n) = convolved (map B2R (h0 :: h)) 0 (fun i => B2R (x i)) n).
  { clear. intros prec emax Hp Hm Ops Hadd Hmul Hzero h0 h x p q n H1 H2 Hh Hx HS.
    assert (B0 : back 0 (fun i => B2R (x i)) n = B2R (x n)) by (unfold back; cbn [Nat.leb]; rewrite Nat.sub_0_r; reflexivity).
    cbn [map loudness convolved] in *. rewrite B0 in *. unfold weighted.
    assert (L0 := loudness_pos (map B2R h) 1 (fun i => B2R (x i)) n).
    destruct (Hh h0 (or_introl eq_refl)) as [Fa Ga]. destruct (Hx n) as [Fx Gx].
    destruct (add_taps_exact prec emax Ops Hadd Hmul Hzero (p + q) H1 H2 p q x n eq_refl Hx h (n_mul Ops h0 (x n)) 1 (B2R h0 * B2R (x n)))
      as [A [B _]]; [intros c Hc; apply Hh; right; exact Hc| |exact HS|split; assumption].
    rewrite Hmul. apply ex_mul; auto; [apply fx_mul; assumption|lra]. }
  destruct HO as [lm b|lm b]; intros h0 h x p q n Hpq Hh Hx HS.
  - apply (Gen 24%Z 128%Z _ _ (f32_ops lm b) eq_refl eq_refl eq_refl h0 h x p q n); auto; unfold SpecFloat.emin; lia.
  - apply (Gen 53%Z 1024%Z _ _ (f64_ops lm b) eq_refl eq_refl eq_refl h0 h x p q n); auto; unfold SpecFloat.emin; lia.
Qed.
(*@PROP
Example C121_fixed_hyps :
  let V := ieee_view 24 128 in let h := [fl32 1 (-2); fl32 1 (-2); fl32 1 (-2)] in let x (_ : nat) := fl32 32767 (-15) in
  (-149 <= -2 + -15 <= 100)%Z /\ (forall a, In a (fl32 1 (-2) :: h) -> fin V a = true /\ fixed (-2) (val V a))
  /\ (forall i, fin V (x i) = true /\ fixed (-15) (val V (x i)))
  /\ loudness (map (val V) (fl32 1 (-2) :: h)) 0 (fun i => val V (x i)) 5 <= bpow radix2 (24 + (-2 + -15)).
Proof.
  assert (E1 : B2R (fl32 1 (-2)) = 1 / 4) by (lit; lra). assert (E2 : B2R (fl32 32767 (-15)) = 32767 / 32768) by (lit; lra).
  assert (Q : fixed (-2) (B2R (fl32 1 (-2)))) by (rewrite E1; exists 1%Z; cbn; lra).
  cbv zeta. split; [lia|]. split; [intros a Ha; cbn in Ha; intuition (subst; auto)|].
  split; [intros _; split; [reflexivity|]; cbn [val ieee_view]; rewrite E2; exists 32767%Z; cbn; lra|].
  cbn [map val ieee_view loudness]. unfold back. cbn [Nat.leb]. rewrite E1, E2, !Rabs_pos_eq by lra.
  change (24 + (-2 + -15))%Z with 7%Z. cbn. lra.
Qed.
@*)
