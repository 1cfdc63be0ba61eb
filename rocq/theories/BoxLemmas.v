(** Lemmas behind property C120.  The [@PROP] blocks are copied into [PropBox.v]. *)
(*@PROP
(** Property C120: a moving sum built from a [Delay] and an accumulator.

    Vocabulary: [comb_into], [moving_sum], [last_sum] ([BoxSpec]); [at_ zero l n] is the [n]-th
    sample of the list [l] ([EchoSpec]); [behind zero x k n] is x[n - k], zero before the start
    ([LinRun]); [stream D k x n] is what a new filter configured with [k] returns for sample [n]
    of [x] ([FltFilterSpec]); [fixed q r]: [r] is a multiple of 2^q ([FixedSpec]). *)
From Coq Require Import ZArith Reals List Bool Lra Lia.
From Flocq Require Import Core.Core IEEE754.BinarySingleNaN.
From Verif Require Import Base Num NumR NumF Witness FloatSpec FilterM RbjM AnalysisM Device Signal FltFilterSpec FltFilterLemmas
  DelayM DelaySpec DelayRun LinRun EchoSpec FixedSpec BoxSpec BoxLemmas.
Import ListNotations.
Open Scope R_scope.
@*)
From Coq Require Import ZArith Reals List Bool Lra Lia Arith ZifyBool.
From Flocq Require Import Core.Core IEEE754.BinarySingleNaN.
From Verif Require Import Base BaseLemmas Num NumR NumF FloatSpec FloatFacts FilterM RbjM AnalysisM Device Signal FltFilterSpec FltFilterFacts FltFilterLemmas
  FilterSpec FilterFacts DelayM DelaySpec DelayRun DelayProofs DelayFacts DelayLemmas LinRun EchoSpec EchoLemmas SchroederLemmas StringSpec StringLemmas
  Witness FixedSpec FixedLemmas BoxSpec.
Import ListNotations.
Open Scope R_scope.

Section Gen.
  Context {S K T : Type} (O : num_ops T) (p : profile) (D : device S K T) (Hs : (1 <= n_size_of O)%Z) (d m : Z) (Hd : (1 <= d <= m)%Z).
  Notation zero := (n_zero O).
  Notation read := (read_back zero (Z.to_nat d)).

  Lemma process_read s ys y : past_dl O d m s ys ->
    exists s2, delay_process p s y = Ok (s2, read ys) /\ past_dl O d m s2 (ys ++ [y]).
  Proof using Hs Hd.
    intros H. destruct (past_process O p Hs d m Hd s ys y H) as [s2 [o [E H2]]].
    exists s2. split; [|exact H2]. rewrite E. do 2 f_equal.
    assert (G := hist_read O d m Hd s ys H). destruct H as [Hi [HL [HV HH]]].
    destruct (refine_process O p Hs s y Hi) as [s3 [E3 _]]. rewrite E in E3.
    assert (Eo : o = snd (line_process zero (dl_abs s) y)) by congruence.
    assert (EL : l_lag (dl_abs s) = Z.to_nat d) by (transitivity (Z.to_nat (dl_lag s)); [reflexivity|now rewrite HL]).
    assert (HLn : length (l_hist (dl_abs s)) = Z.to_nat (m + 1)).
    { rewrite HH, firstn_length, app_length, rev_length, repeat_length. lia. }
    rewrite <- G, Eo. unfold line_process. cbv zeta. cbn [snd]. rewrite EL.
    replace (Z.to_nat d) with (Datatypes.S (Z.to_nat (d - 1))) by lia. unfold push. cbn [nth].
    assert (RL : forall (h : list T) k, (Datatypes.S k < length h)%nat -> nth k (removelast h) zero = nth k h zero).
    { clear. intros h. induction h as [|a h IH]; intros k Hk; [cbn in Hk; lia|].
      destruct h as [|b h]; [cbn in Hk; lia|]. change (removelast (a :: b :: h)) with (a :: removelast (b :: h)).
      destruct k as [|k]; [reflexivity|]. cbn [nth]. apply IH. cbn in Hk |- *. lia. }
    apply RL. rewrite HLn. lia.
  Qed.

  Lemma slide_gen xs : forall s f xs0, past_dl O d m s xs0 ->
    exists e ys, slide O p D s f xs = Ok (e, ys) /\ length ys = length xs
      /\ forall n, (n < length xs)%nat ->
           let v i := n_sub O (nth i xs zero) (read (xs0 ++ firstn i xs)) in
           nth n ys zero = snd (d_process D (fed D f v n) (v n)).
  Proof using Hs Hd.
    induction xs as [|x xs IH]; intros s f xs0 H.
    - exists (s, f), []. cbn. repeat split; auto. intros n Hn. lia.
    - simpl slide. destruct (process_read s xs0 x H) as [s1 [E1 H1]]. rewrite E1. cbv beta iota delta [bind].
      destruct (d_process D f (n_sub O x (read xs0))) as [f1 u] eqn:Ef.
      destruct (IH s1 f1 _ H1) as [e [ys [E [HL Hn]]]]. rewrite E. cbv beta iota delta [bind].
      exists e, (u :: ys). split; [reflexivity|]. split; [cbn; lia|].
      intros [|n] Ln v.
      + cbn [nth fed]. unfold v. cbn [nth firstn]. rewrite app_nil_r, Ef. reflexivity.
      + cbn [length] in Ln. cbn [nth]. rewrite (Hn n) by lia. cbv zeta.
        assert (Ev : forall i, n_sub O (nth i xs zero) (read ((xs0 ++ [x]) ++ firstn i xs)) = v (Datatypes.S i)).
        { intros i. unfold v. cbn [nth firstn]. rewrite <- app_assoc. reflexivity. }
        rewrite Ev. rewrite <- (fed_shift D f v n). unfold v at 2. cbn [nth firstn]. rewrite app_nil_r, Ef. cbn [fst].
        rewrite (fed_ext D f1 (fun i => n_sub O (nth i xs zero) (read ((xs0 ++ [x]) ++ firstn i xs))) (fun i => v (Datatypes.S i)) n)
          by (intros; apply Ev). reflexivity.
  Qed.
End Gen.

(*@PROP
(** C120: on [Delay::new(d, m)], 1 <= d <= m, the program with any filter in place of the
    accumulator never panics; in every arithmetic each output is what the filter, running by
    itself on x[n] - x[n - d], returns. *)
@*)
Lemma C120_comb_thm :
  forall (S K T : Type) (D : device S K T) (O : num_ops T) (p : profile) (k : K) (d m : Z) (xs : list T),
    (1 <= n_size_of O)%Z -> (1 <= d <= m)%Z -> is_usize m -> fits O m ->
    exists e ys, comb_into O p D k d m xs = Ok (e, ys) /\ length ys = length xs
      /\ forall n, (n < length xs)%nat ->
           let x := at_ (n_zero O) xs in
           at_ (n_zero O) ys n = stream D k (fun i => n_sub O (x i) (behind (n_zero O) x (Z.to_nat d) i)) n.
Proof.
  intros S K T D O p k d m xs Hs Hd Hm Hf. destruct (past_new O p Hs d m Hd Hm Hf) as [s0 [E0 H0]].
  destruct (slide_gen O p D Hs d m Hd xs s0 (after D [CSet k]) [] H0) as [e [ys [E [HL Hn]]]].
  exists e, ys. unfold comb_into. rewrite E0. cbn [bind]. split; [exact E|]. split; [exact HL|].
  intros n L. cbv zeta. set (x := at_ (n_zero O) xs). unfold at_ at 1. rewrite (Hn n L). cbv zeta. cbn [app].
  assert (B : forall i, (i <= n)%nat -> n_sub O (nth i xs (n_zero O)) (read_back (n_zero O) (Z.to_nat d) (firstn i xs))
                = n_sub O (x i) (behind (n_zero O) x (Z.to_nat d) i)) by (intros; unfold x; rewrite read_behind by lia; reflexivity).
  unfold stream. rewrite <- (B n) by lia.
  rewrite (fed_ext D _ (fun i => n_sub O (nth i xs (n_zero O)) (read_back (n_zero O) (Z.to_nat d) (firstn i xs)))
     (fun i => n_sub O (x i) (behind (n_zero O) x (Z.to_nat d) i)) n) by (intros; apply B; lia).
  reflexivity.
Qed.
(*@PROP
Example C120_comb_hyps : (1 <= n_size_of O64)%Z /\ (1 <= 2 <= 3)%Z /\ is_usize 3 /\ fits O64 3.
Proof. repeat split; easy. Qed.
@*)

(** ** The sum *)
Lemma behind_back (x : nat -> R) k n : behind 0 x k n = back k x n.
Proof. reflexivity. Qed.

Lemma back_back1 (x : nat -> R) k n : back 1 (fun i => back k x i) n = back (Datatypes.S k) x n.
Proof.
  unfold back. destruct n as [|n]; [destruct k; reflexivity|]. cbn [Nat.leb]. replace (Datatypes.S n - 1)%nat with n by lia.
  replace (Datatypes.S n - Datatypes.S k)%nat with (n - k)%nat by lia. reflexivity.
Qed.

Lemma last_sum_back1 x d n : back 1 (fun i => last_sum x d i) n = last_sum x d n - x n + back d x n.
Proof.
  induction d as [|d IH].
  - cbn [last_sum]. unfold back. rewrite Nat.sub_0_r. destruct n; cbn [Nat.leb]; ring.
  - cbn [last_sum]. rewrite <- (back_back1 x d n).
    assert (E : back 1 (fun i => last_sum x d i + back d x i) n = back 1 (fun i => last_sum x d i) n + back 1 (fun i => back d x i) n).
    { unfold back at 1 3 4. destruct n; cbn [Nat.leb]; [ring|reflexivity]. }
    rewrite E, IH. ring.
Qed.

(** The sums of the last [d] samples obey y[n] = (x[n] - x[n-d]) + y[n-1]. *)
Lemma last_sum_obeys x d : obeys (1, 0, 0, -1, 0) (fun i => x i - back d x i) (fun i => last_sum x d i).
Proof. intros n. rewrite last_sum_back1. ring. Qed.

Lemma last_sum_ext x x' d n : (forall i, (i <= n)%nat -> x i = x' i) -> last_sum x d n = last_sum x' d n.
Proof.
  intros H. induction d as [|d IH]; [reflexivity|]. cbn [last_sum]. rewrite IH. f_equal. unfold back.
  destruct (d <=? n)%nat; [apply H; lia|reflexivity].
Qed.

Lemma back_bound x M k n : 0 <= M -> (forall i, Rabs (x i) <= M) -> Rabs (back k x n) <= M.
Proof. intros HM H. unfold back. destruct (k <=? n)%nat; [apply H|rewrite Rabs_R0; exact HM]. Qed.

Lemma last_sum_bound x M d n : 0 <= M -> (forall i, Rabs (x i) <= M) -> Rabs (last_sum x d n) <= INR d * M.
Proof.
  intros HM H. induction d as [|d IH]; [cbn; rewrite Rabs_R0; lra|]. cbn [last_sum]. rewrite S_INR.
  assert (B := back_bound x M d n HM H). assert (T := Rabs_triang (last_sum x d n) (back d x n)). lra.
Qed.

(*@PROP
(** C120, exact arithmetic: the program computes the moving sums. *)
@*)
Lemma C120_moving_sum_thm :
  forall (p : profile) (d m : Z) (xs : list R),
    (1 <= d <= m)%Z -> is_usize m -> fits R_ops m ->
    exists e ys, moving_sum R_ops p d m xs = Ok (e, ys) /\ length ys = length xs
      /\ forall n, (n < length xs)%nat -> at_ 0 ys n = last_sum (at_ 0 xs) (Z.to_nat d) n.
Proof.
  intros p d m xs Hd Hm Hf.
  destruct (C120_comb_thm _ _ R (dev_one_pole R_ops) R_ops p (n_one R_ops, n_neg R_ops (n_one R_ops)) d m xs ltac:(cbn; lia) Hd Hm Hf)
    as [e [ys [E [HL Hn]]]].
  exists e, ys. split; [exact E|]. split; [exact HL|]. intros n L. cbn [n_zero R_ops] in Hn. rewrite (Hn n L). cbv zeta.
  cbn [n_sub n_one n_neg R_ops].
  assert (Ho := stream_obeys (dev_one_pole R_ops) (1, - (1)) (1, 0, 0, - (1), 0) (fun i => at_ 0 xs i - behind 0 (at_ 0 xs) (Z.to_nat d) i) (fe_one_pole _ _)).
  assert (Ho2 := last_sum_obeys (at_ 0 xs) (Z.to_nat d)).
  clear - Ho Ho2. induction n as [n IH] using lt_wf_ind. rewrite Ho, Ho2. rewrite !behind_back.
  unfold back. destruct n as [|n]; cbn [Nat.leb].
  - lra.
  - rewrite (IH (Datatypes.S n - 1)%nat) by lia. lra.
Qed.
(*@PROP
Example C120_moving_sum_hyps : (1 <= 2 <= 3)%Z /\ is_usize 3 /\ fits R_ops 3.
Proof. repeat split; easy. Qed.
@*)

(** ** Floating point *)
Lemma ieee_consts {T} (O : num_ops T) V : ieee O V ->
  (fin V (n_zero O) = true /\ val V (n_zero O) = 0) /\ (fin V (n_one O) = true /\ val V (n_one O) = 1)
  /\ (fin V (n_neg O (n_one O)) = true /\ val V (n_neg O (n_one O)) = -1) /\ (1 <= n_size_of O)%Z.
Proof.
  intros HO. destruct HO as [lm b|lm b]; (split; [split; reflexivity|]); (split; [split; [reflexivity|]|]);
    [cbn; unfold F2R; cbn; lra| |cbn; unfold F2R; cbn; lra|]; (split; [split; [reflexivity|cbn; unfold F2R; cbn; lra]|cbn; lia]).
Qed.

Lemma ieee_sub_exact {T} (O : num_ops T) V : ieee O V -> forall (a b : T) (q : Z), (-149 <= q <= 100)%Z ->
  fin V a = true -> fin V b = true -> fixed q (val V a) -> fixed q (val V b) -> Rabs (val V a - val V b) <= bpow radix2 (fprec V + q) ->
  fin V (n_sub O a b) = true /\ val V (n_sub O a b) = val V a - val V b.
Proof.
  intros HO. destruct HO as [lm bb|lm bb]; intros a b q Hq Fa Fb Ga Gb Hb.
  - destruct (ex_sub 24 128 q ltac:(unfold SpecFloat.emin; lia) ltac:(lia) a b _ _ (conj Fa (conj eq_refl Ga)) (conj Fb (conj eq_refl Gb)) Hb) as [G1 [G2 _]].
    split; assumption.
  - destruct (ex_sub 53 1024 q ltac:(unfold SpecFloat.emin; lia) ltac:(lia) a b _ _ (conj Fa (conj eq_refl Ga)) (conj Fb (conj eq_refl Gb)) Hb) as [G1 [G2 _]].
    split; assumption.
Qed.

(*@PROP
(** C120, [f32] and [f64]: for samples that are multiples of 2^q not exceeding [M], with
    (d + 2) M <= 2^(24 + q) (2^(53 + q) in [f64]), the moving sums are exact for ever: not one
    rounding error ever enters the accumulator. *)
@*)
Lemma C120_fixed_thm :
  forall (T : Type) (O : num_ops T) (V : float_view T), ieee O V ->
  forall (p : profile) (d m q : Z) (M : R) (xs : list T),
    (1 <= d <= m)%Z -> is_usize m -> fits O m -> (-149 <= q <= 100)%Z ->
    (forall x, In x xs -> fin V x = true /\ fixed q (val V x) /\ Rabs (val V x) <= M) ->
    (IZR d + 2) * M <= bpow radix2 (fprec V + q) ->
    exists e ys, moving_sum O p d m xs = Ok (e, ys) /\ length ys = length xs
      /\ forall n, (n < length xs)%nat ->
           fin V (at_ (n_zero O) ys n) = true
           /\ val V (at_ (n_zero O) ys n) = last_sum (fun i => val V (at_ (n_zero O) xs i)) (Z.to_nat d) n.
Proof.
  intros T O V HO p d m q M xs Hd Hm Hf Hq Hx HM.
  destruct (ieee_consts O V HO) as [[Z1 Z2] [[O1 O2] [[N1 N2] Hs]]].
  destruct (C120_comb_thm _ _ T (dev_one_pole O) O p (n_one O, n_neg O (n_one O)) d m xs Hs Hd Hm Hf) as [e [ys [E [HL Hn]]]].
  exists e, ys. split; [exact E|]. split; [exact HL|]. intros n L.
  assert (M0 : 0 <= M).
  { destruct xs as [|x0 xs]; [cbn in L; lia|]. eapply Rle_trans; [apply Rabs_pos|apply (Hx x0); left; reflexivity]. }
  rewrite (Hn n L). cbv zeta. set (x := at_ (n_zero O) xs). set (X := fun i => val V (x i)).
  assert (Hxi : forall i, fin V (x i) = true /\ fixed q (X i) /\ Rabs (X i) <= M).
  { intros i. unfold X, x, at_. destruct (nth_in_or_default i xs (n_zero O)) as [H| ->]; [apply Hx, H|].
    rewrite Z2, Rabs_R0. split; [exact Z1|]. split; [apply fx_0|exact M0]. }
  assert (Hbi : forall i, fin V (behind (n_zero O) x (Z.to_nat d) i) = true
     /\ val V (behind (n_zero O) x (Z.to_nat d) i) = back (Z.to_nat d) X i /\ fixed q (back (Z.to_nat d) X i)).
  { intros i. unfold behind, back. destruct (Z.to_nat d <=? i)%nat.
    - destruct (Hxi (i - Z.to_nat d)%nat) as [A [B _]]. auto.
    - split; [exact Z1|]. split; [exact Z2|apply fx_0]. }
  assert (HD : 1 <= IZR d) by (apply IZR_le; lia).
  assert (HbM : forall i, Rabs (back (Z.to_nat d) X i) <= M) by (intros i; apply back_bound; [exact M0|intros; apply Hxi]).
  assert (H2M : forall i, Rabs (X i - back (Z.to_nat d) X i) <= 2 * M).
  { intros i. assert (T1 := Rabs_triang (X i) (- back (Z.to_nat d) X i)). rewrite Rabs_Ropp in T1. unfold Rminus.
    assert (A := HbM i). assert (B := proj2 (proj2 (Hxi i))). lra. }
  assert (HM2 : 2 * M <= bpow radix2 (fprec V + q)).
  { eapply Rle_trans; [|exact HM]. apply Rmult_le_compat_r; [exact M0|lra]. }
  set (u := fun i => n_sub O (x i) (behind (n_zero O) x (Z.to_nat d) i)).
  assert (Hu : forall i, fin V (u i) = true /\ val V (u i) = X i - back (Z.to_nat d) X i).
  { intros i. destruct (Hxi i) as [A [B C]]. destruct (Hbi i) as [A2 [B2 C2]]. rewrite <- B2.
    apply (ieee_sub_exact O V HO) with (q := q); try assumption; [rewrite B2; exact C2|].
    rewrite B2. eapply Rle_trans; [apply H2M|exact HM2]. }
  destruct (C119_exact_thm T O V HO _ _ (dev_one_pole O) (n_one O, n_neg O (n_one O)) (n_one O, n_zero O, n_zero O, n_neg O (n_one O), n_zero O)
     (hc_one_pole O _ _) (conj O1 (conj Z1 (conj Z1 (conj N1 Z1)))) u (fun i => last_sum X (Z.to_nat d) i) 0 q n) with (n := n) as [G1 G2].
  - lia.
  - cbn [vals]. rewrite O2, N2, Z2. split; [exists 1%Z; cbn; ring|]. split; [apply fx_0|]. split; [apply fx_0|]. split; [exists (-1)%Z; cbn; ring|apply fx_0].
  - intros i. destruct (Hu i) as [A B]. split; [exact A|]. rewrite B. apply fx_sub; [apply Hxi|apply Hbi].
  - cbn [vals]. rewrite O2, N2, Z2. intros i. destruct (Hu i) as [_ B]. rewrite B.
    rewrite (last_sum_obeys X (Z.to_nat d) i). ring.
  - intros i Hi. cbn [vals swing]. rewrite O2, N2, Z2. destruct (Hu i) as [_ B]. rewrite B, !Rmult_0_l, Rabs_R0.
    replace (0 + q)%Z with q by ring. eapply Rle_trans; [|exact HM].
    replace (1 * (X i - back (Z.to_nat d) X i)) with (X i - back (Z.to_nat d) X i) by ring.
    replace (-1 * back 1 (fun i => last_sum X (Z.to_nat d) i) i) with (- back 1 (fun i => last_sum X (Z.to_nat d) i) i) by ring.
    rewrite Rabs_Ropp.
    assert (A := back_bound (fun i => last_sum X (Z.to_nat d) i) (INR (Z.to_nat d) * M) 1 i
      (Rmult_le_pos _ _ (pos_INR _) M0) (fun j => last_sum_bound X M (Z.to_nat d) j M0 (fun k => proj2 (proj2 (Hxi k))))).
    rewrite INR_IZR_INZ, Z2Nat.id in A by lia. assert (A2 := H2M i). lra.
  - apply Nat.le_refl.
  - split; [exact G1|exact G2].
Qed.
(*@PROP
(** 16-bit audio over 500 samples in [f32] (q = -15, M = 1). *)
Example C120_fixed_hyps :
  (1 <= 500 <= 500)%Z /\ is_usize 500 /\ fits O32 500 /\ (-149 <= -15 <= 100)%Z
  /\ fixed (-15) (val (ieee_view 24 128) (fl32 32767 (-15))) /\ Rabs (val (ieee_view 24 128) (fl32 32767 (-15))) <= 1
  /\ (500 + 2) * 1 <= bpow radix2 (24 + -15).
Proof.
  assert (E3 : B2R (fl32 32767 (-15)) = 32767 / 32768) by (lit; lra).
  split; [lia|]. split; [easy|]. split; [easy|]. split; [lia|]. cbn [val ieee_view]. rewrite E3.
  split; [exists 32767%Z; cbn; lra|]. split; [rewrite Rabs_pos_eq; lra|]. change (24 + -15)%Z with 9%Z. cbn. lra.
Qed.
@*)

(** ** The residue *)
Section Hold.
  Context (prec emax : Z) {Hp : Prec_gt_0 prec} {Hm : Prec_lt_emax prec emax}.
  Notation F := (binary_float prec emax).
  Lemma hold (one mone z y : F) : is_finite one = true -> is_finite mone = true -> is_finite z = true -> is_finite y = true ->
    B2R one = 1 -> B2R mone = -1 -> B2R z = 0 ->
    is_finite (f_sub prec emax (f_mul prec emax one z) (f_mul prec emax mone y)) = true
    /\ B2R (f_sub prec emax (f_mul prec emax one z) (f_mul prec emax mone y)) = B2R y.
  Proof.
    intros F1 F2 F3 F4 V1 V2 V3.
    assert (Gy : generic_format radix2 (SpecFloat.fexp prec emax) (Rabs (B2R y))) by (apply generic_format_abs, generic_format_B2R).
    assert (By : Rabs (B2R y) < bpow radix2 emax) by apply abs_B2R_lt_emax.
    destruct (mul_ok prec emax one z (Rabs (B2R y)) F1 F3 Gy By) as [A1 A2].
    { rewrite V1, V3, Rmult_0_r, Rabs_R0. apply Rabs_pos. }
    rewrite V1, V3, Rmult_0_r, round_0 in A2 by typeclasses eauto.
    destruct (mul_ok prec emax mone y (Rabs (B2R y)) F2 F4 Gy By) as [B1 B2].
    { rewrite V2. replace (-1 * B2R y) with (- B2R y) by ring. rewrite Rabs_Ropp. apply Rle_refl. }
    rewrite V2 in B2. replace (-1 * B2R y) with (- B2R y) in B2 by ring.
    rewrite RN_id in B2 by (apply generic_format_opp, generic_format_B2R).
    destruct (sub_ok prec emax (f_mul prec emax one z) (f_mul prec emax mone y) (Rabs (B2R y)) A1 B1 Gy By) as [C1 C2].
    { rewrite A2, B2. replace (0 - - B2R y) with (B2R y) by ring. apply Rle_refl. }
    split; [exact C1|]. rewrite C2, A2, B2. replace (0 - - B2R y) with (B2R y) by ring. apply RN_id, generic_format_B2R.
  Qed.
End Hold.

Lemma ieee_hold {T} (O : num_ops T) V : ieee O V -> forall (u : nat -> T) n,
  val V (u (Datatypes.S n)) = 0 -> fin V (u (Datatypes.S n)) = true ->
  let y := stream (dev_one_pole O) (n_one O, n_neg O (n_one O)) u in
  fin V (y n) = true -> fin V (y (Datatypes.S n)) = true /\ val V (y (Datatypes.S n)) = val V (y n).
Proof.
  intros HO u n Vu Fu y Fy. destruct (ieee_consts O V HO) as [_ [[O1 O2] [[N1 N2] _]]]. destruct HO as [lm b|lm b].
  - unfold y. rewrite (unroll_one_pole 24 128 (f32_ops lm b) eq_refl eq_refl eq_refl u). rewrite fb_SS, fb_0. apply (hold 24 128); assumption.
  - unfold y. rewrite (unroll_one_pole 53 1024 (f64_ops lm b) eq_refl eq_refl eq_refl u). rewrite fb_SS, fb_0. apply (hold 53 1024); assumption.
Qed.

Lemma ieee_zero_sub {T} (O : num_ops T) V : ieee O V -> fin V (n_sub O (n_zero O) (n_zero O)) = true /\ val V (n_sub O (n_zero O) (n_zero O)) = 0.
Proof. intros HO. destruct HO; split; reflexivity. Qed.

(*@PROP
(** C120, [f32] and [f64]: whatever is in the accumulator when the last [d] samples were silent
    stays there: after any input [us] the output holds its value through all further silence, so
    rounding errors, once made, are never forgotten. *)
@*)
Lemma C120_residue_thm :
  forall (T : Type) (O : num_ops T) (V : float_view T), ieee O V ->
  forall (p : profile) (d m : Z) (us : list T) (k : nat),
    (1 <= d <= m)%Z -> is_usize m -> fits O m ->
    exists e ys, moving_sum O p d m (us ++ repeat (n_zero O) (Z.to_nat d + k)) = Ok (e, ys)
      /\ length ys = (length us + Z.to_nat d + k)%nat
      /\ let n0 := (length us + Z.to_nat d - 1)%nat in
         (fin V (at_ (n_zero O) ys n0) = true ->
          forall n, (n0 <= n < length ys)%nat ->
            fin V (at_ (n_zero O) ys n) = true /\ val V (at_ (n_zero O) ys n) = val V (at_ (n_zero O) ys n0)).
Proof.
  intros T O V HO p d m us k Hd Hm Hf.
  destruct (ieee_consts O V HO) as [_ [_ [_ Hs]]].
  set (xs := us ++ repeat (n_zero O) (Z.to_nat d + k)).
  assert (LX : length xs = (length us + Z.to_nat d + k)%nat) by (unfold xs; rewrite app_length, repeat_length; lia).
  destruct (C120_comb_thm _ _ T (dev_one_pole O) O p (n_one O, n_neg O (n_one O)) d m xs Hs Hd Hm Hf) as [e [ys [E [HL Hn]]]].
  exists e, ys. split; [exact E|]. split; [lia|]. intros n0 H0 n [A B].
  assert (Hz : forall i, (length us <= i)%nat -> at_ (n_zero O) xs i = n_zero O).
  { intros i Hi. unfold at_, xs. rewrite app_nth2 by exact Hi. apply nth_repeat. }
  rewrite HL in B. revert B. induction A as [|n A IH]; intros B; [auto|].
  destruct (IH ltac:(lia)) as [I1 I2]. rewrite <- I2. clear IH I2.
  rewrite (Hn n) in * by lia. rewrite (Hn (Datatypes.S n)) by lia. cbv zeta in I1 |- *.
  apply (ieee_hold O V HO); [| |exact I1]; cbv beta.
  all: assert (EB : behind (n_zero O) (at_ (n_zero O) xs) (Z.to_nat d) (Datatypes.S n) = n_zero O)
    by (unfold behind; destruct (Z.to_nat d <=? Datatypes.S n)%nat; [apply Hz; unfold n0 in A; lia|reflexivity]).
  all: rewrite EB, Hz by (unfold n0 in A; lia); apply (ieee_zero_sub O V HO).
Qed.
(*@PROP
Example C120_residue_hyps : (1 <= 2 <= 3)%Z /\ is_usize 3 /\ fits O32 3.
Proof. repeat split; easy. Qed.

(** C120: so in general the moving sum is not forgetful, not even of samples that have long left
    the window: after 2^24, 1 and then silence an [f32] moving sum over two samples returns -1
    for ever, although the sum of the last two samples is 0. *)
@*)
Lemma C120_forgets_refuted_thm :
  forall (p : profile) (k : nat), exists e ys,
    let xs := [fl32 1 24; fl32 1 0] ++ repeat (n_zero O32) (2 + k) in
    moving_sum O32 p 2 2 xs = Ok (e, ys) /\ length ys = (4 + k)%nat
    /\ forall n, (3 <= n < 4 + k)%nat ->
         val (ieee_view 24 128) (at_ (n_zero O32) ys n) = -1
         /\ last_sum (fun i => val (ieee_view 24 128) (at_ (n_zero O32) xs i)) 2 n = 0.
Proof.
  intros p k.
  assert (Hf : fits O32 2) by easy. assert (Hu : is_usize 2) by easy.
  destruct (C120_residue_thm f32 O32 (ieee_view 24 128) (ieee_f32 _ _) p 2 2 [fl32 1 24; fl32 1 0] k ltac:(lia) Hu Hf)
    as [e [ys [E [HL Hn]]]].
  destruct (C120_comb_thm _ _ f32 (dev_one_pole O32) O32 p (n_one O32, n_neg O32 (n_one O32)) 2 2
     ([fl32 1 24; fl32 1 0] ++ repeat (n_zero O32) (Z.to_nat 2 + k)) ltac:(cbn; lia) ltac:(lia) Hu Hf) as [e' [ys' [E' [HL' Hn']]]].
  unfold moving_sum in E. rewrite E' in E. injection E as -> ->.
  exists e, ys. cbv zeta. split; [exact E'|]. split; [rewrite HL; reflexivity|].
  assert (G3 : at_ (n_zero O32) ys 3 = fl32 (-1) 0).
  { rewrite (Hn' 3%nat) by (rewrite <- HL', HL; cbn; lia). cbv zeta. apply B2SF_inj. vm_compute. reflexivity. }
  intros n A. cbv zeta in Hn. change (length [fl32 1 24; fl32 1 0] + Z.to_nat 2 - 1)%nat with 3%nat in Hn.
  rewrite G3 in Hn. specialize (Hn eq_refl n). rewrite HL in Hn. destruct (Hn ltac:(cbn; lia)) as [_ ->].
  split; [cbn [val ieee_view]; lit; lra|].
  assert (Hz : forall i, (2 <= i)%nat -> at_ (n_zero O32) ([fl32 1 24; fl32 1 0] ++ repeat (n_zero O32) (2 + k)) i = n_zero O32).
  { intros i Hi. unfold at_. rewrite app_nth2 by (cbn; lia). apply nth_repeat. }
  cbn [last_sum]. unfold back. destruct n as [|[|[|n]]]; try lia. cbn [Nat.leb].
  rewrite !Hz by lia. cbn. ring.
Qed.
