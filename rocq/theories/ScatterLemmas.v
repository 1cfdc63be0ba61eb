(** Lemmas behind property C127.  The [@PROP] blocks are copied into [PropScatter.v]. *)
(*@PROP
(** Property C127: an FIR filter that writes ahead with [add_to].

    Vocabulary: [scatter], [piled] ([ScatterSpec]); [weighted], [convolved], [loudness]: the FIR filter of
    C121 and its exact value ([FirSpec]); [fixed q r]: [r] is a multiple of 2^q ([FixedSpec]);
    [dl_history], [timing_trusted] ([DelayRun]). *)
From Coq Require Import ZArith Reals List Bool Lia Lra.
From Flocq Require Import Core.Core IEEE754.BinarySingleNaN.
From Verif Require Import Base Num NumR NumF Witness FloatSpec Signal DelayM DelaySpec DelayRun DelayLemmas EchoSpec FixedSpec
  FltFilterLemmas FirSpec ScatterSpec ScatterLemmas.
Import ListNotations.
Open Scope Z_scope.

Ltac sane := repeat constructor; unfold op_sane, is_usize, op_usize; repeat split;
  try discriminate; try (intros; discriminate); easy.
Ltac history := unfold dl_history, is_usize; split; [easy|];
  split; [easy|]; split; [discriminate|]; split; [sane|];
  eexists; vm_compute; reflexivity.
@*)
From Coq Require Import ZArith Reals List Bool Lia Lra.
From Flocq Require Import Core.Core IEEE754.BinarySingleNaN.
From Verif Require Import Base BaseLemmas Num NumR NumF Witness FloatSpec FloatFacts Signal DelayM DelaySpec DelayRun DelayProofs DelayFacts DelayLemmas EchoSpec
  FltFilterSpec FltFilterFacts FltFilterLemmas LinRun FixedSpec FixedLemmas FirSpec FirLemmas LoopLemmas ScatterSpec.
Import ListNotations.
Open Scope Z_scope.

Section L.
  Context {T : Type} (O : num_ops T) (p : profile) (Hs : 1 <= n_size_of O).

  Lemma dl_snoc_any d m ops (s s' : delay T) op o : dl_history O p d m ops s -> op_sane op -> dl_step O p s op = Ok (s', o) ->
    dl_history O p d m (ops ++ [op]) s'.
  Proof.
    intros [H1 [H2 [H3 [H4 [os H5]]]]] Ho E.
    split; [exact H1|]. split; [exact H2|]. split; [exact H3|]. split.
    - apply Forall_app. split; [exact H4|]. repeat constructor; apply Ho.
    - unfold dl_session in *. apply bind_Ok in H5. destruct H5 as [s0 [En H5]]. exists (os ++ [o]). rewrite En. cbn [bind].
      clear - H5 E. revert s0 os H5. induction ops as [|op' ops IH]; intros s0 os H5.
      + cbn in H5. injection H5 as <- <-. cbn [app dl_run]. rewrite E. reflexivity.
      + cbn [app dl_run] in *. apply bind_Ok in H5. destruct H5 as [[s1 o'] [E1 H5]]. rewrite E1. cbn [bind].
        apply bind_Ok in H5. destruct H5 as [[s2 os'] [E2 H5]]. injection H5 as <- <-. rewrite (IH s1 os' E2). reflexivity.
  Qed.

  Lemma max_ex d m s D : good O p d m s D -> 1 <= D -> exists mx, delay_get_max_delay p s = Ok mx /\ D <= mx /\ mx < usize_max.
  Proof using Hs.
    intros HG HD. assert (HG' := HG). destruct HG' as [_ [ops [Hh Ht]]]. destruct (history_trusted O p Hs d m ops s Hh Ht) as [Hi Hl].
    assert (E := get_max_ok O p s Hs Hi). eexists. split; [exact E|]. split; [exact (delay_le_max O p Hs d m s D _ HG E HD)|].
    destruct Hi. assert (Q := max_slots_lt O Hs). unfold usize_max, two63, two64 in *. lia.
  Qed.

  Lemma add_one d m s D v t : good O p d m s D -> 0 <= t < D -> exists s' r old, delay_add_to O p s v t = Ok (s', r)
    /\ good O p d m s' D /\ delay_tap_out p s t = Ok old /\ delay_tap_out p s' t = Ok (n_add O old v)
    /\ forall u, 0 <= u < D -> u <> t -> delay_tap_out p s' u = delay_tap_out p s u.
  Proof using Hs.
    intros HG Ht. destruct (max_ex d m s D HG ltac:(lia)) as [mx [Em [Hle Hlt]]].
    destruct HG as [Hd [ops [Hh Htr]]].
    destruct (C14_add_to_edits_one_thm T O p d m ops s mx t v Hs Hh Em ltac:(lia)) as [s' [old [E0 [E [E1 [E2 [_ [Hd' _]]]]]]]].
    exists s', (n_add O old v), old. split; [exact E|]. split; [|split; [exact E0|split; [exact E1|intros u Hu Hne; apply E2; [lia|exact Hne]]]].
    split; [congruence|]. exists (ops ++ [DAddTo v t]). split.
    - apply (dl_snoc_any d m ops s s' _ (OSample (n_add O old v)) Hh); [split; [cbn; unfold is_usize, usize_max, two64 in *; lia|discriminate]|].
      cbn [dl_step]. rewrite E. reflexivity.
    - unfold timing_trusted in *. rewrite fold_left_app. cbn [fold_left]. exact Htr.
  Qed.

  (** What the inner loop does to the tap that will be output in [j] samples' time. *)
  Lemma strew_ok d m D x h : forall s k, good O p d m s D -> 0 <= k -> k + Z.of_nat (length h) <= D ->
    exists s', strew O p s D k h x = Ok s' /\ good O p d m s' D
      /\ forall j, 0 <= j < D -> exists old, delay_tap_out p s (D - 1 - j) = Ok old
           /\ delay_tap_out p s' (D - 1 - j)
              = Ok (if (k <=? j) && (j <? k + Z.of_nat (length h)) then n_add O old (n_mul O (nth (Z.to_nat (j - k)) h (n_zero O)) x) else old).
  Proof using Hs.
    induction h as [|a h IH]; intros s k HG Hk Hl.
    - exists s. split; [reflexivity|]. split; [exact HG|]. intros j Hj.
      destruct (add_one d m s D (n_zero O) (D - 1 - j) HG ltac:(lia)) as [_ [_ [old [_ [_ [E _]]]]]].
      exists old. split; [exact E|]. cbn [length]. destruct (Z.leb_spec k j), (Z.ltb_spec j (k + Z.of_nat 0)); cbn [andb]; try exact E. lia.
    - cbn [length] in Hl. destruct (add_one d m s D (n_mul O a x) (D - 1 - k) HG ltac:(lia)) as [s1 [r [old [E [HG1 [E0 [E1 E2]]]]]]].
      destruct (IH s1 (k + 1) HG1 ltac:(lia) ltac:(lia)) as [s' [E' [HG' H]]].
      exists s'. split; [cbn [strew]; rewrite E; exact E'|]. split; [exact HG'|]. intros j Hj.
      destruct (H j Hj) as [old' [A B]]. destruct (Z.eq_dec j k) as [->|Hne].
      + rewrite E1 in A. injection A as <-. exists old. split; [exact E0|]. rewrite B.
        destruct (Z.leb_spec (k + 1) k); [lia|]. cbn [andb]. destruct (Z.leb_spec k k); [|lia]. cbn [length].
        destruct (Z.ltb_spec k (k + Z.of_nat (S (length h)))); [|lia]. cbn [andb]. rewrite Z.sub_diag. reflexivity.
      + rewrite E2 in A by lia. exists old'. split; [exact A|]. rewrite B. cbn [length]. f_equal.
        destruct (Z.leb_spec (k + 1) j), (Z.leb_spec k j); try lia; cbn [andb]; [|reflexivity].
        destruct (Z.ltb_spec j (k + 1 + Z.of_nat (length h))), (Z.ltb_spec j (k + Z.of_nat (S (length h)))); try lia; [|reflexivity].
        do 2 f_equal. replace (Z.to_nat (j - k)) with (S (Z.to_nat (j - (k + 1)))) by lia. reflexivity.
  Qed.

  Lemma piled_past v h : forall k x n, (n < k)%nat -> piled O v k h x n = v.
  Proof.
    induction h as [|a h IH]; intros k x n Hn; [reflexivity|]. cbn [piled]. rewrite IH by lia.
    destruct (Nat.leb_spec k n); [lia|reflexivity].
  Qed.

  (** A first sample [x] can be put into the starting value. *)
  Lemma piled_shift v x (xs : nat -> T) n h : forall k, (k <= Datatypes.S n)%nat ->
    piled O v k h (fun i => match i with 0%nat => x | Datatypes.S i => xs i end) (Datatypes.S n)
    = piled O (if (Datatypes.S n - k <? length h)%nat then n_add O v (n_mul O (nth (Datatypes.S n - k) h (n_zero O)) x) else v) k h xs n.
  Proof.
    induction h as [|a h IH]; intros k Hk; [reflexivity|]. cbn [piled length]. destruct (Nat.eq_dec k (Datatypes.S n)) as [->|Hne].
    - rewrite !piled_past by lia. rewrite Nat.sub_diag. destruct (Nat.leb_spec (Datatypes.S n) (Datatypes.S n)); [|lia].
      destruct (Nat.leb_spec (Datatypes.S n) n); [lia|]. reflexivity.
    - rewrite IH by lia. destruct (Nat.leb_spec k (Datatypes.S n)); [|lia]. destruct (Nat.leb_spec k n); [|lia].
      replace (Datatypes.S n - k)%nat with (Datatypes.S (n - k)) by lia. cbn [Nat.sub nth].
      change (Datatypes.S (n - k) <? Datatypes.S (length h))%nat with (n - k <? length h)%nat. reflexivity.
  Qed.

  Lemma piled_ext v h (x x' : nat -> T) n : (forall i, (i <= n)%nat -> x i = x' i) -> forall k, piled O v k h x n = piled O v k h x' n.
  Proof.
    intros H. induction h as [|a h IH]; intros k; [reflexivity|]. cbn [piled]. rewrite IH, H by lia. reflexivity.
  Qed.

  Lemma scatter_run d m D h xs : 1 <= D -> Z.of_nat (length h) <= D -> forall s, good O p d m s D ->
    exists s' ys, scatter O p h s xs = Ok (s', ys) /\ length ys = length xs /\ delay_get_delay s' = D
      /\ forall n, (n < length xs)%nat -> exists v,
           (Z.of_nat n < D -> delay_tap_out p s (D - 1 - Z.of_nat n) = Ok v) /\ (D <= Z.of_nat n -> v = n_zero O)
           /\ at_ (n_zero O) ys n = piled O v 0 h (at_ (n_zero O) xs) n.
  Proof using Hs.
    intros HD Hl. induction xs as [|x xs IH]; intros s HG.
    - exists s, []. split; [reflexivity|]. split; [reflexivity|]. split; [apply HG|]. intros n Hn. cbn in Hn. lia.
    - destruct (strew_ok d m D x h s 0 HG ltac:(lia) ltac:(lia)) as [s1 [E1 [HG1 H1]]].
      destruct (LoopLemmas.round O p Hs d m s1 D (n_zero O) HG1 HD) as [y [s2 [Ey [Et [[o E2] [HG2 [T0 TS]]]]]]].
      assert (o = y).
      { destruct HG1 as [Hd1 [ops1 [Hh1 Ht1]]]. destruct (C12_next_out_predicts_thm T O p d m ops1 s1 Hs Hh1 ltac:(lia)) as [y' [A B]].
        destruct (B (n_zero O)) as [s'' C]. congruence. }
      subst o. destruct (IH s2 HG2) as [s' [ys [E3 [L3 [D3 H3]]]]]. exists s', (y :: ys). split.
      { cbn [scatter]. replace (delay_get_delay s) with D by (symmetry; apply HG). rewrite E1. cbn [bind]. rewrite E2. cbn [bind]. rewrite E3. reflexivity. }
      split; [cbn [length]; lia|]. split; [exact D3|]. intros [|n] Hn.
      + destruct (H1 0 ltac:(lia)) as [old [A B]]. exists old. split; [intros _; exact A|]. split; [cbn; lia|].
        rewrite Z.sub_0_r in B. rewrite Et in B. injection B as ->. cbn [at_ nth]. unfold at_. cbn [nth].
        destruct h as [|a h]; [reflexivity|]. cbn [length piled]. rewrite piled_past by lia. cbn [Nat.leb Nat.sub nth].
        destruct (Z.ltb_spec 0 (0 + Z.of_nat (Datatypes.S (length h)))); [|lia]. reflexivity.
      + cbn [length] in Hn. destruct (H3 n ltac:(lia)) as [v1 [A1 [B1 C1]]].
        assert (W : forall v, piled O v 0 h (at_ (n_zero O) (x :: xs)) (Datatypes.S n)
          = piled O (if (Datatypes.S n <? length h)%nat then n_add O v (n_mul O (nth (Datatypes.S n) h (n_zero O)) x) else v) 0 h (at_ (n_zero O) xs) n).
        { intros v. assert (Q := piled_shift v x (at_ (n_zero O) xs) n h 0 ltac:(lia)). rewrite Nat.sub_0_r in Q. rewrite <- Q.
          apply piled_ext. intros [|i] Hi; reflexivity. }
        change (at_ (n_zero O) (y :: ys) (Datatypes.S n)) with (at_ (n_zero O) ys n). rewrite C1.
        destruct (Z.lt_ge_cases (Z.of_nat (Datatypes.S n)) D) as [Lt|Ge].
        * destruct (H1 (Z.of_nat (Datatypes.S n)) ltac:(lia)) as [old [A B]]. exists old. split; [intros _; exact A|]. split; [lia|].
          rewrite W. f_equal. assert (Q := A1 ltac:(lia)).
          replace (D - 1 - Z.of_nat n) with (D - 1 - Z.of_nat (Datatypes.S n) + 1) in Q by lia. rewrite TS, B in Q by lia.
          rewrite Z.sub_0_r, Nat2Z.id, Z.add_0_l in Q. destruct (Z.leb_spec 0 (Z.of_nat (Datatypes.S n))) in Q; [|lia]. cbn [andb] in Q.
          destruct (Z.ltb_spec (Z.of_nat (Datatypes.S n)) (Z.of_nat (length h))) in Q; destruct (Nat.ltb_spec (Datatypes.S n) (length h)); try lia; congruence.
        * exists (n_zero O). split; [lia|]. split; [reflexivity|]. rewrite W. destruct (Nat.ltb_spec (Datatypes.S n) (length h)); [lia|]. f_equal.
          destruct (Z.eq_dec (Z.of_nat (Datatypes.S n)) D) as [Eq|Ne].
          -- assert (Q := A1 ltac:(lia)). replace (D - 1 - Z.of_nat n) with 0 in Q by lia. congruence.
          -- apply B1. lia.
  Qed.
End L.

(** C127: on a [Delay] with any history, write-ahead filtering never panics, and output [n] is, bit for bit
    and in every arithmetic, what the line already held for that moment plus the products of the coefficients
    with the recent input, the oldest sample's product added first. *)
Lemma C127_scatter_thm :
  forall (T : Type) (O : num_ops T) (p : profile) (d m : Z) (ops : list (dl_op Z T)) (s : delay T) (h xs : list T),
    1 <= n_size_of O -> dl_history O p d m ops s -> timing_trusted ops -> 1 <= delay_get_delay s ->
    let D := delay_get_delay s in Z.of_nat (length h) <= D ->
    exists s' ys, scatter O p h s xs = Ok (s', ys) /\ length ys = length xs /\ delay_get_delay s' = D
      /\ forall n, (n < length xs)%nat -> exists v,
           (Z.of_nat n < D -> delay_tap_out p s (D - 1 - Z.of_nat n) = Ok v) /\ (D <= Z.of_nat n -> v = n_zero O)
           /\ at_ (n_zero O) ys n = piled O v 0 h (at_ (n_zero O) xs) n.
Proof.
  intros T O p d m ops s h xs Hs Hh Ht HD D Hl.
  apply (scatter_run O p Hs d m D h xs HD Hl s). split; [reflexivity|exists ops; split; assumption].
Qed.
(*@PROP
(* a line holding 0, a, b (b newest) and two coefficients *)
Example C127_scatter_hyps (a b f g : f64) :
  exists s, dl_history O64 Debug 3 7 [DProcess a; DProcess b] s
    /\ timing_trusted (T := f64) [DProcess a; DProcess b] /\ delay_get_delay s = 3 /\ Z.of_nat (length [f; g]) <= 3.
Proof. eexists. split; [history|]. split; [reflexivity|]. split; [reflexivity|cbn; lia]. Qed.
@*)

(** C127: so a new [Delay::new(d, m)] with at most [d] coefficients is an FIR filter. *)
Lemma C127_new_thm :
  forall (T : Type) (O : num_ops T) (p : profile) (d m : Z) (h xs : list T),
    1 <= n_size_of O -> 1 <= d <= m -> is_usize m -> fits O m -> Z.of_nat (length h) <= d ->
    exists line s' ys, delay_new O p d m = Ok line /\ scatter O p h line xs = Ok (s', ys) /\ length ys = length xs
      /\ forall n, (n < length xs)%nat -> at_ (n_zero O) ys n = piled O (n_zero O) 0 h (at_ (n_zero O) xs) n.
Proof.
  intros T O p d m h xs Hs Hd Hm Hf Hl.
  assert (Hne : m <> usize_max).
  { assert (F := Hf). apply fits_iff in F; [|assumption]. pose proof (max_slots_lt O Hs). unfold usize_max, two63, two64 in *. lia. }
  assert (Hdu : is_usize d) by (unfold is_usize in *; lia).
  destruct (C07_delay_is_pure_delay_thm T O p d m [] Hs Hdu Hm Hf) as [s0 E0].
  assert (P0 : dl_history O p d m (map DProcess []) s0).
  { split; [exact Hdu|]. split; [exact Hm|]. split; [exact Hne|]. split; [constructor|]. eexists. exact E0. }
  unfold dl_session in E0. apply bind_Ok in E0. destruct E0 as [s1 [En E0]]. cbn [map dl_run] in E0. injection E0 as ->.
  assert (Ed : delay_get_delay s0 = d).
  { destruct (new_sane O p Hs d m s0 Hdu Hm Hne En) as [_ [_ [_ [_ Q]]]]. unfold delay_get_delay. lia. }
  exists s0. destruct (C127_scatter_thm T O p d m [] s0 h xs Hs P0 eq_refl ltac:(lia)) as [s' [ys [E [L [_ H]]]]]; [lia|].
  exists s', ys. split; [exact En|]. split; [exact E|]. split; [exact L|]. intros n Hn. destruct (H n Hn) as [v [A [B C]]].
  rewrite C. f_equal. rewrite Ed in *. destruct (Z.lt_ge_cases (Z.of_nat n) d) as [Lt|Ge]; [|apply B; lia].
  assert (Q := A Lt). rewrite (C13_tap_out_reads_back_thm T O p d m [] s0 _ Hs P0) in Q by lia. cbn [rev] in Q.
  destruct (Z.to_nat (d - 1 - Z.of_nat n)); cbn in Q; congruence.
Qed.
(*@PROP
Example C127_new_hyps : 1 <= n_size_of O32 /\ 1 <= 64 <= 100 /\ is_usize 100 /\ fits O32 100 /\ Z.of_nat (length (repeat (fl32 1 (-6)) 64)) <= 64.
Proof. repeat split; easy. Qed.
@*)

(** C127, exact arithmetic: the products add up to the convolution of the input with the coefficients. *)
Lemma C127_convolution_thm :
  forall (v : R) (h : list R) (x : signal) (n : nat), piled R_ops v 0 h x n = (v + convolved h 0 x n)%R.
Proof.
  intros v h x n. assert (G : forall k, piled R_ops v k h x n = (v + convolved h k x n)%R); [|apply G].
  induction h as [|a h IH]; intros k; cbn [piled convolved]; [ring|]. rewrite IH. unfold back.
  destruct (k <=? n)%nat; cbn [n_add n_mul R_ops]; ring.
Qed.

Section Float.
  Context (prec emax : Z) {Hp : Prec_gt_0 prec} {Hm : Prec_lt_emax prec emax} (Hm3 : (3 <= emax)%Z).
  Notation F := (binary_float prec emax).
  Notation V := (ieee_view prec emax).
  Notation u := (uro prec).
  Notation et := (eta prec emax).
  Context (Ops : num_ops F).
  Hypothesis Hadd : n_add Ops = f_add prec emax.
  Hypothesis Hmul : n_mul Ops = f_mul prec emax.
  Hypothesis Hzero : n_zero Ops = (B754_zero false : F).
  Open Scope R_scope.

  Lemma piled_near (x : nat -> F) n (Hx : forall i, is_finite (x i) = true) (N : nat) (Stot : R)
    (Hroom : (1 + u) ^ Datatypes.S N * (Stot + INR N * et) <= fmax V) :
    forall h k, (forall a, In a h -> is_finite a = true) -> (length h <= N)%nat ->
    loudness (map B2R h) k (fun i => B2R (x i)) n <= Stot ->
    near prec emax (Datatypes.S (length h)) (INR (length h)) (piled Ops (n_zero Ops) k h x n)
      (convolved (map B2R h) k (fun i => B2R (x i)) n) (loudness (map B2R h) k (fun i => B2R (x i)) n).
  Proof using Hm3 Hadd Hmul Hzero.
    assert (P := uro_pos prec). assert (E := eta_pos prec emax).
    set (X := fun i => B2R (x i)) in *.
    induction h as [|a h IH]; intros k Fh HN HS.
    - cbn [map loudness convolved length piled]. rewrite Hzero. apply near_zero.
    - cbn [map loudness convolved length piled] in *.
      assert (L0 := loudness_pos (map B2R h) (Datatypes.S k) X n).
      assert (T0 := Rabs_pos (B2R a * back k X n)).
      assert (Hy := IH (Datatypes.S k) (fun c Hc => Fh c (or_intror Hc)) ltac:(lia) ltac:(lra)).
      unfold back in *. destruct (Nat.leb_spec k n) as [Hk|Hk].
      + fold X in Hy. set (b := x (n - k)%nat) in *. change (X (n - k)%nat) with (B2R b) in *.
        assert (W1 : 1 <= (1 + u) ^ Datatypes.S N) by (apply pow_R1_Rle; lra).
        assert (EN : 0 <= INR N * et) by (apply Rmult_le_pos; [apply pos_INR|lra]).
        assert (Room1 : Stot + INR N * et <= fmax V).
        { eapply Rle_trans; [|exact Hroom]. rewrite <- (Rmult_1_l (Stot + INR N * et)) at 1. apply Rmult_le_compat_r; lra. }
        assert (Np : near prec emax 1 1 (n_mul Ops a b) (B2R a * B2R b) (Rabs (B2R a * B2R b))).
        { rewrite Hmul. apply (near_mul prec emax (fmax V)); [apply (SmoothF.MAX_fmt prec emax Hm3)|apply (SmoothF.MAX_lt prec emax)| | | |]; auto.
          - apply Fh. left. reflexivity.
          - apply Hx.
          - apply Rle_refl.
          - lra. }
        apply (near_mono prec emax 1 (Datatypes.S (length h))) in Np; [|lia|lra].
        rewrite (Rplus_comm (B2R a * B2R b)), (Rplus_comm (Rabs (B2R a * B2R b))), (S_INR (length h)), Hadd.
        apply (near_add prec emax (fmax V)); [apply (SmoothF.MAX_fmt prec emax Hm3)|apply (SmoothF.MAX_lt prec emax)| | | | |]; auto.
        * apply pos_INR.
        * lra.
        * eapply Rle_trans; [|exact Hroom]. rewrite <- S_INR. set (j := Datatypes.S (length h)) in *.
          assert (Hw : (1 + u) ^ j <= (1 + u) ^ Datatypes.S N) by (apply Rle_pow; [lra|lia]).
          assert (HI : INR j <= INR N) by (apply le_INR; lia). assert (HI0 := pos_INR j).
          assert (0 <= INR j * et) by (apply Rmult_le_pos; lra).
          assert (INR j * et <= INR N * et) by (apply Rmult_le_compat_r; lra).
          set (S1 := loudness (map B2R h) (Datatypes.S k) X n) in *. set (t := Rabs (B2R a * B2R b)) in *.
          replace ((1 + u) ^ j * (S1 + t) + INR j * (1 + u) ^ j * et) with ((1 + u) ^ j * (S1 + t + INR j * et)) by ring.
          apply Rmult_le_compat; [apply pow_le; lra|lra|exact Hw|lra].
      + rewrite Rmult_0_r, Rabs_R0, !Rplus_0_l. apply (near_mono prec emax (Datatypes.S (length h)) (Datatypes.S (Datatypes.S (length h)))) in Hy.
        * destruct Hy as [A [B C]]. split; [exact A|]. split; [exact B|]. eapply Rle_trans; [exact C|].
          apply Rplus_le_compat_l. rewrite (S_INR (length h)). rewrite !Rmult_assoc. apply Rmult_le_compat_r; [|lra].
          apply Rmult_le_pos; [apply pow_le; lra|lra].
        * lia.
        * apply pos_INR.
  Qed.

  Context (e : Z) (He : (SpecFloat.emin prec emax <= e)%Z) (He' : (prec + e < emax)%Z).
  Notation B := (bpow radix2 (prec + e)).

  Lemma piled_exact (p q : Z) (x : nat -> F) n : e = (p + q)%Z -> (forall i, is_finite (x i) = true /\ fixed q (B2R (x i))) ->
    forall h k, (forall a, In a h -> is_finite a = true /\ fixed p (B2R a)) ->
    loudness (map B2R h) k (fun i => B2R (x i)) n <= B ->
    ex prec emax e (piled Ops (n_zero Ops) k h x n) (convolved (map B2R h) k (fun i => B2R (x i)) n).
  Proof using Hadd Hmul Hzero He He'.
    intros Ee Hx. set (X := fun i => B2R (x i)) in *.
    induction h as [|a h IH]; intros k Fh HS; cbn [map loudness convolved piled] in *.
    - rewrite Hzero. apply ex_zero.
    - assert (L0 := loudness_pos (map B2R h) (Datatypes.S k) X n). assert (T0 := Rabs_pos (B2R a * back k X n)).
      assert (Hy := IH (Datatypes.S k) (fun c Hc => Fh c (or_intror Hc)) ltac:(lra)).
      assert (Cl := convolved_le (map B2R h) (Datatypes.S k) X n).
      unfold back in *. destruct (Nat.leb_spec k n) as [Hk|Hk].
      + set (b := x (n - k)%nat) in *. change (X (n - k)%nat) with (B2R b) in *. destruct (Hx (n - k)%nat) as [Fb Gb]. fold b in Fb, Gb.
        destruct (Fh a (or_introl eq_refl)) as [Fa Ga].
        assert (Tri := Rabs_triang (convolved (map B2R h) (Datatypes.S k) X n) (B2R a * B2R b)).
        rewrite (Rplus_comm (B2R a * B2R b)). rewrite Hadd, Hmul. apply ex_add; auto; [|lra]. apply ex_mul; auto; [rewrite Ee; apply fx_mul; assumption|lra].
      + rewrite Rmult_0_r, Rplus_0_l. exact Hy.
  Qed.
End Float.

(** C127, [f32] and [f64]: the N products are added with an error of at most
    ((1 + u)^(N+1) - 1) S + N (1 + u)^(N+1) eta, as in C121. *)
Lemma C127_accurate_thm :
  forall (T : Type) (O : num_ops T) (V : float_view T), ieee O V ->
  forall (h : list T) (x : nat -> T) (n : nat),
    (forall a, In a h -> fin V a = true) -> (forall i, fin V (x i) = true) ->
    let N := length h in
    let u := bpow radix2 (- fprec V) in
    let eta := (u * fmin V)%R in
    let X i := val V (x i) in
    let S := loudness (map (val V) h) 0 X n in
    ((1 + u) ^ (N + 1) * (S + INR N * eta) <= fmax V)%R ->
    fin V (piled O (n_zero O) 0 h x n) = true
    /\ (Rabs (val V (piled O (n_zero O) 0 h x n) - convolved (map (val V) h) 0 X n)
       <= ((1 + u) ^ (N + 1) - 1) * S + INR N * (1 + u) ^ (N + 1) * eta)%R.
Proof.
  intros T O V HO. destruct HO as [lm b|lm b]; intros h x n Fh Fx N u eta X S HR; rewrite Nat.add_1_r in *.
  - destruct (piled_near 24 128 ltac:(lia) (f32_ops lm b) eq_refl eq_refl eq_refl x n Fx N S HR h 0%nat Fh (le_n _) (Rle_refl _)) as [A [_ B]].
    split; [exact A|exact B].
  - destruct (piled_near 53 1024 ltac:(lia) (f64_ops lm b) eq_refl eq_refl eq_refl x n Fx N S HR h 0%nat Fh (le_n _) (Rle_refl _)) as [A [_ B]].
    split; [exact A|exact B].
Qed.
(*@PROP
(* two coefficients 1/2 on full-scale samples: S = 1 *)
Example C127_accurate_hyps :
  let V := ieee_view 24 128 in let h := [fl32 1 (-1); fl32 1 (-1)] in let x (_ : nat) := fl32 1 0 in
  (forall a, In a h -> fin V a = true) /\ (forall i, fin V (x i) = true)
  /\ (loudness (map (val V) h) 0 (fun i => val V (x i)) 5 = 1
      /\ (1 + bpow radix2 (-24)) ^ (2 + 1) * (1 + INR 2 * (bpow radix2 (-24) * fmin V)) <= fmax V)%R.
Proof.
  cbv zeta. split; [intros a Ha; cbn in Ha; intuition (subst; reflexivity)|]. split; [reflexivity|]. split.
  - cbn [map val ieee_view loudness]. unfold back. cbn [Nat.leb].
    assert (E1 : B2R (fl32 1 (-1)) = (1 / 2)%R) by (lit; lra). assert (E2 : B2R (fl32 1 0) = 1%R) by (lit; lra).
    rewrite E1, E2, !Rabs_pos_eq by lra. lra.
  - cbn [fmin fmax ieee_view]. assert (A : (bpow radix2 (-24) <= 1)%R) by (cbn; lra). assert (A0 := bpow_gt_0 radix2 (-24)).
    assert (B : (bpow radix2 (2 - 128) <= 1)%R) by (apply (bpow_le radix2 _ 0); lia). assert (B0 := bpow_gt_0 radix2 (2 - 128)).
    apply Rle_trans with (2 ^ 3 * (1 + 2 * (1 * 1)))%R.
    + apply Rmult_le_compat.
      * apply pow_le. lra.
      * assert (0 <= INR 2 * (bpow radix2 (-24) * bpow radix2 (2 - 128)))%R by (apply Rmult_le_pos; [apply pos_INR|apply Rmult_le_pos; lra]). lra.
      * apply pow_incr. lra.
      * apply Rplus_le_compat_l. apply Rmult_le_compat; [apply pos_INR|apply Rmult_le_pos; lra|cbn; lra|]. apply Rmult_le_compat; lra.
    + apply Rle_trans with (/ 2 * bpow radix2 8)%R; [cbn; lra|]. apply Rmult_le_compat; [lra|apply bpow_ge_0|cbn; lra|apply bpow_le; lia].
Qed.
@*)

(** C127: on fixed-point signals and coefficients the write-ahead filter and the tap-reading filter of C121
    return the same numbers. *)
Lemma C127_fixed_thm :
  forall (T : Type) (O : num_ops T) (V : float_view T), ieee O V ->
  forall (h0 : T) (h : list T) (x : nat -> T) (p q : Z) (n : nat), (-149 <= p + q <= 100)%Z ->
    (forall a, In a (h0 :: h) -> fin V a = true /\ fixed p (val V a)) ->
    (forall i, fin V (x i) = true /\ fixed q (val V (x i))) ->
    (loudness (map (val V) (h0 :: h)) 0 (fun i => val V (x i)) n <= bpow radix2 (fprec V + (p + q)))%R ->
    fin V (piled O (n_zero O) 0 (h0 :: h) x n) = true
    /\ val V (piled O (n_zero O) 0 (h0 :: h) x n) = convolved (map (val V) (h0 :: h)) 0 (fun i => val V (x i)) n
    /\ val V (piled O (n_zero O) 0 (h0 :: h) x n) = val V (weighted O h0 h x n).
Proof.
  intros T O V HO h0 h x p q n Hpq Hh Hx HS.
  destruct (C121_fixed_thm T O V HO h0 h x p q n Hpq Hh Hx HS) as [_ W]. rewrite W. clear W.
  assert (G : fin V (piled O (n_zero O) 0 (h0 :: h) x n) = true
    /\ val V (piled O (n_zero O) 0 (h0 :: h) x n) = convolved (map (val V) (h0 :: h)) 0 (fun i => val V (x i)) n); [|tauto].
  destruct HO as [lm b|lm b].
  - destruct (piled_exact 24 128 (f32_ops lm b) eq_refl eq_refl eq_refl (p + q)) with (p := p) (q := q) (x := x) (n := n) (h := h0 :: h) (k := 0%nat)
      as [A [B _]]; auto; unfold SpecFloat.emin; try lia.
  - destruct (piled_exact 53 1024 (f64_ops lm b) eq_refl eq_refl eq_refl (p + q)) with (p := p) (q := q) (x := x) (n := n) (h := h0 :: h) (k := 0%nat)
      as [A [B _]]; auto; unfold SpecFloat.emin; try lia.
Qed.
(*@PROP
(* 16-bit samples, coefficients 1/4 *)
Example C127_fixed_hyps :
  let V := ieee_view 24 128 in let x (_ : nat) := fl32 32767 (-15) in
  (-149 <= -2 + -15 <= 100)%Z /\ (forall a, In a [fl32 1 (-2); fl32 1 (-2)] -> fin V a = true /\ fixed (-2) (val V a))
  /\ (forall i, fin V (x i) = true /\ fixed (-15) (val V (x i)))
  /\ (loudness (map (val V) [fl32 1 (-2); fl32 1 (-2)]) 0 (fun i => val V (x i)) 5 <= bpow radix2 (24 + (-2 + -15)))%R.
Proof.
  cbv zeta. cbn [val fin ieee_view]. assert (E1 : B2R (fl32 1 (-2)) = (1 / 4)%R) by (lit; lra).
  assert (E2 : B2R (fl32 32767 (-15)) = (32767 / 32768)%R) by (lit; lra).
  split; [lia|]. split; [|split].
  - intros a Ha. cbn in Ha. assert (a = fl32 1 (-2)) as -> by intuition. split; [reflexivity|]. exists 1%Z. rewrite E1. cbn. lra.
  - intros _. split; [reflexivity|]. exists 32767%Z. rewrite E2. cbn. lra.
  - cbn [map loudness]. unfold back. cbn [Nat.leb]. rewrite E1, E2, !Rabs_pos_eq by lra. cbn. lra.
Qed.
@*)

(** C127: beyond fixed point the two programs are different filters: their sums are rounded in different
    orders. *)
Lemma C127_same_rounding_refuted_thm :
  ~ (forall (h0 : f32) (h : list f32) (x : nat -> f32) (n : nat),
       (forall a, In a (h0 :: h) -> a = fl32 1 0) -> (forall i, is_finite (x i) = true) ->
       B2R (piled O32 (n_zero O32) 0 (h0 :: h) x n) = B2R (weighted O32 h0 h x n)).
Proof.
  intros H. assert (Q := H (fl32 1 0) [fl32 1 0; fl32 1 0]
    (fun i => match i with 0%nat => fl32 1 24 | 1%nat => fl32 1 0 | _ => fl32 1 0 end) 2%nat).
  assert (Q' : B2R (fl32 1 24) = B2R (fl32 8388609 1)).
  { assert (E1 : piled O32 (n_zero O32) 0 [fl32 1 0; fl32 1 0; fl32 1 0] (fun i => match i with 0%nat => fl32 1 24 | 1%nat => fl32 1 0 | _ => fl32 1 0 end) 2
      = fl32 1 24) by (apply B2SF_inj; vm_compute; reflexivity).
    assert (E2 : weighted O32 (fl32 1 0) [fl32 1 0; fl32 1 0] (fun i => match i with 0%nat => fl32 1 24 | 1%nat => fl32 1 0 | _ => fl32 1 0 end) 2
      = fl32 8388609 1) by (apply B2SF_inj; vm_compute; reflexivity).
    rewrite E1, E2 in Q. apply Q.
    - intros a [<-|[<-|[<-|[]]]]; reflexivity.
    - intros [|[|i]]; reflexivity. }
  assert (A : B2R (fl32 1 24) = 16777216%R) by (lit; lra). assert (B : B2R (fl32 8388609 1) = 16777218%R) by (lit; lra).
  rewrite A, B in Q'. lra.
Qed.

