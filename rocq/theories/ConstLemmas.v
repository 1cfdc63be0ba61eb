(** Proof of C86: the constants of [FloatConst]. *)
From Coq Require Import ZArith QArith Qreals Reals Lra Lia Machin Ratan AltSeries.
From Flocq Require Import Core.Core IEEE754.BinarySingleNaN.
From Verif Require Import Base Num NumF FloatSpec FloatFacts.
Open Scope R_scope.

(*@PROP
(** Property C86: [FloatConst::pi] and [FloatConst::two]. *)
From Coq Require Import ZArith Reals.
From Flocq Require Import Core.Core IEEE754.BinarySingleNaN.
From Verif Require Import Base Num NumF FloatSpec ConstLemmas.
Open Scope R_scope.

@*)

(** ** Rational bounds for pi, from Machin's series. *)
Definition qterm (n : nat) : Q :=
  ((if Nat.even n then 1 else -1) * (2 * / inject_Z (3 ^ (2 * Z.of_nat n + 1)) + / inject_Z (7 ^ (2 * Z.of_nat n + 1)))
   * / inject_Z (2 * Z.of_nat n + 1))%Q.
Fixpoint qsum (n : nat) : Q := match n with O => Qred (qterm 0) | S k => Qred (qsum k + qterm (S k)) end.

Lemma Q2R_injZ z : Q2R (inject_Z z) = IZR z.
Proof. unfold Q2R, inject_Z. cbn. lra. Qed.

Lemma qterm_ok n : Q2R (qterm n) = tg_alt PI_2_3_7_tg n.
Proof.
  unfold qterm, tg_alt, PI_2_3_7_tg, Ratan_seq.
  assert (N0 : forall b, (0 < b)%Z -> IZR (b ^ (2 * Z.of_nat n + 1)) = IZR b ^ (2 * n + 1)).
  { intros b Hb. rewrite pow_IZR. f_equal. f_equal. lia. }
  assert (Nz : forall b, (0 < b)%Z -> ~ (inject_Z (b ^ (2 * Z.of_nat n + 1)) == 0)%Q).
  { intros b Hb E. unfold Qeq, inject_Z in E. cbn [Qnum Qden] in E.
    assert (G : (0 < b ^ (2 * Z.of_nat n + 1))%Z) by (apply Z.pow_pos_nonneg; lia).
    set (w := (b ^ (2 * Z.of_nat n + 1))%Z) in *. clearbody w. lia. }
  assert (Nd : ~ (inject_Z (2 * Z.of_nat n + 1) == 0)%Q) by (intros E; unfold Qeq, inject_Z in E; cbn [Qnum Qden] in E; lia).
  rewrite !Q2R_mult, Q2R_plus, Q2R_mult, !Q2R_inv by (first [exact Nd|apply Nz; lia]).
  rewrite !Q2R_injZ, !N0 by lia.
  assert (E1 : Q2R (if Nat.even n then 1 else -1) = (-1) ^ n).
  { clear. induction n as [|n IH]; [cbn; unfold Q2R; cbn; lra|].
    rewrite Nat.even_succ, <- Nat.negb_even. cbn [pow]. rewrite <- IH. destruct (Nat.even n); unfold Q2R; cbn; lra. }
  rewrite E1. assert (E2 : Q2R 2 = 2) by (unfold Q2R; cbn; lra). rewrite E2.
  assert (E3 : IZR (2 * Z.of_nat n + 1) = INR (2 * n + 1)) by (rewrite INR_IZR_INZ; f_equal; lia). rewrite E3.
  rewrite !pow_inv. unfold Rdiv. ring.
Qed.

Lemma qsum_ok n : Q2R (qsum n) = sum_f_R0 (tg_alt PI_2_3_7_tg) n.
Proof.
  induction n as [|n IH]; cbn [qsum sum_f_R0].
  - rewrite (Qeq_eqR _ _ (Qred_correct _)). apply qterm_ok.
  - rewrite (Qeq_eqR _ _ (Qred_correct _)), Q2R_plus, IH, qterm_ok. reflexivity.
Qed.

Lemma pi_bounds (lo hi : Q) N : Qle_bool lo (4 * qsum (S (2 * N))) = true -> Qle_bool (4 * qsum (2 * N)) hi = true ->
  Q2R lo <= PI <= Q2R hi.
Proof.
  intros H1 H2. apply Qle_bool_iff, Qle_Rle in H1. apply Qle_bool_iff, Qle_Rle in H2.
  rewrite Q2R_mult, qsum_ok in H1, H2. assert (G := PI_2_3_7_ineq N).
  assert (E : Q2R 4 = 4) by (unfold Q2R; cbn; lra). rewrite E in *. lra.
Qed.

(** Pi to 20 digits. *)
Lemma pi_20 : 314159265358979323846 / 100000000000000000000 <= PI <= 314159265358979323847 / 100000000000000000000.
Proof.
  assert (G := pi_bounds (314159265358979323846 # 100000000000000000000) (314159265358979323847 # 100000000000000000000) 11
    ltac:(vm_compute; reflexivity) ltac:(vm_compute; reflexivity)).
  unfold Q2R in G. cbn [Qnum Qden] in G. lra.
Qed.

Lemma pi_round prec emax {Hp : Prec_gt_0 prec} {Hm : Prec_lt_emax prec emax} (m : Z) :
  (2 <= prec)%Z -> (3 <= emax)%Z -> Rabs (PI - IZR m * bpow radix2 (2 - prec)) < bpow radix2 (1 - prec) ->
  round radix2 (SpecFloat.fexp prec emax) (round_mode mode_NE) PI = IZR m * bpow radix2 (2 - prec).
Proof.
  intros Hp2 He H. assert (B := pi_20).
  assert (Ec : cexp radix2 (SpecFloat.fexp prec emax) PI = (2 - prec)%Z).
  { unfold cexp. rewrite (mag_unique radix2 PI 2).
    - unfold SpecFloat.fexp, SpecFloat.emin. unfold Prec_lt_emax in Hm. lia.
    - cbn. rewrite Rabs_pos_eq by lra. lra. }
  unfold round. rewrite Ec. unfold F2R. cbn [Fnum Fexp]. f_equal. f_equal. cbn [round_mode].
  apply Znearest_imp. unfold scaled_mantissa. rewrite Ec.
  assert (P := bpow_gt_0 radix2 (2 - prec)).
  replace (PI * bpow radix2 (- (2 - prec)) - IZR m)
    with ((PI - IZR m * bpow radix2 (2 - prec)) * bpow radix2 (- (2 - prec))) by (rewrite bpow_opp; field; lra).
  rewrite Rabs_mult, (Rabs_pos_eq (bpow _ _)) by apply bpow_ge_0.
  apply Rmult_lt_reg_r with (bpow radix2 (2 - prec)); [exact P|].
  rewrite Rmult_assoc, <- bpow_plus. replace (- (2 - prec) + (2 - prec))%Z with 0%Z by lia.
  replace (1 - prec)%Z with (2 - prec + -1)%Z in H by lia. rewrite bpow_plus in H. cbn [bpow] in *. cbn in H. cbn. lra.
Qed.

Ltac lit := repeat match goal with |- context[B2R ?x] => rewrite <- (SF2R_B2SF _ _ x);
  let v := eval vm_compute in (B2SF x) in
  replace (B2SF x) with v by (vm_compute; reflexivity); cbn [SF2R cond_Zopp] end; unfold F2R.

Lemma pi32_val lm b : B2R (n_pi (f32_ops lm b)) = 13176795 * bpow radix2 (2 - 24).
Proof. lit. cbn. lra. Qed.
Lemma pi64_val lm b : B2R (n_pi (f64_ops lm b)) = 7074237752028440 * bpow radix2 (2 - 53).
Proof. lit. cbn. lra. Qed.

(** C86: in [f32] and in [f64], [T::pi()] is the number of the type nearest to pi
    (no other constant would be closer), and [T::two()] is exactly two. *)
Lemma C86_constants_thm :
  forall (T : Type) (O : num_ops T) (V : float_view T), ieee O V ->
    fin V (n_pi O) = true /\ val V (n_pi O) = rnd V PI
    /\ (forall y, fin V y = true -> Rabs (val V (n_pi O) - PI) <= Rabs (val V y - PI))
    /\ fin V (n_two O) = true /\ val V (n_two O) = 2.
Proof.
  intros T O V HO. assert (B := pi_20).
  assert (N : forall prec emax (Hp : Prec_gt_0 prec) (Hm : Prec_lt_emax prec emax) (p : binary_float prec emax),
    B2R p = round radix2 (SpecFloat.fexp prec emax) (round_mode mode_NE) PI ->
    forall y : binary_float prec emax, is_finite y = true -> Rabs (B2R p - PI) <= Rabs (B2R y - PI)).
  { intros prec emax Hp Hm p E y _. rewrite E.
    destruct (round_N_pt radix2 (SpecFloat.fexp prec emax) (fun x => negb (Z.even x)) PI) as [_ G].
    apply G. apply generic_format_B2R. }
  destruct HO.
  - destruct (of_Z_exact 24 128 2 ltac:(cbn; lia)) as [T1 T2].
    assert (E : B2R (n_pi (f32_ops lm b)) = round radix2 (SpecFloat.fexp 24 128) (round_mode mode_NE) PI).
    { rewrite pi32_val, (pi_round 24 128 13176795); [reflexivity|lia|lia|].
      apply Rabs_def1; cbn; lra. }
    split; [reflexivity|]. split; [exact E|]. split; [|split; [exact T1|exact T2]].
    intros y Fy. exact (N 24%Z 128%Z _ _ _ E y Fy).
  - destruct (of_Z_exact 53 1024 2 ltac:(cbn; lia)) as [T1 T2].
    assert (E : B2R (n_pi (f64_ops lm b)) = round radix2 (SpecFloat.fexp 53 1024) (round_mode mode_NE) PI).
    { rewrite pi64_val, (pi_round 53 1024 7074237752028440); [reflexivity|lia|lia|].
      apply Rabs_def1; cbn; lra. }
    split; [reflexivity|]. split; [exact E|]. split; [|split; [exact T1|exact T2]].
    intros y Fy. exact (N 53%Z 1024%Z _ _ _ E y Fy).
Qed.
(*@PROP
(** Both types of the library are covered. *)
Example C86_hyps : forall lm lm' b b',
  ieee (f32_ops lm b) (ieee_view 24 128) /\ ieee (f64_ops lm' b') (ieee_view 53 1024).
Proof. intros. split; constructor. Qed.
@*)
