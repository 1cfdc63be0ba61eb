(** Lemmas behind property C112.  The [@PROP] blocks are copied into [PropSchroeder.v]. *)
(*@PROP
(** Property C112: Schroeder's all-pass section built from a [Delay].

    Vocabulary: [diffuser O p g d m xs] runs the section on the input [xs]
    ([SchroederSpec]); [at_ zero l n] is the [n]-th sample of the list [l] ([EchoSpec]);
    [behind zero x k n] is x[n - k], zero before the start ([LinRun]); [energy x n] is
    the sum of the squares of the first [n] samples ([EqSpec]); [feedback]: x + g v. *)
From Coq Require Import ZArith Reals List Bool Lia Lra.
From Flocq Require Import Core.Core IEEE754.BinarySingleNaN.
From Verif Require Import Base Num NumR NumF FloatSpec Witness DelayM DelaySpec DelayRun LinRun EchoSpec EqSpec SchroederSpec EchoLemmas SchroederLemmas.
Import ListNotations.
Open Scope R_scope.
@*)
From Coq Require Import ZArith Reals List Bool Lia Lra Arith.
From Flocq Require Import Core.Core IEEE754.BinarySingleNaN.
From Verif Require Import Base BaseLemmas Num NumR NumF FloatSpec FloatFacts AnaFacts DelayM DelaySpec DelayRun DelayProofs DelayFacts
  DelayLemmas LinRun Witness EchoSpec EchoLemmas EqSpec SchroederSpec.
Import ListNotations.
Open Scope R_scope.

Section Gen.
  Context {T : Type} (O : num_ops T) (p : profile) (g : T) (Hs : (1 <= n_size_of O)%Z) (d m : Z) (Hd : (1 <= d <= m)%Z).
  Notation zero := (n_zero O).
  Notation read := (read_back zero (Z.to_nat d)).

  Lemma next_read s ws : past_dl O d m s ws -> delay_next_out s = Ok (read ws).
  Proof using Hd.
    intros H. assert (G := hist_read O d m Hd s ws H). destruct H as [Hi [HL [HV HH]]].
    rewrite (refine_next O s Hi). f_equal. rewrite <- G. unfold line_next.
    change (l_lag (dl_abs s)) with (Z.to_nat (dl_lag s)). rewrite HL.
    replace (Z.to_nat d) with (Datatypes.S (Z.to_nat (d - 1))) by lia. reflexivity.
  Qed.

  Lemma diffuse_gen xs : forall s ws0, past_dl O d m s ws0 ->
    exists s' ws ys, diffuse O p g s xs = Ok (s', ys) /\ length ws = length xs /\ length ys = length xs
      /\ forall n, (n < length xs)%nat ->
           nth n ws zero = feedback O g (nth n xs zero) (read (ws0 ++ firstn n ws))
           /\ nth n ys zero = n_sub O (read (ws0 ++ firstn n ws)) (n_mul O g (nth n ws zero)).
  Proof using Hs Hd.
    induction xs as [|x xs IH]; intros s ws0 H.
    - exists s, [], []. cbn. repeat split; auto; lia.
    - cbn [diffuse]. rewrite (next_read s ws0 H). cbn [bind].
      change (n_add O x (n_mul O g (read ws0))) with (feedback O g x (read ws0)). set (w := feedback O g x (read ws0)).
      destruct (past_process O p Hs d m Hd s ws0 w H) as [s2 [o [E2 H2]]]. rewrite E2. cbn [bind].
      destruct (IH s2 _ H2) as [s' [ws [ys [E [HW [HY Hn]]]]]]. rewrite E. cbn [bind].
      exists s', (w :: ws), (n_sub O (read ws0) (n_mul O g w) :: ys). split; [reflexivity|].
      split; [cbn; lia|]. split; [cbn; lia|]. intros [|n] L; cbn [nth firstn].
      + rewrite app_nil_r. split; reflexivity.
      + cbn [length] in L. replace (ws0 ++ w :: firstn n ws) with ((ws0 ++ [w]) ++ firstn n ws) by (rewrite <- app_assoc; reflexivity).
        apply Hn. lia.
  Qed.
End Gen.

(*@PROP
(** C112: with [Delay::new(d, m)], 1 <= d <= m, the section never panics; in every
    arithmetic what it feeds the line and what it emits obey
    w[n] = x[n] + g w[n - d] and y[n] = w[n - d] - g w[n]. *)
@*)
Lemma C112_section_thm :
  forall (T : Type) (O : num_ops T) (p : profile) (g : T) (d m : Z) (xs : list T),
    (1 <= n_size_of O)%Z -> (1 <= d <= m)%Z -> is_usize m -> fits O m ->
    exists s ws ys, diffuser O p g d m xs = Ok (s, ys) /\ length ws = length xs /\ length ys = length xs
      /\ forall n, (n < length xs)%nat ->
           let v := behind (n_zero O) (at_ (n_zero O) ws) (Z.to_nat d) n in
           at_ (n_zero O) ws n = n_add O (at_ (n_zero O) xs n) (n_mul O g v)
           /\ at_ (n_zero O) ys n = n_sub O v (n_mul O g (at_ (n_zero O) ws n)).
Proof.
  intros T O p g d m xs Hs Hd Hm Hf. destruct (past_new O p Hs d m Hd Hm Hf) as [s0 [E0 H0]].
  destruct (diffuse_gen O p g Hs d m Hd xs s0 [] H0) as [s [ws [ys [E [HW [HY Hn]]]]]].
  exists s, ws, ys. unfold diffuser. rewrite E0. cbn [bind]. split; [exact E|]. split; [exact HW|]. split; [exact HY|].
  intros n L. destruct (Hn n L) as [A B]. cbn [app] in A, B. rewrite read_behind in A, B by lia.
  split; [exact A|exact B].
Qed.

(*@PROP
Example C112_section_hyps : (1 <= n_size_of O64)%Z /\ (1 <= 2 <= 3)%Z /\ is_usize 3 /\ fits O64 3.
Proof. repeat split; easy. Qed.
@*)

(** ** Energy *)
Lemma energy_ext x y n : (forall i, (i < n)%nat -> x i = y i) -> energy x n = energy y n.
Proof. induction n as [|n IH]; intros H; [reflexivity|]. cbn. rewrite IH, (H n) by auto. reflexivity. Qed.

Lemma energy_pos x n : 0 <= energy x n.
Proof. induction n as [|n IH]; cbn; [lra|]. assert (0 <= x n * x n) by apply Rle_0_sqr. lra. Qed.

Lemma energy_mono x n k : energy x n <= energy x (n + k).
Proof.
  induction k as [|k IH]; [rewrite Nat.add_0_r; lra|]. rewrite Nat.add_succ_r. cbn.
  assert (0 <= x (n + k)%nat * x (n + k)%nat) by apply Rle_0_sqr. lra.
Qed.

Lemma energy_behind w D n : energy (behind 0 w D) n = energy w (n - D).
Proof.
  induction n as [|n IH]; [reflexivity|]. cbn [energy]. rewrite IH. unfold behind.
  destruct (Nat.leb_spec D n).
  - replace (Datatypes.S n - D)%nat with (Datatypes.S (n - D)) by lia. reflexivity.
  - replace (Datatypes.S n - D)%nat with 0%nat by lia. replace (n - D)%nat with 0%nat by lia. cbn. ring.
Qed.

(** What is stored in the line. *)
Definition stored (D : nat) (w : nat -> R) (n : nat) : R := energy w n - energy w (n - D).

Lemma stored_pos D w n : 0 <= stored D w n.
Proof.
  unfold stored. destruct (Nat.le_gt_cases D n).
  - assert (G := energy_mono w (n - D) D). replace (n - D + D)%nat with n in G by lia. lra.
  - replace (n - D)%nat with 0%nat by lia. cbn. assert (G := energy_pos w n). lra.
Qed.

Section Energy.
  Variables (g : R) (D N : nat) (x w y : nat -> R).
  Hypothesis Hw : forall n, (n < N)%nat -> w n = x n + g * behind 0 w D n.
  Hypothesis Hy : forall n, (n < N)%nat -> y n = behind 0 w D n - g * w n.

  Lemma balance n : (n <= N)%nat -> energy x n - energy y n = (1 - g * g) * stored D w n.
  Proof.
    intros Hn. unfold stored. rewrite <- energy_behind. induction n as [|n IH]; [cbn; ring|].
    cbn [energy]. specialize (IH ltac:(lia)).
    replace (x n) with (w n - g * behind 0 w D n) by (rewrite (Hw n) at 1 by lia; ring). rewrite (Hy n) by lia.
    set (v := behind 0 w D n) in *.
    transitivity ((energy x n - energy y n) + (1 - g * g) * (w n * w n - v * v)); [ring|]. rewrite IH. ring.
  Qed.

  Lemma tail n0 : (forall n, (n0 <= n)%nat -> x n = 0) -> forall k, (n0 + k * D <= N)%nat ->
    stored D w (n0 + k * D) = g ^ (2 * k) * stored D w n0.
  Proof.
    intros H0 k. induction k as [|k IH]; intros Hk.
    - change (2 * 0)%nat with 0%nat. change (0 * D)%nat with 0%nat. cbn [pow]. rewrite Nat.add_0_r. ring.
    - set (n := (n0 + k * D)%nat). replace (n0 + Datatypes.S k * D)%nat with (n + D)%nat by (unfold n; lia).
      replace (g ^ (2 * Datatypes.S k)) with (g * g * g ^ (2 * k)).
      2:{ replace (2 * Datatypes.S k)%nat with (Datatypes.S (Datatypes.S (2 * k))) by lia. cbn. ring. }
      rewrite Rmult_assoc, <- IH by lia. fold n.
      assert (G : forall j, (j <= D)%nat -> energy w (n + j) - energy w n
                  = g * g * (energy (behind 0 w D) (n + j) - energy (behind 0 w D) n)).
      { induction j as [|j IHj]; intros Hj; [rewrite Nat.add_0_r; ring|].
        rewrite Nat.add_succ_r. cbn [energy]. specialize (IHj ltac:(lia)).
        rewrite (Hw (n + j)) by lia. rewrite H0 by (unfold n; lia). lra. }
      specialize (G D (Nat.le_refl _)). rewrite !energy_behind in G. unfold stored.
      replace (n + D - D)%nat with n in * by lia. exact G.
  Qed.
End Energy.

Lemma pow_even_le g k : Rabs g <= 1 -> 0 <= g ^ (2 * k) <= 1.
Proof.
  intros H. rewrite pow_mult. assert (0 <= g ^ 2 <= 1).
  { cbn. rewrite Rmult_1_r. split; [apply Rle_0_sqr|]. apply Rabs_le_inv in H.
    assert (0 <= (1 - g) * (1 + g)) by (apply Rmult_le_pos; lra). lra. }
  split; [apply pow_le; lra|]. replace 1 with (1 ^ k) by apply pow1. apply pow_incr. lra.
Qed.

(*@PROP
(** C112, exact arithmetic: the section is y[n] = -g x[n] + x[n - d] + g y[n - d], and for
    |g| <= 1 it is passive: at no time has it emitted more energy than it took in. *)
@*)
Lemma C112_passive_thm :
  forall (p : profile) (g : R) (d m : Z) (xs : list R),
    (1 <= d <= m)%Z -> is_usize m -> fits R_ops m ->
    exists s ys, diffuser R_ops p g d m xs = Ok (s, ys) /\ length ys = length xs
      /\ (forall n, (n < length xs)%nat ->
           at_ 0 ys n = - g * at_ 0 xs n + behind 0 (at_ 0 xs) (Z.to_nat d) n + g * behind 0 (at_ 0 ys) (Z.to_nat d) n)
      /\ (Rabs g <= 1 -> forall n, (n <= length xs)%nat -> energy (at_ 0 ys) n <= energy (at_ 0 xs) n).
Proof.
  intros p g d m xs Hd Hm Hf.
  destruct (C112_section_thm R R_ops p g d m xs ltac:(cbn; lia) Hd Hm Hf) as [s [ws [ys [E [HW [HY Hn]]]]]].
  cbn [n_add n_mul n_sub n_zero R_ops] in Hn. cbv zeta in Hn.
  exists s, ys. split; [exact E|]. split; [exact HY|]. split.
  - intros n L. destruct (Hn n L) as [A B]. rewrite B, A.
    unfold behind in *. destruct (Nat.leb_spec (Z.to_nat d) n) as [Q|Q].
    + destruct (Hn (n - Z.to_nat d)%nat ltac:(lia)) as [A2 B2]. rewrite B2.
      rewrite A2 at 1. ring.
    + ring.
  - intros Hg n L.
    assert (G := balance g (Z.to_nat d) (length xs) (at_ 0 xs) (at_ 0 ws) (at_ 0 ys)
      (fun n L => proj1 (Hn n L)) (fun n L => proj2 (Hn n L)) n L).
    assert (P := stored_pos (Z.to_nat d) (at_ 0 ws) n).
    assert (0 <= (1 - g * g) * stored (Z.to_nat d) (at_ 0 ws) n).
    { apply Rmult_le_pos; [|exact P]. assert (Q := pow_even_le g 1 Hg). cbn in Q. lra. }
    lra.
Qed.

(*@PROP
Example C112_passive_hyps : (1 <= 2 <= 3)%Z /\ is_usize 3 /\ fits R_ops 3 /\ Rabs (-7 / 10) <= 1.
Proof. repeat split; try easy. apply Rabs_le. lra. Qed.

(** C112: and lossless: an input [us] followed by k d samples of silence comes out with
    all of its energy except at most the fraction g^(2k). *)
@*)
Lemma C112_lossless_thm :
  forall (p : profile) (g : R) (d m : Z) (us : list R) (k : nat),
    (1 <= d <= m)%Z -> is_usize m -> fits R_ops m -> Rabs g <= 1 ->
    exists s ys, diffuser R_ops p g d m (us ++ repeat 0 (k * Z.to_nat d)) = Ok (s, ys)
      /\ length ys = (length us + k * Z.to_nat d)%nat
      /\ (1 - g ^ (2 * k)) * energy (at_ 0 us) (length us)
         <= energy (at_ 0 ys) (length ys) <= energy (at_ 0 us) (length us).
Proof.
  intros p g d m us k Hd Hm Hf Hg. set (D := Z.to_nat d). set (xs := us ++ repeat 0 (k * D)).
  assert (Lx : length xs = (length us + k * D)%nat) by (unfold xs; rewrite app_length, repeat_length; reflexivity).
  destruct (C112_section_thm R R_ops p g d m xs ltac:(cbn; lia) Hd Hm Hf) as [s [ws [ys [E [HW [HY Hn]]]]]].
  cbn [n_add n_mul n_sub n_zero R_ops] in Hn. cbv zeta in Hn. fold D in Hn.
  exists s, ys. split; [exact E|]. split; [congruence|].
  assert (Z0 : forall n, (length us <= n)%nat -> at_ 0 xs n = 0).
  { intros n L. unfold at_, xs. rewrite app_nth2 by exact L.
    destruct (Nat.lt_ge_cases (n - length us) (k * D)); [apply nth_repeat|apply nth_overflow; rewrite repeat_length; assumption]. }
  assert (Eu : energy (at_ 0 xs) (length us) = energy (at_ 0 us) (length us)).
  { apply energy_ext. intros i Hi. unfold at_, xs. apply app_nth1, Hi. }
  assert (Ex : forall j, energy (at_ 0 xs) (length us + j) = energy (at_ 0 us) (length us)).
  { induction j as [|j IH]; [rewrite Nat.add_0_r; exact Eu|]. rewrite Nat.add_succ_r. cbn [energy].
    rewrite IH, Z0 by lia. ring. }
  assert (B1 := balance g D (length xs) (at_ 0 xs) (at_ 0 ws) (at_ 0 ys)
      (fun n L => proj1 (Hn n L)) (fun n L => proj2 (Hn n L)) (length xs) (Nat.le_refl _)).
  assert (B2 := balance g D (length xs) (at_ 0 xs) (at_ 0 ws) (at_ 0 ys)
      (fun n L => proj1 (Hn n L)) (fun n L => proj2 (Hn n L)) (length us) ltac:(lia)).
  assert (Ht := tail g D (length xs) (at_ 0 xs) (at_ 0 ws) (at_ 0 ys) (fun n L => proj1 (Hn n L)) (fun n L => proj2 (Hn n L)) (length us) Z0 k ltac:(lia)).
  rewrite HY. rewrite Lx in B1 at 1 2 3. rewrite Lx. rewrite Ht, Ex in B1. rewrite Eu in B2.
  assert (P := energy_pos (at_ 0 ys) (length us)).
  destruct (pow_even_le g k Hg) as [P1 P2]. destruct (pow_even_le g 1 Hg) as [_ P3]. cbn in P3.
  set (c := (1 - g * g) * stored D (at_ 0 ws) (length us)) in *.
  replace ((1 - g * g) * (g ^ (2 * k) * stored D (at_ 0 ws) (length us))) with (g ^ (2 * k) * c) in B1 by (unfold c; ring).
  assert (P4 : 0 <= c) by (unfold c; apply Rmult_le_pos; [lra|apply stored_pos]).
  assert (0 <= g ^ (2 * k) * c) by (apply Rmult_le_pos; assumption).
  assert (g ^ (2 * k) * c <= g ^ (2 * k) * energy (at_ 0 us) (length us)) by (apply Rmult_le_compat_l; lra).
  split; lra.
Qed.

(*@PROP
Example C112_lossless_hyps : (1 <= 1051 <= 2000)%Z /\ is_usize 2000 /\ fits R_ops 2000 /\ Rabs (7 / 10) <= 1
  /\ 1 - (7 / 10) ^ (2 * 10) > 99 / 100.
Proof. repeat split; try easy. - apply Rabs_le. lra. - cbn. lra. Qed.
@*)

Section Emit.
  Context (prec emax : Z) {Hp : Prec_gt_0 prec} {Hm : Prec_lt_emax prec emax}.
  Let fx := SpecFloat.fexp prec emax.
  Local Notation F := (binary_float prec emax).

  Lemma emit_gen (g w v : F) G B Y :
    is_finite g = true -> generic_format radix2 fx G -> generic_format radix2 fx Y -> Y < bpow radix2 emax ->
    0 <= B -> Rabs (B2R g) * B <= G -> B + G <= Y ->
    is_finite w = true -> Rabs (B2R w) <= B -> is_finite v = true -> Rabs (B2R v) <= B ->
    is_finite (f_sub prec emax v (f_mul prec emax g w)) = true
    /\ Rabs (B2R (f_sub prec emax v (f_mul prec emax g w))) <= Y.
  Proof.
    intros Fg GG GY MY B0 HG HY Fw Bw Fv Bv.
    assert (P : Rabs (B2R g * B2R w) <= G).
    { rewrite Rabs_mult. eapply Rle_trans; [apply Rmult_le_compat_l; [apply Rabs_pos|exact Bw]|exact HG]. }
    destruct (mul_ok prec emax g w G Fg Fw GG ltac:(lra) P) as [Fm Em].
    assert (Pm : Rabs (B2R (f_mul prec emax g w)) <= G) by (rewrite Em; apply RN_abs_le; assumption).
    assert (Q : Rabs (B2R v - B2R (f_mul prec emax g w)) <= Y).
    { unfold Rminus. eapply Rle_trans; [apply Rabs_triang|]. rewrite Rabs_Ropp. lra. }
    destruct (sub_ok prec emax v (f_mul prec emax g w) Y Fv Fm GY MY Q) as [Fa Ea].
    split; [exact Fa|]. rewrite Ea. apply RN_abs_le; assumption.
  Qed.
End Emit.

Lemma emit_ok (T : Type) (O : num_ops T) (V : float_view T) (g w v : T) G B Y :
    ieee O V -> fin V g = true -> rnd V G = G -> rnd V Y = Y -> Y <= fmax V -> 0 <= B ->
    Rabs (val V g) * B <= G -> B + G <= Y ->
    fin V w = true -> Rabs (val V w) <= B -> fin V v = true -> Rabs (val V v) <= B ->
    fin V (n_sub O v (n_mul O g w)) = true /\ Rabs (val V (n_sub O v (n_mul O g w))) <= Y.
Proof.
  intros HO Fg RG RB MB X0 HG HX Fx Bx Fv Bv.
  destruct HO; cbn [fin val rnd fmax ieee_view] in *; cbn [n_sub n_mul f32_ops f64_ops]; apply (emit_gen _ _ g w v G B Y); try assumption.
  1,4: rewrite <- RG; apply generic_format_round; typeclasses eauto.
  1,3: rewrite <- RB; apply generic_format_round; typeclasses eauto.
  all: match type of MB with _ <= (1 - bpow radix2 ?a) * bpow radix2 ?b =>
         assert (0 < bpow radix2 a) by apply bpow_gt_0; assert (0 < bpow radix2 b) by apply bpow_gt_0; nra end.
Qed.

(*@PROP
(** C112, [f32] and [f64]: the section stays finite and within [Y] for ever if numbers [G],
    [B] and [Y] of the type leave room: |g| B <= G, X + G <= B and B + G <= Y. *)
@*)
Lemma C112_float_bound_thm :
  forall (T : Type) (O : num_ops T) (V : float_view T) (p : profile) (g : T) (d m : Z) (xs : list T) (X G B Y : R),
    ieee O V -> (1 <= d <= m)%Z -> is_usize m -> fits O m ->
    fin V g = true -> rnd V G = G -> rnd V B = B -> rnd V Y = Y -> 0 <= B <= fmax V -> Y <= fmax V ->
    Rabs (val V g) * B <= G -> X + G <= B -> B + G <= Y ->
    (forall x, In x xs -> fin V x = true /\ Rabs (val V x) <= X) ->
    exists s ys, diffuser O p g d m xs = Ok (s, ys) /\ length ys = length xs
      /\ forall y, In y ys -> fin V y = true /\ Rabs (val V y) <= Y.
Proof.
  intros T O V p g d m xs X G B Y HO Hd Hm Hf Fg RG RB RY [B0 MB] MY HG HX HBY HI.
  assert (Hs : (1 <= n_size_of O)%Z) by (destruct HO; cbn; lia).
  destruct (C112_section_thm T O p g d m xs Hs Hd Hm Hf) as [s [ws [ys [E [LW [LY N]]]]]]. cbv zeta in N.
  exists s, ys. split; [exact E|]. split; [exact LY|].
  assert (Z0 : fin V (n_zero O) = true /\ Rabs (val V (n_zero O)) <= B).
  { destruct HO; cbn; rewrite Rabs_R0; split; [reflexivity|exact B0|reflexivity|exact B0]. }
  assert (A : forall n, (n < length xs)%nat -> fin V (at_ (n_zero O) ws n) = true /\ Rabs (val V (at_ (n_zero O) ws n)) <= B).
  { intros n. induction n as [n IH] using lt_wf_ind. intros Hn. rewrite (proj1 (N n Hn)).
    destruct (HI (at_ (n_zero O) xs n) (nth_In _ _ Hn)) as [Fx Bx].
    assert (X0 : 0 <= X) by (eapply Rle_trans; [apply Rabs_pos|exact Bx]).
    destruct (Nat.leb_spec (Z.to_nat d) n) as [Q|Q]; unfold behind.
    - replace (Z.to_nat d <=? n)%nat with true by (symmetry; apply Nat.leb_le, Q).
      destruct (IH (n - Z.to_nat d)%nat ltac:(lia) ltac:(lia)) as [Fv Bv].
      apply (feedback_ok T O V g _ _ X G B); assumption.
    - replace (Z.to_nat d <=? n)%nat with false by (symmetry; apply Nat.leb_gt, Q). destruct Z0 as [Fv Bv].
      apply (feedback_ok T O V g _ _ X G B); assumption. }
  intros y Hy. destruct (In_nth ys y (n_zero O) Hy) as [n [Hn <-]]. rewrite LY in Hn.
  change (nth n ys (n_zero O)) with (at_ (n_zero O) ys n). rewrite (proj2 (N n Hn)).
  destruct (A n Hn) as [Fw Bw]. unfold behind. destruct (Nat.leb_spec (Z.to_nat d) n).
  - destruct (A (n - Z.to_nat d)%nat ltac:(lia)) as [Fv Bv]. apply (emit_ok T O V g _ _ G B Y); assumption.
  - destruct Z0 as [Fv Bv]. apply (emit_ok T O V g _ _ G B Y); assumption.
Qed.

(*@PROP
Example C112_float_bound_hyps :
  let g := fl32 1 (-1) in let V := ieee_view 24 128 in
  ieee O32 V /\ fin V g = true /\ rnd V 1 = 1 /\ rnd V 2 = 2 /\ rnd V 4 = 4 /\ 0 <= 2 <= fmax V /\ 4 <= fmax V
  /\ Rabs (val V g) * 2 <= 1 /\ 1 + 1 <= 2 /\ 2 + 1 <= 4 /\ (1 <= 3 <= 5)%Z /\ is_usize 5 /\ fits O32 5.
Proof.
  intros g V. unfold g, V. split; [constructor|]. split; [reflexivity|].
  split; [apply (rnd_bpow 24 128 0); easy|]. split; [apply (rnd_bpow 24 128 1); easy|].
  split; [apply (rnd_bpow 24 128 2); easy|].
  split. { cbn. lra. } split. { cbn. lra. }
  split. { unfold fl32. cbn. unfold F2R. cbn. rewrite Rabs_pos_eq; lra. }
  split; [lra|]. split; [lra|]. repeat split; easy.
Qed.
@*)
