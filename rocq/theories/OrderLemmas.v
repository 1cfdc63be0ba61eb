(** Lemmas behind property C118.  The [@PROP] blocks are copied into [PropOrder.v]. *)
(*@PROP
(** Property C118: filters that preserve the order of signals in [f32] and [f64], rounding
    included.

    Vocabulary: [below], [raised], [answers_below], [orderly], [sets_ok] ([OrderSpec]);
    [returns D before calls]: what the calls return after the calls [before] on a new object
    ([Device]); [stream D k x n]: what a new object configured with [k] returns for sample [n] of
    [x] ([FltFilterSpec]). *)
From Coq Require Import ZArith Reals List Bool Lra.
From Flocq Require Import Core.Core IEEE754.BinarySingleNaN.
From Verif Require Import Base Num NumF Witness FloatSpec FilterM RbjM AnalysisM Device FltFilterSpec FltFilterLemmas OrderSpec OrderLemmas.
Import ListNotations.
Open Scope R_scope.
@*)
From Coq Require Import ZArith Reals List Bool Lra Lia.
From Flocq Require Import Core.Core IEEE754.BinarySingleNaN.
From Verif Require Import Base Num NumF Witness FloatSpec FloatFacts FilterM RbjM AnalysisM Device FltFilterSpec OrderSpec.
Import ListNotations.
Open Scope R_scope.

(** ** Order-preserving devices *)
Record orders {T S K} (V : float_view T) (z : T) (D : device S K T) (ok : K -> Prop) (rel : S -> S -> Prop) : Prop := {
  o_new : rel (d_new D) (d_new D);
  o_set : forall s s' k, ok k -> rel s s' -> rel (d_set D s k) (d_set D s' k);
  o_process : forall s s' x x', rel s s' -> below V x x' ->
    rel (fst (d_process D s x)) (fst (d_process D s' x')) /\ below V (snd (d_process D s x)) (snd (d_process D s' x'));
  o_clear : forall s s', rel s s' -> rel (d_clear D s) (d_clear D s');
  o_last : forall s s', rel s s' -> below V (d_last_out D s) (d_last_out D s');
  o_rest : forall k x, ok k -> below V z x ->
    rel (d_set D (d_new D) k) (fst (d_process D (d_set D (d_new D) k) x))
}.

Lemma below_refl {T} (V : float_view T) x : below V x x.
Proof. intros _ _. apply Rle_refl. Qed.

Lemma order_run {T S K} (V : float_view T) z (D : device S K T) ok rel : orders V z D ok rel ->
  forall cs cs', Forall2 (raised V) cs cs' -> sets_ok ok cs -> forall s s', rel s s' ->
  rel (fst (d_run D s cs)) (fst (d_run D s' cs'))
  /\ Forall2 (answers_below V) (map snd (snd (d_run D s cs))) (map snd (snd (d_run D s' cs'))).
Proof.
  intros Ho cs cs' H. induction H as [|c c' cs cs' Hc H IH]; intros Hk s s' Hr; [split; [exact Hr|constructor]|].
  inversion Hk as [|? ? Hk1 Hk2]; subst. cbn [d_run].
  assert (G : rel (fst (d_step D s c)) (fst (d_step D s' c')) /\ answers_below V (snd (d_step D s c)) (snd (d_step D s' c'))).
  { destruct Hc as [c|x y Hxy].
    - destruct c as [x| |k|]; cbn [d_step].
      + destruct (o_process _ _ _ _ _ Ho s s' x x Hr (below_refl V x)) as [G1 G2].
        destruct (d_process D s x), (d_process D s' x). split; assumption.
      + split; [apply (o_clear _ _ _ _ _ Ho), Hr|exact I].
      + split; [apply (o_set _ _ _ _ _ Ho); assumption|exact I].
      + split; [exact Hr|apply (o_last _ _ _ _ _ Ho), Hr].
    - cbn [d_step]. destruct (o_process _ _ _ _ _ Ho s s' x y Hr Hxy) as [G1 G2].
      destruct (d_process D s x), (d_process D s' y). split; assumption. }
  destruct G as [G1 G2]. destruct (d_step D s c) as [s1 o], (d_step D s' c') as [s1' o']. cbn [fst snd] in *.
  destruct (IH Hk2 s1 s1' G1) as [I1 I2]. destruct (d_run D s1 cs) as [s2 l], (d_run D s1' cs') as [s2' l']. cbn [fst snd map] in *.
  split; [exact I1|]. constructor; assumption.
Qed.

Lemma order_rising {T S K} (V : float_view T) z (D : device S K T) ok rel : orders V z D ok rel ->
  forall k x, ok k -> below V z (x 0%nat) -> (forall n, below V (x n) (x (Datatypes.S n))) ->
  forall n, below V (stream D k x n) (stream D k x (Datatypes.S n)).
Proof.
  intros Ho k x Hk H0 Hx.
  assert (R : forall n, rel (fed D (after D [CSet k]) x n) (fed D (after D [CSet k]) x (Datatypes.S n))).
  { induction n as [|n IH].
    - cbn [fed]. exact (o_rest _ _ _ _ _ Ho k (x 0%nat) Hk H0).
    - cbn [fed] in *. exact (proj1 (o_process _ _ _ _ _ Ho _ _ _ _ IH (Hx n))). }
  intros n. unfold stream. exact (proj2 (o_process _ _ _ _ _ Ho _ _ _ _ (R n) (Hx n))).
Qed.

Section F.
  Context (prec emax : Z) {Hp : Prec_gt_0 prec} {Hm : Prec_lt_emax prec emax}.
  Context (pim pie sz : Z) (lm : libm (binary_float prec emax)) (nn : bool).
  Notation F := (binary_float prec emax).
  Notation O := (ieee_ops prec emax pim pie sz lm nn).
  Notation V := (ieee_view prec emax).
  Notation RN := (round radix2 (SpecFloat.fexp prec emax) (round_mode mode_NE)).
  Notation "a <=. b" := (@below F V a b) (at level 70).
  Notation fadd := (f_add prec emax). Notation fsub := (f_sub prec emax). Notation fmul := (f_mul prec emax).
  Notation z0 := (n_zero O).

  Lemma fin_add (x y : F) : is_finite (fadd x y) = true ->
    is_finite x = true /\ is_finite y = true /\ B2R (fadd x y) = RN (B2R x + B2R y).
  Proof.
    intros H. assert (Q : is_finite x = true /\ is_finite y = true).
    { destruct x as [s|s| |s m e Hb], y as [t|t| |t m' e' Hb']; try (split; reflexivity); try discriminate H.
      unfold f_add in H. cbn in H. destruct (Bool.eqb s t); discriminate H. }
    destruct Q as [Hx Hy]. split; [exact Hx|]. split; [exact Hy|].
    assert (G := Bplus_correct prec emax Hp Hm mode_NE x y Hx Hy).
    destruct (Rlt_bool _ _) in G; [unfold f_add; tauto|].
    destruct G as [G _]. unfold f_add in H. rewrite <- is_finite_SF_B2SF, G in H. cbn in H. discriminate.
  Qed.

  Lemma fin_sub (x y : F) : is_finite (fsub x y) = true ->
    is_finite x = true /\ is_finite y = true /\ B2R (fsub x y) = RN (B2R x - B2R y).
  Proof.
    intros H. assert (Q : is_finite x = true /\ is_finite y = true).
    { destruct x as [s|s| |s m e Hb], y as [t|t| |t m' e' Hb']; try (split; reflexivity); try discriminate H.
      unfold f_sub, Bminus in H. cbn in H. destruct (Bool.eqb s (negb t)); discriminate H. }
    destruct Q as [Hx Hy]. split; [exact Hx|]. split; [exact Hy|].
    assert (G := Bminus_correct prec emax Hp Hm mode_NE x y Hx Hy).
    destruct (Rlt_bool _ _) in G; [unfold f_sub; tauto|].
    destruct G as [G _]. unfold f_sub in H. rewrite <- is_finite_SF_B2SF, G in H. cbn in H. discriminate.
  Qed.

  Lemma fin_mul (x y : F) : is_finite (fmul x y) = true ->
    is_finite x = true /\ is_finite y = true /\ B2R (fmul x y) = RN (B2R x * B2R y).
  Proof.
    intros H. assert (Q : is_finite x = true /\ is_finite y = true).
    { destruct x as [s|s| |s m e Hb], y as [t|t| |t m' e' Hb']; try (split; reflexivity); try discriminate H. }
    destruct Q as [Hx Hy]. split; [exact Hx|]. split; [exact Hy|].
    assert (G := Bmult_correct prec emax Hp Hm mode_NE x y).
    destruct (Rlt_bool _ _) in G; [unfold f_mul; tauto|].
    unfold f_mul in H. rewrite <- is_finite_SF_B2SF, G in H. cbn in H. discriminate.
  Qed.

  Lemma b_add (a a' b b' : F) : a <=. a' -> b <=. b' -> fadd a b <=. fadd a' b'.
  Proof.
    intros H1 H2 F1 F2. cbn [fin val ieee_view] in *.
    destruct (fin_add _ _ F1) as [A1 [B1 ->]]. destruct (fin_add _ _ F2) as [A2 [B2 ->]].
    apply RN_le; try assumption. specialize (H1 A1 A2). specialize (H2 B1 B2). cbn [val ieee_view] in *. lra.
  Qed.

  Lemma b_sub (a a' b b' : F) : a <=. a' -> b' <=. b -> fsub a b <=. fsub a' b'.
  Proof.
    intros H1 H2 F1 F2. cbn [fin val ieee_view] in *.
    destruct (fin_sub _ _ F1) as [A1 [B1 ->]]. destruct (fin_sub _ _ F2) as [A2 [B2 ->]].
    apply RN_le; try assumption. specialize (H1 A1 A2). specialize (H2 B2 B1). cbn [val ieee_view] in *. lra.
  Qed.

  Lemma b_mul (c a a' : F) : 0 <= B2R c -> a <=. a' -> fmul c a <=. fmul c a'.
  Proof.
    intros Hc H1 F1 F2. cbn [fin val ieee_view] in *.
    destruct (fin_mul _ _ F1) as [A1 [B1 ->]]. destruct (fin_mul _ _ F2) as [A2 [B2 ->]].
    apply RN_le; try assumption. apply Rmult_le_compat_l; [exact Hc|]. exact (H1 B1 B2).
  Qed.

  Lemma b_mul_neg (c a a' : F) : B2R c <= 0 -> a <=. a' -> fmul c a' <=. fmul c a.
  Proof.
    intros Hc H1 F1 F2. cbn [fin val ieee_view] in *.
    destruct (fin_mul _ _ F1) as [A1 [B1 ->]]. destruct (fin_mul _ _ F2) as [A2 [B2 ->]].
    apply RN_le; try assumption. apply Rmult_le_compat_neg_l; [exact Hc|]. exact (H1 B2 B1).
  Qed.

  (** Not negative, and not positive. *)
  Lemma p_add (a b : F) : z0 <=. a -> z0 <=. b -> z0 <=. fadd a b.
  Proof.
    intros H1 H2 F1 F2. cbn [fin val ieee_view] in *. destruct (fin_add _ _ F2) as [A2 [B2 ->]].
    specialize (H1 eq_refl A2). specialize (H2 eq_refl B2). cbn in H1, H2 |- *.
    rewrite <- (RN_0 prec emax). apply RN_le; try assumption. lra.
  Qed.
  Lemma p_sub (a b : F) : z0 <=. a -> b <=. z0 -> z0 <=. fsub a b.
  Proof.
    intros H1 H2 F1 F2. cbn [fin val ieee_view] in *. destruct (fin_sub _ _ F2) as [A2 [B2 ->]].
    specialize (H1 eq_refl A2). specialize (H2 B2 eq_refl). cbn in H1, H2 |- *.
    rewrite <- (RN_0 prec emax). apply RN_le; try assumption. lra.
  Qed.
  Lemma p_mul (c a : F) : 0 <= B2R c -> z0 <=. a -> z0 <=. fmul c a.
  Proof.
    intros Hc H1 F1 F2. cbn [fin val ieee_view] in *. destruct (fin_mul _ _ F2) as [A2 [B2 ->]].
    specialize (H1 eq_refl B2). cbn in H1 |- *.
    rewrite <- (RN_0 prec emax). apply RN_le; try assumption. apply Rmult_le_pos; assumption.
  Qed.
  Lemma p_mul_neg (c a : F) : B2R c <= 0 -> z0 <=. a -> fmul c a <=. z0.
  Proof.
    intros Hc H1 F1 F2. cbn [fin val ieee_view] in *. destruct (fin_mul _ _ F1) as [A2 [B2 ->]].
    specialize (H1 eq_refl B2). cbn in H1 |- *.
    rewrite <- (RN_0 prec emax). apply RN_le; try assumption. assert (0 <= - B2R c * B2R a) by (apply Rmult_le_pos; lra). lra.
  Qed.

  Lemma one_pos : 0 <= B2R (n_one O).
  Proof. cbn [n_one ieee_ops]. rewrite (proj1 (fone_correct prec emax)). lra. Qed.
  Lemma zero_le : 0 <= B2R z0.
  Proof. apply Rle_refl. Qed.
  Lemma zero_ge : B2R z0 <= 0.
  Proof. apply Rle_refl. Qed.
  Lemma z_refl : z0 <=. z0.
  Proof. apply below_refl. Qed.

  Ltac side := first [assumption | apply one_pos | apply zero_le | apply zero_ge].
  Ltac stp := first [assumption | apply below_refl | apply one_pos | apply zero_le | apply zero_ge | reflexivity
    | apply b_add | apply b_sub | apply b_mul; [side|] | apply b_mul_neg; [side|]
    | apply p_add | apply p_sub | apply p_mul; [side|] | apply p_mul_neg; [side|]].
  Ltac go := repeat stp.

  Definition rel_op (s s' : one_pole F) : Prop :=
    op_b0 s = op_b0 s' /\ op_a1 s = op_a1 s' /\ 0 <= B2R (op_b0 s') /\ B2R (op_a1 s') <= 0 /\ op_y_z1 s <=. op_y_z1 s'.
  Lemma ord_one_pole : orders V z0 (dev_one_pole O) (fun '(b0, a1) => 0 <= B2R b0 /\ B2R a1 <= 0) rel_op.
  Proof.
    constructor.
    - repeat split; cbn; go.
    - intros [y b0 a1] [y' b0' a1'] [k0 k1] [K0 K1] (E1 & E2 & P1 & P2 & L). repeat split; cbn in *; go.
    - intros [y b0 a1] [y' b0' a1'] x x' (E1 & E2 & P1 & P2 & L) Hx. cbn in *. subst.
      assert (Y : fsub (fmul b0' x) (fmul a1' y) <=. fsub (fmul b0' x') (fmul a1' y')) by go.
      split; [repeat split; cbn; assumption|exact Y].
    - intros [y b0 a1] [y' b0' a1'] (E1 & E2 & P1 & P2 & L). repeat split; cbn in *; go.
    - intros [y b0 a1] [y' b0' a1'] (E1 & E2 & P1 & P2 & L). exact L.
    - intros [k0 k1] x [K0 K1] Hx. cbn. repeat split; cbn; go.
  Qed.

  Definition rel_oz (s s' : one_zero F) : Prop :=
    oz_b0 s = oz_b0 s' /\ oz_b1 s = oz_b1 s' /\ 0 <= B2R (oz_b0 s') /\ 0 <= B2R (oz_b1 s')
    /\ oz_x_z1 s <=. oz_x_z1 s' /\ oz_output s <=. oz_output s'.
  Lemma ord_one_zero : orders V z0 (dev_one_zero O) (fun '(b0, b1) => 0 <= B2R b0 /\ 0 <= B2R b1) rel_oz.
  Proof.
    constructor.
    - repeat split; cbn; go.
    - intros [x1 y b0 b1] [x1' y' b0' b1'] [k0 k1] [K0 K1] (E1 & E2 & P1 & P2 & L & M). repeat split; cbn in *; go.
    - intros [x1 y b0 b1] [x1' y' b0' b1'] x x' (E1 & E2 & P1 & P2 & L & M) Hx. cbn in *. subst.
      assert (Y : fadd (fmul b0' x) (fmul b1' x1) <=. fadd (fmul b0' x') (fmul b1' x1')) by go.
      split; [repeat split; cbn; assumption|exact Y].
    - intros [x1 y b0 b1] [x1' y' b0' b1'] (E1 & E2 & P1 & P2 & L & M). repeat split; cbn in *; go.
    - intros [x1 y b0 b1] [x1' y' b0' b1'] (E1 & E2 & P1 & P2 & L & M). exact M.
    - intros [k0 k1] x [K0 K1] Hx. cbn. repeat split; cbn; go.
  Qed.

  Definition rel_tp (s s' : two_pole F) : Prop :=
    tp_b0 s = tp_b0 s' /\ tp_a1 s = tp_a1 s' /\ tp_a2 s = tp_a2 s'
    /\ 0 <= B2R (tp_b0 s') /\ B2R (tp_a1 s') <= 0 /\ B2R (tp_a2 s') <= 0
    /\ tp_y_z1 s <=. tp_y_z1 s' /\ tp_y_z2 s <=. tp_y_z2 s'.
  Lemma ord_two_pole : orders V z0 (dev_two_pole O) (fun '(b0, a1, a2) => 0 <= B2R b0 /\ B2R a1 <= 0 /\ B2R a2 <= 0) rel_tp.
  Proof.
    constructor.
    - repeat split; cbn; go.
    - intros [y z b0 a1 a2] [y' z' b0' a1' a2'] [[k0 k1] k2] (K0 & K1 & K2) (E1 & E2 & E3 & P1 & P2 & P3 & L & M). repeat split; cbn in *; go.
    - intros [y z b0 a1 a2] [y' z' b0' a1' a2'] x x' (E1 & E2 & E3 & P1 & P2 & P3 & L & M) Hx. cbn in *. subst.
      assert (Y : fsub (fsub (fmul b0' x) (fmul a1' y)) (fmul a2' z) <=. fsub (fsub (fmul b0' x') (fmul a1' y')) (fmul a2' z')) by go.
      split; [repeat split; cbn; assumption|exact Y].
    - intros [y z b0 a1 a2] [y' z' b0' a1' a2'] (E1 & E2 & E3 & P1 & P2 & P3 & L & M). repeat split; cbn in *; go.
    - intros [y z b0 a1 a2] [y' z' b0' a1' a2'] (E1 & E2 & E3 & P1 & P2 & P3 & L & M). exact L.
    - intros [[k0 k1] k2] x (K0 & K1 & K2) Hx. cbn. repeat split; cbn; go.
  Qed.

  Definition rel_tz (s s' : two_zero F) : Prop :=
    tz_b0 s = tz_b0 s' /\ tz_b1 s = tz_b1 s' /\ tz_b2 s = tz_b2 s'
    /\ 0 <= B2R (tz_b0 s') /\ 0 <= B2R (tz_b1 s') /\ 0 <= B2R (tz_b2 s')
    /\ tz_x_z1 s <=. tz_x_z1 s' /\ tz_x_z2 s <=. tz_x_z2 s' /\ tz_output s <=. tz_output s'.
  Lemma ord_two_zero : orders V z0 (dev_two_zero O) (fun '(b0, b1, b2) => 0 <= B2R b0 /\ 0 <= B2R b1 /\ 0 <= B2R b2) rel_tz.
  Proof.
    constructor.
    - repeat split; cbn; go.
    - intros [y z o b0 a1 a2] [y' z' o' b0' a1' a2'] [[k0 k1] k2] (K0 & K1 & K2) (E1 & E2 & E3 & P1 & P2 & P3 & L & M & N). repeat split; cbn in *; go.
    - intros [y z o b0 a1 a2] [y' z' o' b0' a1' a2'] x x' (E1 & E2 & E3 & P1 & P2 & P3 & L & M & N) Hx. cbn in *. subst.
      assert (Y : fadd (fadd (fmul b0' x) (fmul a1' y)) (fmul a2' z) <=. fadd (fadd (fmul b0' x') (fmul a1' y')) (fmul a2' z')) by go.
      split; [repeat split; cbn; assumption|exact Y].
    - intros [y z o b0 a1 a2] [y' z' o' b0' a1' a2'] (E1 & E2 & E3 & P1 & P2 & P3 & L & M & N). repeat split; cbn in *; go.
    - intros [y z o b0 a1 a2] [y' z' o' b0' a1' a2'] (E1 & E2 & E3 & P1 & P2 & P3 & L & M & N). exact N.
    - intros [[k0 k1] k2] x (K0 & K1 & K2) Hx. cbn. repeat split; cbn; go.
  Qed.

  Definition rel_b1 (s s' : biquad1 F) : Prop :=
    (b1_b0 s = b1_b0 s' /\ b1_b1 s = b1_b1 s' /\ b1_b2 s = b1_b2 s' /\ b1_a1 s = b1_a1 s' /\ b1_a2 s = b1_a2 s')
    /\ pushing V (b1_b0 s', b1_b1 s', b1_b2 s', b1_a1 s', b1_a2 s')
    /\ (b1_x_z1 s <=. b1_x_z1 s' /\ b1_x_z2 s <=. b1_x_z2 s' /\ b1_y_z1 s <=. b1_y_z1 s' /\ b1_y_z2 s <=. b1_y_z2 s').
  Lemma ord_biquad1 : orders V z0 (dev_biquad1 O) (pushing V) rel_b1.
  Proof.
    constructor.
    - repeat split; cbn; go.
    - intros [x1 x2 y1 y2 b0 b1 b2 a1 a2] [x1' x2' y1' y2' b0' b1' b2' a1' a2'] [[[[k0 k1] k2] k3] k4] (K0 & K1 & K2 & K3 & K4) (E & P & L1 & L2 & L3 & L4).
      repeat split; cbn in *; go.
    - intros [x1 x2 y1 y2 b0 b1 b2 a1 a2] [x1' x2' y1' y2' b0' b1' b2' a1' a2'] x x' ((E0 & E1 & E2 & E3 & E4) & (P0 & P1 & P2 & P3 & P4) & L1 & L2 & L3 & L4) Hx.
      cbn in *. subst.
      assert (Y : fsub (fsub (fadd (fadd (fmul b0' x) (fmul b1' x1)) (fmul b2' x2)) (fmul a1' y1)) (fmul a2' y2)
        <=. fsub (fsub (fadd (fadd (fmul b0' x') (fmul b1' x1')) (fmul b2' x2')) (fmul a1' y1')) (fmul a2' y2')) by go.
      split; [repeat split; cbn; assumption|exact Y].
    - intros [x1 x2 y1 y2 b0 b1 b2 a1 a2] [x1' x2' y1' y2' b0' b1' b2' a1' a2'] (E & P & L1 & L2 & L3 & L4).
      split; [exact E|]. split; [exact P|]. repeat split; cbn; go.
    - intros [x1 x2 y1 y2 b0 b1 b2 a1 a2] [x1' x2' y1' y2' b0' b1' b2' a1' a2'] (E & P & L1 & L2 & L3 & L4). exact L3.
    - intros [[[[k0 k1] k2] k3] k4] x (K0 & K1 & K2 & K3 & K4) Hx. cbn in *. repeat split; cbn; go.
  Qed.

  Definition rel_b2 (s s' : biquad2 F) : Prop :=
    (b2_b0 s = b2_b0 s' /\ b2_b1 s = b2_b1 s' /\ b2_b2 s = b2_b2 s' /\ b2_a1 s = b2_a1 s' /\ b2_a2 s = b2_a2 s')
    /\ pushing V (b2_b0 s', b2_b1 s', b2_b2 s', b2_a1 s', b2_a2 s')
    /\ (b2_z1 s <=. b2_z1 s' /\ b2_z2 s <=. b2_z2 s' /\ b2_output s <=. b2_output s').

  Lemma b2_step s s' x x' : rel_b2 s s' -> x <=. x' ->
    rel_b2 (fst (biquad2_process O s x)) (fst (biquad2_process O s' x')) /\ snd (biquad2_process O s x) <=. snd (biquad2_process O s' x').
  Proof.
    destruct s as [z1 z2 o b0 b1 b2 a1 a2], s' as [z1' z2' o' b0' b1' b2' a1' a2'].
    intros ((E0 & E1 & E2 & E3 & E4) & (P0 & P1 & P2 & P3 & P4) & L1 & L2 & L3) Hx. cbn in *. subst.
    assert (Y : fadd (fmul b0' x) z1 <=. fadd (fmul b0' x') z1') by go.
    split; [|exact Y]. repeat split; cbn; go.
  Qed.
  Lemma b2_rest k0 k1 k2 k3 k4 x : pushing V (k0, k1, k2, k3, k4) -> z0 <=. x ->
    rel_b2 (Biquad2 z0 z0 z0 k0 k1 k2 k3 k4) (fst (biquad2_process O (Biquad2 z0 z0 z0 k0 k1 k2 k3 k4) x)).
  Proof. intros (K0 & K1 & K2 & K3 & K4) Hx. cbn in *. repeat split; cbn; go. Qed.

  Lemma ord_biquad2 : orders V z0 (dev_biquad2 O) (pushing V) rel_b2.
  Proof.
    constructor.
    - repeat split; cbn; go.
    - intros [z1 z2 o b0 b1 b2 a1 a2] [z1' z2' o' b0' b1' b2' a1' a2'] [[[[k0 k1] k2] k3] k4] (K0 & K1 & K2 & K3 & K4) (E & P & L1 & L2 & L3).
      repeat split; cbn in *; go.
    - intros s s' x x' H Hx. apply b2_step; assumption.
    - intros [z1 z2 o b0 b1 b2 a1 a2] [z1' z2' o' b0' b1' b2' a1' a2'] (E & P & L1 & L2 & L3).
      split; [exact E|]. split; [exact P|]. repeat split; cbn; go.
    - intros s s' (E & P & L1 & L2 & L3). exact L3.
    - intros [[[[k0 k1] k2] k3] k4] x K Hx. apply b2_rest; assumption.
  Qed.

  Lemma ord_rbj k : orders V z0 (dev_rbj O k) (fun a => forall c, rbj_coeffs O k a = Some c -> pushing V c) rel_b2.
  Proof.
    assert (N : rbj_new O k = biquad2_new O) by (destruct k; reflexivity).
    assert (P : rbj_process O k = biquad2_process O) by (destruct k; reflexivity).
    assert (C : rbj_clear O k = biquad2_clear O) by (destruct k; reflexivity).
    assert (L : @rbj_last_out F k = biquad2_last_out) by (destruct k; reflexivity).
    constructor; unfold dev_rbj; cbn [d_new d_set d_process d_clear d_last_out]; unfold rbj_set_coefficients; rewrite ?N, ?P, ?C, ?L.
    - exact (o_new _ _ _ _ _ ord_biquad2).
    - intros s s' a Ha Hr. destruct (rbj_coeffs O k a) as [[[[[c0 c1] c2] c3] c4]|]; [|exact Hr].
      apply (o_clear _ _ _ _ _ ord_biquad2). apply (o_set _ _ _ _ _ ord_biquad2 s s' (c0, c1, c2, c3, c4)); [|exact Hr]. apply Ha. reflexivity.
    - exact (o_process _ _ _ _ _ ord_biquad2).
    - exact (o_clear _ _ _ _ _ ord_biquad2).
    - exact (o_last _ _ _ _ _ ord_biquad2).
    - intros a x Ha Hx. destruct (rbj_coeffs O k a) as [[[[[c0 c1] c2] c3] c4]|].
      + apply b2_rest; [apply Ha; reflexivity|exact Hx].
      + apply b2_rest; [|exact Hx]. repeat split; cbn; go.
  Qed.
End F.

Lemma orderly_orders (T : Type) (O : num_ops T) (V : float_view T) : ieee O V ->
  forall (S K : Type) (D : device S K T) (ok : K -> Prop), orderly O V D ok -> exists rel, orders V (n_zero O) D ok rel.
Proof.
  intros HO. destruct HO as [lm b|lm b]; intros S K D ok Ho; destruct Ho; eexists.
  - apply (ord_one_pole 24 128).
  - apply (ord_one_zero 24 128).
  - apply (ord_two_pole 24 128).
  - apply (ord_two_zero 24 128).
  - apply (ord_biquad1 24 128).
  - apply (ord_biquad2 24 128).
  - apply (ord_rbj 24 128).
  - apply (ord_one_pole 53 1024).
  - apply (ord_one_zero 53 1024).
  - apply (ord_two_pole 53 1024).
  - apply (ord_two_zero 53 1024).
  - apply (ord_biquad1 53 1024).
  - apply (ord_biquad2 53 1024).
  - apply (ord_rbj 53 1024).
Qed.

(** C118: two objects of the same type are given the same calls, except that the second one is
    fed samples that are not smaller.  If all coefficients set are pushing, then after any number
    of calls nothing the second one returns is smaller, whatever was rounded on the way. *)
Lemma C118_order_thm :
  forall (T : Type) (O : num_ops T) (V : float_view T), ieee O V ->
  forall (S K : Type) (D : device S K T) (ok : K -> Prop), orderly O V D ok ->
  forall (calls calls' : list (call K T)),
    sets_ok ok calls -> Forall2 (raised V) calls calls' ->
    Forall2 (answers_below V) (returns D [] calls) (returns D [] calls').
Proof.
  intros T O V HO S K D ok Hd calls calls' Hk Hr. destruct (orderly_orders T O V HO S K D ok Hd) as [rel Ho].
  exact (proj2 (order_run V _ D ok rel Ho calls calls' Hr Hk _ _ (o_new _ _ _ _ _ Ho))).
Qed.

(*@PROP
Example C118_order_hyps :
  let O := O32 in let V := ieee_view 24 128 in
  ieee O V /\ sets_ok (fun '(b0, a1) => 0 <= val V b0 /\ val V a1 <= 0) [CSet (fl32 1 (-4), fl32 (-15) (-4)); CProcess (fl32 1 (-3))]
  /\ Forall2 (raised V) [CSet (fl32 1 (-4), fl32 (-15) (-4)); CProcess (fl32 1 (-3)); CLastOut]
                        [CSet (fl32 1 (-4), fl32 (-15) (-4)); CProcess (fl32 1 (-2)); CLastOut].
Proof.
  split; [constructor|]. split.
  - constructor; [split; cbn [val ieee_view]; lit; lra|]. constructor; [exact I|constructor].
  - constructor; [apply raised_same|]. constructor; [|constructor; [apply raised_same|constructor]].
    apply raised_more. intros _ _. cbn [val ieee_view]. lit. lra.
Qed.
@*)

(** C118: so a signal that starts at or above zero and never falls comes out, from a newly
    configured filter of this kind, as a signal that never falls: a step is smoothed without the
    slightest dip. *)
Lemma C118_rising_thm :
  forall (T : Type) (O : num_ops T) (V : float_view T), ieee O V ->
  forall (S K : Type) (D : device S K T) (ok : K -> Prop), orderly O V D ok ->
  forall (k : K) (x : nat -> T), ok k ->
    below V (n_zero O) (x 0%nat) -> (forall n, below V (x n) (x (Datatypes.S n))) ->
    forall n, below V (stream D k x n) (stream D k x (Datatypes.S n)).
Proof.
  intros T O V HO S K D ok Hd. destruct (orderly_orders T O V HO S K D ok Hd) as [rel Ho].
  exact (order_rising V _ D ok rel Ho).
Qed.

(*@PROP
Example C118_rising_hyps :
  let O := O32 in let V := ieee_view 24 128 in
  pushing V (fl32 1 0, fl32 1 1, fl32 1 0, fl32 (-1) (-1), fl32 (-1) (-2))
  /\ below V (n_zero O) (fl32 1 0) /\ forall n : nat, below V ((fun _ => fl32 1 0) n) ((fun _ => fl32 1 0) (S n)).
Proof.
  split; [repeat split; cbn [val ieee_view]; lit; lra|]. split; [intros _ _; cbn [val ieee_view]; lit; lra|].
  intros n _ _. apply Rle_refl.
Qed.
@*)

(** C118: [LeakyIntegrator] computes the same one-pole filter as x + alpha (y - x), and that does
    not preserve the order: after 1.5, with alpha = 1/2, the larger of two samples gives the
    smaller output in [f32]. *)
Lemma C118_leaky_refuted_thm :
  forall (lm : libm f32) (b : bool),
    let O := f32_ops lm b in
    exists y y' : f32,
      returns (dev_leaky O) [] [CSet (n_zero O); CProcess (fl32 3 (-1)); CSet (fl32 1 (-1)); CProcess (fl32 2 (-25))]
        = [None; Some (fl32 3 (-1)); None; Some y]
      /\ returns (dev_leaky O) [] [CSet (n_zero O); CProcess (fl32 3 (-1)); CSet (fl32 1 (-1)); CProcess (fl32 3 (-25))]
        = [None; Some (fl32 3 (-1)); None; Some y']
      /\ B2R (fl32 2 (-25)) < B2R (fl32 3 (-25)) /\ B2R y' < B2R y.
Proof.
  intros lm b O.
  assert (Y : forall x : f32, exists y1 y,
    returns (dev_leaky O) [] [CSet (n_zero O); CProcess (fl32 3 (-1)); CSet (fl32 1 (-1)); CProcess x] = [None; Some y1; None; Some y]
    /\ y1 = snd (leaky_process O (leaky_set_alpha O (leaky_new O) (n_zero O)) (fl32 3 (-1)))
    /\ y = snd (leaky_process O (leaky_set_alpha O (fst (leaky_process O (leaky_set_alpha O (leaky_new O) (n_zero O)) (fl32 3 (-1)))) (fl32 1 (-1))) x)).
  { intros x. eexists _, _. split; [|split; reflexivity].
    unfold returns, after. cbn [d_run d_step dev_leaky d_set d_new d_process fst snd map]. reflexivity. }
  assert (F1 : snd (leaky_process O (leaky_set_alpha O (leaky_new O) (n_zero O)) (fl32 3 (-1))) = fl32 3 (-1)).
  { apply B2SF_inj. vm_compute. reflexivity. }
  destruct (Y (fl32 2 (-25))) as [y1 [y [Y1 [Y2 Y3]]]]. destruct (Y (fl32 3 (-25))) as [y1' [y' [Y1' [Y2' Y3']]]].
  exists y, y'. rewrite Y2, F1 in Y1. rewrite Y2', F1 in Y1'. split; [exact Y1|]. split; [exact Y1'|].
  assert (G : forall (v : f32) m e, B2SF v = SpecFloat.S754_finite false m e -> B2R v = IZR (Zpos m) * bpow radix2 e).
  { intros v m e Hv. destruct v; try discriminate Hv. injection Hv as -> -> ->. reflexivity. }
  split.
  - rewrite (G (fl32 2 (-25)) 8388608%positive (-47)%Z), (G (fl32 3 (-25)) 12582912%positive (-47)%Z); [|vm_compute; reflexivity..].
    apply Rmult_lt_compat_r; [apply bpow_gt_0|]. apply IZR_lt. lia.
  - rewrite (G y 12582913%positive (-24)%Z), (G y' 12582912%positive (-24)%Z); [|rewrite Y3'; vm_compute; reflexivity|rewrite Y3; vm_compute; reflexivity].
    apply Rmult_lt_compat_r; [apply bpow_gt_0|]. apply IZR_lt. lia.
Qed.
