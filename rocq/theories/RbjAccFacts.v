(** Rounding analysis of the RBJ setters: a calculus of absolute errors. *)
From Coq Require Import ZArith Reals Bool Lra Lia Psatz.
From Flocq Require Import Core.Core IEEE754.BinarySingleNaN.
From Verif Require Import Base Num NumR NumF FloatSpec FloatFacts SmoothF FltFilterFacts WinAccFacts ConstLemmas
  FilterM RbjM FltFilterSpec RbjFltSpec RbjFltFacts RbjAccSpec.
Open Scope R_scope.

Lemma ratio_le r a k : 0 < a -> Rabs r <= k * a -> Rabs (r / a) <= k.
Proof.
  intros A H. unfold Rdiv. rewrite Rabs_mult, (Rabs_pos_eq (/ a)) by (left; apply Rinv_0_lt_compat; lra).
  apply Rmult_le_reg_r with a; [lra|]. rewrite Rmult_assoc, Rinv_l by lra. lra.
Qed.

Section F.
  Context (prec emax : Z) {Hp : Prec_gt_0 prec} {Hm : Prec_lt_emax prec emax}
    (Hp24 : (24 <= prec)%Z) (Hbig : (prec + 100 <= emax)%Z).
  Notation F := (binary_float prec emax).
  Notation RN := (round radix2 (SpecFloat.fexp prec emax) (round_mode mode_NE)).
  Notation fmt := (generic_format radix2 (SpecFloat.fexp prec emax)).
  Notation u := (uro prec).
  Notation et := (eta prec emax).

  (** [x] is finite and within [e] of [r]. *)
  Definition close (x : F) (r e : R) : Prop := is_finite x = true /\ Rabs (B2R x - r) <= e.

  Lemma big6 : 1000000000000 <= bpow radix2 60.
  Proof. apply Rle_trans with (bpow radix2 40); [change (bpow radix2 40) with 1099511627776; lra|apply bpow_le; lia]. Qed.

  Lemma close_size x r e b : close x r e -> Rabs r <= b -> Rabs (B2R x) <= b + e.
  Proof.
    intros [_ H] Hb. replace (B2R x) with ((B2R x - r) + r) by ring. eapply Rle_trans; [apply Rabs_triang|]. lra.
  Qed.
  Lemma close_weaken x r e e' : close x r e -> e <= e' -> close x r e'.
  Proof. intros [A B] H. split; [exact A|]. lra. Qed.
  Lemma close_neg x r e : close x r e -> close (Bopp x) (- r) e.
  Proof.
    intros [A B]. split; [rewrite is_finite_Bopp; exact A|]. rewrite B2R_Bopp.
    replace (- B2R x - - r) with (- (B2R x - r)) by ring. rewrite Rabs_Ropp. exact B.
  Qed.
  Lemma close_exact x r : is_finite x = true -> B2R x = r -> close x r 0.
  Proof. intros A B. split; [exact A|]. rewrite B, Rminus_diag_eq, Rabs_R0 by reflexivity. lra. Qed.

  Lemma close_round r d e b e' : Rabs (d - r) <= e -> Rabs r <= b -> e + u * (b + e) + et <= e' -> Rabs (RN d - r) <= e'.
  Proof.
    intros D B H. assert (S : Rabs d <= b + e).
    { replace d with ((d - r) + r) by ring. eapply Rle_trans; [apply Rabs_triang|]. lra. }
    assert (G := err prec emax Hp24 d _ S). replace (RN d - r) with ((RN d - d) + (d - r)) by ring.
    eapply Rle_trans; [apply Rabs_triang|]. lra.
  Qed.

  Lemma close_add x y r s e f b g : close x r e -> close y s f -> Rabs (r + s) <= b -> b + (e + f) <= 1000000000000 ->
    e + f + u * (b + (e + f)) + et <= g -> close (f_add prec emax x y) (r + s) g.
  Proof.
    intros [Fx Dx] [Fy Dy] B L H.
    assert (D : Rabs (B2R x + B2R y - (r + s)) <= e + f).
    { replace (B2R x + B2R y - (r + s)) with ((B2R x - r) + (B2R y - s)) by ring. eapply Rle_trans; [apply Rabs_triang|]. lra. }
    assert (W := big6). assert (P1 := Rabs_pos (B2R x - r)). assert (P2 := Rabs_pos (B2R y - s)).
    destruct (addk prec emax Hp24 Hbig x y Fx Fy) as [A1 A2].
    { replace (B2R x + B2R y) with ((B2R x + B2R y - (r + s)) + (r + s)) by ring. eapply Rle_trans; [apply Rabs_triang|]. lra. }
    split; [exact A1|]. rewrite A2. exact (close_round _ _ _ _ _ D B H).
  Qed.
  Lemma close_sub x y r s e f b g : close x r e -> close y s f -> Rabs (r - s) <= b -> b + (e + f) <= 1000000000000 ->
    e + f + u * (b + (e + f)) + et <= g -> close (f_sub prec emax x y) (r - s) g.
  Proof.
    intros [Fx Dx] [Fy Dy] B L H.
    assert (D : Rabs (B2R x - B2R y - (r - s)) <= e + f).
    { replace (B2R x - B2R y - (r - s)) with ((B2R x - r) + - (B2R y - s)) by ring. eapply Rle_trans; [apply Rabs_triang|].
      rewrite Rabs_Ropp. lra. }
    assert (W := big6).
    destruct (subk prec emax Hp24 Hbig x y Fx Fy) as [A1 A2].
    { replace (B2R x - B2R y) with ((B2R x - B2R y - (r - s)) + (r - s)) by ring. eapply Rle_trans; [apply Rabs_triang|]. lra. }
    split; [exact A1|]. rewrite A2. exact (close_round _ _ _ _ _ D B H).
  Qed.
  Lemma prod_err x y r s e f b c : Rabs (x - r) <= e -> Rabs (y - s) <= f -> Rabs r <= b -> Rabs s <= c ->
    Rabs (x * y - r * s) <= b * f + c * e + e * f.
  Proof.
    intros A B C D. replace (x * y - r * s) with (r * (y - s) + s * (x - r) + (x - r) * (y - s)) by ring.
    eapply Rle_trans; [apply Rabs_triang|]. eapply Rle_trans; [apply Rplus_le_compat_r, Rabs_triang|]. rewrite !Rabs_mult.
    assert (Rabs r * Rabs (y - s) <= b * f) by (apply Rmult_le_compat; try apply Rabs_pos; assumption).
    assert (Rabs s * Rabs (x - r) <= c * e) by (apply Rmult_le_compat; try apply Rabs_pos; assumption).
    assert (Rabs (x - r) * Rabs (y - s) <= e * f) by (apply Rmult_le_compat; try apply Rabs_pos; assumption). lra.
  Qed.
  Lemma close_mul x y r s e f b c B g : close x r e -> close y s f -> Rabs r <= b -> Rabs s <= c -> Rabs (r * s) <= B ->
    B + (b * f + c * e + e * f) <= 1000000000000 ->
    (b * f + c * e + e * f) + u * (B + (b * f + c * e + e * f)) + et <= g -> close (f_mul prec emax x y) (r * s) g.
  Proof.
    intros [Fx Dx] [Fy Dy] Hr Hs HB L H. assert (D := prod_err _ _ _ _ _ _ _ _ Dx Dy Hr Hs). assert (W := big6).
    destruct (mulk prec emax Hp24 Hbig x y Fx Fy) as [A1 A2].
    { replace (B2R x * B2R y) with ((B2R x * B2R y - r * s) + r * s) by ring. eapply Rle_trans; [apply Rabs_triang|]. lra. }
    split; [exact A1|]. rewrite A2. exact (close_round _ _ _ _ _ D HB H).
  Qed.
  (** The quotient: the divisor is at least [d], the exact quotient at most [k]. *)
  Lemma quot_err x y r s e f d k : Rabs (x - r) <= e -> Rabs (y - s) <= f -> d <= y -> 0 < d -> 0 < s -> Rabs (r / s) <= k ->
    Rabs (x / y - r / s) <= (e + k * f) / d.
  Proof.
    intros A B D D0 S K. replace (x / y - r / s) with (((x - r) - (r / s) * (y - s)) * / y) by (field; lra).
    rewrite Rabs_mult, (Rabs_pos_eq (/ y)) by (left; apply Rinv_0_lt_compat; lra).
    assert (I : / y <= / d) by (apply Rinv_le_contravar; lra). assert (I0 : 0 < / y) by (apply Rinv_0_lt_compat; lra).
    unfold Rdiv at 2. apply Rmult_le_compat; [apply Rabs_pos|lra| |exact I].
    eapply Rle_trans; [apply Rabs_triang|]. rewrite Rabs_Ropp, Rabs_mult.
    assert (Rabs (r / s) * Rabs (y - s) <= k * f) by (apply Rmult_le_compat; try apply Rabs_pos; assumption). lra.
  Qed.
  Lemma close_div x y r s e f d k g : close x r e -> close y s f -> 0 < d -> d + f <= s -> Rabs (r / s) <= k ->
    k + (e + k * f) / d <= 1000000000000 ->
    (e + k * f) / d + u * (k + (e + k * f) / d) + et <= g -> close (f_div prec emax x y) (r / s) g.
  Proof.
    intros [Fx Dx] [Fy Dy] D0 Ds HK L H. assert (Dy' := Rabs_le_inv _ _ Dy). assert (P := Rabs_pos (B2R y - s)).
    assert (D := quot_err _ _ _ _ _ _ d k Dx Dy ltac:(lra) D0 ltac:(lra) HK). assert (W := big6).
    destruct (divk prec emax Hp24 Hbig x y Fx) as [A1 A2].
    { lra. }
    { replace (B2R x / B2R y) with ((B2R x / B2R y - r / s) + r / s) by ring. eapply Rle_trans; [apply Rabs_triang|]. lra. }
    split; [exact A1|]. rewrite A2. exact (close_round _ _ _ _ _ D HK H).
  Qed.

  Lemma et_u : 0 < et <= / 1000000 * u.
  Proof.
    assert (U := u_small prec Hp24). assert (E := et_small prec emax Hbig). split; [lra|].
    assert (u * u <= / 1000000 * u) by (apply Rmult_le_compat_r; lra). lra.
  Qed.

  (** ** The filters with a Q *)
  Context (pim pie sz : Z) (lm : libm F) (nn : bool).
  Notation O := (ieee_ops prec emax pim pie sz lm nn).
  Hypothesis Fpi : is_finite (n_pi O) = true.
  Hypothesis Vpi : B2R (n_pi O) = RN PI.

  Lemma sin_lip x y : Rabs (sin x - sin y) <= Rabs (x - y).
  Proof. rewrite <- !cos_shift. eapply Rle_trans; [apply cos_lip|]. right. replace (PI / 2 - x - (PI / 2 - y)) with (- (x - y)) by ring. apply Rabs_Ropp. Qed.

  (** The sine and cosine of the rounded angle. *)
  Lemma trig_acc (sr f : F) : trig_close O (ieee_view prec emax) -> audible (ieee_view prec emax) sr f ->
    close (n_sin O (w0 prec emax pim pie sz lm nn sr f)) (sin (2 * PI * (B2R f / B2R sr))) (52 * u)
    /\ close (n_cos O (w0 prec emax pim pie sz lm nn sr f)) (cos (2 * PI * (B2R f / B2R sr))) (52 * u)
    /\ 0 <= sin (2 * PI * (B2R f / B2R sr)) <= 1.
  Proof.
    intros HT [[Fs Hs] [Ff Hf]]. cbn [fin val ieee_view] in *.
    destruct (w0_ok prec emax Hp24 Hbig pim pie sz lm nn Fpi Vpi sr f Fs Ff Hs ltac:(lra)) as [W1 [_ W2]].
    set (w := w0 prec emax pim pie sz lm nn sr f) in *. clearbody w.
    set (z := 2 * PI * (B2R f / B2R sr)) in *. assert (U := u_small prec Hp24). assert (B := pi_20).
    assert (Z : 0 <= z <= PI).
    { assert (0 <= B2R f / B2R sr <= 1 / 2).
      { split; [apply Rmult_le_pos; [lra|left; apply Rinv_0_lt_compat; lra]|].
        apply Rmult_le_reg_r with (B2R sr); [lra|]. unfold Rdiv. rewrite Rmult_assoc, Rinv_l by lra. lra. }
      unfold z. split; [apply Rmult_le_pos; lra|]. nra. }
    assert (W2' := Rabs_le_inv _ _ W2).
    destruct (HT w W1) as [[S1 [S2 _]] [C1 [C2 _]]]; [cbn [val ieee_view]; apply Rabs_le; lra|]. cbn [fin val fprec ieee_view] in *.
    assert (E2 : bpow radix2 (1 - prec) = 2 * u) by (change (1 - prec)%Z with (1 + - prec)%Z; rewrite bpow_plus; reflexivity).
    rewrite E2 in *.
    split; [|split].
    - split; [exact S1|]. replace (B2R (n_sin O w) - sin z) with ((B2R (n_sin O w) - sin (B2R w)) + (sin (B2R w) - sin z)) by ring.
      eapply Rle_trans; [apply Rabs_triang|]. assert (G := sin_lip (B2R w) z). lra.
    - split; [exact C1|]. replace (B2R (n_cos O w) - cos z) with ((B2R (n_cos O w) - cos (B2R w)) + (cos (B2R w) - cos z)) by ring.
      eapply Rle_trans; [apply Rabs_triang|]. assert (G := cos_lip (B2R w) z). lra.
    - split; [apply sin_ge_0; lra|]. apply SIN_bound.
  Qed.

  (** alpha = s / (2 q) *)
  Lemma alpha_acc (s q : F) sn : close s sn (52 * u) -> 0 <= sn <= 1 -> is_finite q = true -> / 1024 <= B2R q <= 1024 ->
    close (n_div O s (n_mul O (n_two O) q)) (sn / (2 * B2R q)) (27 * u * / B2R q)
    /\ 0 <= sn / (2 * B2R q) <= / B2R q / 2.
  Proof.
    intros [Fs Ds] Hsn Fq Hq. destruct (two_ok prec emax Hp24 pim pie sz lm nn Fpi) as [T1 T2].
    assert (U := u_small prec Hp24). assert (E := et_u). assert (W := big6).
    destruct (mulk prec emax Hp24 Hbig (n_two O) q T1 Fq) as [M1 M2]; [rewrite T2; apply Rabs_le; lra|].
    rewrite T2, (RN_id prec emax) in M2 by (apply (double_fmt prec emax pim pie sz lm nn Fpi), generic_format_B2R).
    cbn [n_div n_mul ieee_ops]. set (d := f_mul prec emax (n_two O) q) in *. clearbody d.
    set (i := / B2R q). assert (I0 : 0 < i) by (apply Rinv_0_lt_compat; lra).
    assert (I1 : / 1024 <= i) by (apply Rinv_le_contravar; lra).
    assert (I2 : i <= 1024) by (unfold i; replace 1024 with (/ / 1024) by field; apply Rinv_le_contravar; lra).
    assert (Eq : sn / (2 * B2R q) = sn * (i / 2)) by (unfold i; field; lra).
    assert (B : 0 <= sn * (i / 2) <= i / 2).
    { split; [apply Rmult_le_pos; lra|]. rewrite <- (Rmult_1_l (i / 2)) at 2. apply Rmult_le_compat_r; lra. }
    assert (Eh : B2R s / B2R d = B2R s * (i / 2)) by (rewrite M2; unfold i; field; lra).
    assert (D : Rabs (B2R s / B2R d - sn * (i / 2)) <= 52 * u * (i / 2)).
    { rewrite Eh. replace (B2R s * (i / 2) - sn * (i / 2)) with ((B2R s - sn) * (i / 2)) by ring.
      rewrite Rabs_mult, (Rabs_pos_eq (i / 2)) by lra. apply Rmult_le_compat_r; lra. }
    assert (UI : u * i <= / 16777216 * 1024) by (apply Rmult_le_compat; lra).
    rewrite Eq. split; [|exact B].
    destruct (divk prec emax Hp24 Hbig s d Fs) as [A1 A2].
    { rewrite M2. lra. }
    { replace (B2R s / B2R d) with ((B2R s / B2R d - sn * (i / 2)) + sn * (i / 2)) by ring. eapply Rle_trans; [apply Rabs_triang|].
      rewrite (Rabs_pos_eq (sn * (i / 2))) by lra. lra. }
    split; [exact A1|]. rewrite A2. apply (close_round _ _ _ (i / 2) _ D); [rewrite Rabs_pos_eq; lra|].
    assert (u * (u * i) <= / 16777216 * (u * i)) by (apply Rmult_le_compat_r; [apply Rmult_le_pos|]; lra).
    assert (u * / 1024 <= u * i) by (apply Rmult_le_compat_l; lra). lra.
  Qed.

  Definition q_err (q : R) : R := (115 + 85 * / q) * u.

  Section Q.
    Context (sr f q : F) (HT : trig_close O (ieee_view prec emax)) (HA : audible (ieee_view prec emax) sr f)
      (Fq : is_finite q = true) (Hq : / 64 <= B2R q <= 1024).
    Notation s := (sin (2 * PI * (B2R f / B2R sr))).
    Notation c := (cos (2 * PI * (B2R f / B2R sr))).
    Notation i := (/ B2R q).
    Notation al := (s / (2 * B2R q)).
    Notation sh := (n_sin O (w0 prec emax pim pie sz lm nn sr f)).
    Notation ch := (n_cos O (w0 prec emax pim pie sz lm nn sr f)).
    Notation ah := (n_div O sh (n_mul O (n_two O) q)).
    Notation one := (n_one O).

    Lemma i_ok : / 1024 <= i <= 64.
    Proof.
      split; [apply Rinv_le_contravar; lra|]. replace 64 with (/ / 64) by field. apply Rinv_le_contravar; lra.
    Qed.
    Lemma c_ok : -1 <= c <= 1. Proof. apply COS_bound. Qed.
    Lemma al_acc : close ah al (27 * u * i) /\ 0 <= al <= i / 2.
    Proof. destruct (trig_acc sr f HT HA) as [A [_ B]]. apply alpha_acc; try assumption. lra. Qed.
    Lemma c_acc : close ch c (52 * u).
    Proof. apply (trig_acc sr f HT HA). Qed.
    Lemma ui : 0 < u * i <= / 16777216 * 64.
    Proof.
      assert (U := u_small prec Hp24). assert (I := i_ok). split; [apply Rmult_lt_0_compat; lra|apply Rmult_le_compat; lra].
    Qed.
    Lemma uui : u * (u * i) <= / 16777216 * (u * i).
    Proof. assert (U := u_small prec Hp24). assert (I := ui). apply Rmult_le_compat_r; lra. Qed.
    Lemma uu : u * u <= / 16777216 * u.
    Proof. assert (U := u_small prec Hp24). apply Rmult_le_compat_r; lra. Qed.
    Lemma one_c : close one 1 0.
    Proof. destruct (one_ok prec emax Hp24 pim pie sz lm nn Fpi). apply close_exact; assumption. Qed.
    Lemma two_c : close (n_two O) 2 0.
    Proof. destruct (two_ok prec emax Hp24 pim pie sz lm nn Fpi). apply close_exact; assumption. Qed.
    Lemma a0_acc : close (n_add O one ah) (1 + al) ((28 * i + 2) * u).
    Proof.
      destruct al_acc as [A B]. assert (U := u_small prec Hp24). assert (I := i_ok). assert (J := ui). assert (K := uui). assert (E := et_u).
      apply (close_add _ _ _ _ _ _ (1 + i / 2) _ one_c A); [rewrite Rabs_pos_eq; lra|lra|lra].
    Qed.
    Lemma n2_acc : close (n_sub O one ah) (1 - al) ((28 * i + 2) * u).
    Proof.
      destruct al_acc as [A B]. assert (U := u_small prec Hp24). assert (I := i_ok). assert (J := ui). assert (K := uui). assert (E := et_u).
      apply (close_sub _ _ _ _ _ _ (1 + i / 2) _ one_c A); [apply Rabs_le; lra|lra|lra].
    Qed.
    Lemma n1_acc : close (n_mul O (n_neg O (n_two O)) ch) (- (2) * c) (107 * u).
    Proof.
      assert (U := u_small prec Hp24). assert (E := et_u). assert (C := c_ok). assert (K := uu).
      apply (close_mul _ _ _ _ _ _ 2 1 2 _ (close_neg _ _ _ two_c) c_acc); [apply Rabs_le; lra|apply Rabs_le; lra|apply Rabs_le; lra|lra|lra].
    Qed.
    Lemma m_acc : close (n_sub O one ch) (1 - c) (55 * u) /\ close (n_add O one ch) (1 + c) (55 * u)
      /\ close (n_sub O (n_neg O one) ch) (- (1) - c) (55 * u).
    Proof.
      assert (U := u_small prec Hp24). assert (E := et_u). assert (C := c_ok). assert (K := uu).
      split; [|split].
      - apply (close_sub _ _ _ _ _ _ 2 _ one_c c_acc); [apply Rabs_le; lra|lra|lra].
      - apply (close_add _ _ _ _ _ _ 2 _ one_c c_acc); [apply Rabs_le; lra|lra|lra].
      - apply (close_sub _ _ _ _ _ _ 2 _ (close_neg _ _ _ one_c) c_acc); [apply Rabs_le; lra|lra|lra].
    Qed.
    Lemma half_acc x r : close x r (55 * u) -> Rabs r <= 2 -> close (n_div O x (n_two O)) (r / 2) (30 * u).
    Proof.
      intros X R2. assert (U := u_small prec Hp24). assert (E := et_u). assert (K := uu).
      apply (close_div _ _ _ _ _ _ 2 1 _ X two_c); [lra|lra| |lra|lra].
      unfold Rdiv. rewrite Rabs_mult, (Rabs_pos_eq (/ 2)); lra.
    Qed.
    Lemma qa_acc : close (n_mul O q ah) (B2R q * al) (30 * u) /\ close (n_mul O (n_neg O q) ah) (- B2R q * al) (30 * u).
    Proof.
      destruct al_acc as [[Fa Da] B]. assert (U := u_small prec Hp24). assert (I := i_ok). assert (J := ui). assert (E := et_u). assert (K := uu).
      assert (W := big6).
      assert (Qi : B2R q * i = 1) by (apply Rinv_r; lra).
      assert (Qa : 0 <= B2R q * al <= 1 / 2).
      { split; [apply Rmult_le_pos; lra|]. apply Rle_trans with (B2R q * (i / 2)); [apply Rmult_le_compat_l; lra|]. lra. }
      assert (D : Rabs (B2R q * B2R ah - B2R q * al) <= 27 * u).
      { rewrite <- Rmult_minus_distr_l, Rabs_mult, (Rabs_pos_eq (B2R q)) by lra.
        replace (27 * u) with (B2R q * (27 * u * i)) by (rewrite (Rmult_comm _ i), <- Rmult_assoc, Qi; ring).
        apply Rmult_le_compat_l; lra. }
      assert (D' := Rabs_le_inv _ _ D).
      split.
      - destruct (mulk prec emax Hp24 Hbig q ah Fq Fa) as [A1 A2]; [apply Rabs_le; lra|].
        split; [exact A1|]. cbn [n_mul ieee_ops] in *. rewrite A2. apply (close_round _ _ _ (1 / 2) _ D); [apply Rabs_le; lra|lra].
      - destruct (mulk prec emax Hp24 Hbig (Bopp q) ah) as [A1 A2];
          [rewrite is_finite_Bopp; exact Fq|exact Fa|rewrite B2R_Bopp; apply Rabs_le; lra|].
        split; [exact A1|]. cbn [n_mul n_neg ieee_ops] in *. rewrite A2, B2R_Bopp.
        apply (close_round _ _ (27 * u) (1 / 2)); [|apply Rabs_le; lra|lra].
        eapply Rle_trans; [|exact D]. right. rewrite <- (Rabs_Ropp (_ - _)). f_equal. ring.
    Qed.

    (** The division by a0. *)
    Lemma norm_acc x r : close x r ((107 + 28 * i) * u) -> Rabs r <= 2 * (1 + al) ->
      close (n_div O x (n_add O one ah)) (r / (1 + al)) (q_err (B2R q)).
    Proof.
      intros X R2. destruct al_acc as [_ B]. assert (U := u_small prec Hp24). assert (E := et_u). assert (I := i_ok). assert (J := ui).
      assert (K := uui). assert (L := uu).
      assert (Q : Rabs (r / (1 + al)) <= 2).
      { apply ratio_le; [lra|exact R2]. }
      apply (close_div _ _ _ _ _ _ 0.9998 2 _ X a0_acc); [lra|lra|exact Q|lra|unfold q_err; lra].
    Qed.
  End Q.
End F.

Section Kinds.
  Context (prec emax : Z) {Hp : Prec_gt_0 prec} {Hm : Prec_lt_emax prec emax}
    (Hp24 : (24 <= prec)%Z) (Hbig : (prec + 100 <= emax)%Z).
  Notation F := (binary_float prec emax).
  Notation RN := (round radix2 (SpecFloat.fexp prec emax) (round_mode mode_NE)).
  Notation u := (uro prec).
  Notation V := (ieee_view prec emax).
  Context (pim pie sz : Z) (lm : libm F) (nn : bool).
  Notation O := (ieee_ops prec emax pim pie sz lm nn).
  Hypothesis Fpi : is_finite (n_pi O) = true.
  Hypothesis Vpi : B2R (n_pi O) = RN PI.
  Notation close := (close prec emax).

  Lemma bundle (b0 b1 b2 a1 a2 : F) (c0 c1 c2 d1 d2 e : R) :
    close b0 c0 e -> close b1 c1 e -> close b2 c2 e -> close a1 d1 e -> close a2 d2 e ->
    all_finite V (b0, b1, b2, a1, a2) /\ each_within e (vals V (b0, b1, b2, a1, a2)) (c0, c1, c2, d1, d2).
  Proof.
    intros [A1 A2] [B1 B2] [C1 C2] [D1 D2] [E1 E2].
    exact (conj (conj A1 (conj B1 (conj C1 (conj D1 E1)))) (conj A2 (conj B2 (conj C2 (conj D2 E2))))).
  Qed.

  Lemma q_acc kind (sr f q : F) (Hc : trig_close O V) (HA : audible V sr f) (Fq : is_finite q = true)
    (Hq : / 64 <= B2R q <= 1024) ch c : rbj_coeffs O kind (RbjQ sr f q) = Some ch ->
    rbj_coeffs R_ops kind (RbjQ (B2R sr) (B2R f) (B2R q)) = Some c ->
    all_finite V ch /\ each_within (q_err prec (B2R q)) (vals V ch) c.
  Proof.
    assert (U := u_small prec Hp24). assert (I := i_ok prec emax q Hq). assert (J := ui prec emax Hp24 q Hq).
    set (i := / B2R q) in *.
    assert (N := norm_acc prec emax Hp24 Hbig pim pie sz lm nn Fpi Vpi sr f q Hc HA Fq Hq).
    assert (A := al_acc prec emax Hp24 Hbig pim pie sz lm nn Fpi Vpi sr f q Hc HA Fq Hq).
    assert (A0 := a0_acc prec emax Hp24 Hbig pim pie sz lm nn Fpi Vpi sr f q Hc HA Fq Hq).
    assert (N2 := n2_acc prec emax Hp24 Hbig pim pie sz lm nn Fpi Vpi sr f q Hc HA Fq Hq).
    assert (N1 := n1_acc prec emax Hp24 Hbig pim pie sz lm nn Fpi Vpi sr f Hc HA).
    assert (M := m_acc prec emax Hp24 Hbig pim pie sz lm nn Fpi Vpi sr f Hc HA).
    assert (Q := qa_acc prec emax Hp24 Hbig pim pie sz lm nn Fpi Vpi sr f q Hc HA Fq Hq).
    assert (C := c_ok prec emax sr f).
    assert (Ew : 2 * PI * B2R f / B2R sr = 2 * PI * (B2R f / B2R sr)) by (unfold Rdiv; ring).
    fold i in A, A0, N2, N.
    set (cc := cos (2 * PI * (B2R f / B2R sr))) in *. set (al := sin (2 * PI * (B2R f / B2R sr)) / (2 * B2R q)) in *.
    destruct A as [A1 A2]. destruct M as [M1 [M2 M3]]. destruct Q as [Q1 Q2].
    assert (Qa : 0 <= B2R q * al <= 1 / 2).
    { assert (Qi : B2R q * i = 1) by (apply Rinv_r; lra).
      split; [apply Rmult_le_pos; lra|]. apply Rle_trans with (B2R q * (i / 2)); [apply Rmult_le_compat_l; lra|]. lra. }
    assert (H1 := half_acc prec emax Hp24 Hbig pim pie sz lm nn Fpi).
    assert (one1 := one_c prec emax Hp24 pim pie sz lm nn Fpi).
    assert (UI : 0 <= u * i) by lra.
    assert (B1 : close (n_div O (n_mul O (n_neg O (n_two O)) (n_cos O (w0 prec emax pim pie sz lm nn sr f)))
        (n_add O (n_one O) (n_div O (n_sin O (w0 prec emax pim pie sz lm nn sr f)) (n_mul O (n_two O) q)))) (- (2) * cc / (1 + al)) (q_err prec (B2R q))).
    { apply N; [eapply close_weaken; [exact N1|lra]|apply Rabs_le; lra]. }
    assert (B2 : close (n_div O (n_sub O (n_one O) (n_div O (n_sin O (w0 prec emax pim pie sz lm nn sr f)) (n_mul O (n_two O) q)))
        (n_add O (n_one O) (n_div O (n_sin O (w0 prec emax pim pie sz lm nn sr f)) (n_mul O (n_two O) q)))) ((1 - al) / (1 + al)) (q_err prec (B2R q))).
    { apply N; [eapply close_weaken; [exact N2|lra]|apply Rabs_le; lra]. }
    assert (Z : close (n_div O (n_zero O)
        (n_add O (n_one O) (n_div O (n_sin O (w0 prec emax pim pie sz lm nn sr f)) (n_mul O (n_two O) q)))) (0 / (1 + al)) (q_err prec (B2R q))).
    { apply N; [|rewrite Rabs_R0; lra]. split; [reflexivity|]. cbn. rewrite Rminus_0_r, Rabs_R0. lra. }
    destruct kind; intros E1 E2; try discriminate; injection E1 as <-; injection E2 as <-;
      unfold lowpass_coeffs, highpass_coeffs, bandpass1_coeffs, bandpass2_coeffs, bandstop_coeffs, allpass_coeffs, normalised;
      cbn [R_ops n_one n_two n_zero n_pi n_add n_sub n_mul n_div n_neg n_sin n_cos]; rewrite Ew; fold cc al.
    - apply bundle; try assumption.
      + apply N; [eapply close_weaken; [apply (H1 _ _ M1); apply Rabs_le; lra|lra]|apply Rabs_le; lra].
      + apply N; [eapply close_weaken; [exact M1|lra]|apply Rabs_le; lra].
      + apply N; [eapply close_weaken; [apply (H1 _ _ M1); apply Rabs_le; lra|lra]|apply Rabs_le; lra].
    - apply bundle; try assumption.
      + apply N; [eapply close_weaken; [apply (H1 _ _ M2); apply Rabs_le; lra|lra]|apply Rabs_le; lra].
      + apply N; [eapply close_weaken; [exact M3|lra]|apply Rabs_le; lra].
      + apply N; [eapply close_weaken; [apply (H1 _ _ M2); apply Rabs_le; lra|lra]|apply Rabs_le; lra].
    - apply bundle; try assumption.
      + apply N; [eapply close_weaken; [exact Q1|lra]|apply Rabs_le; lra].
      + apply N; [eapply close_weaken; [exact Q2|lra]|apply Rabs_le; lra].
    - apply bundle; try assumption.
      + apply N; [eapply close_weaken; [exact A1|lra]|apply Rabs_le; lra].
      + apply N; [eapply close_weaken; [exact (close_neg _ _ _ _ _ A1)|lra]|apply Rabs_le; lra].
    - apply bundle; try assumption.
      + apply N; [eapply close_weaken; [exact one1|lra]|apply Rabs_le; lra].
      + apply N; [eapply close_weaken; [exact one1|lra]|apply Rabs_le; lra].
    - apply bundle; try assumption.
      apply N; [eapply close_weaken; [exact A0|lra]|apply Rabs_le; lra].
  Qed.
End Kinds.
