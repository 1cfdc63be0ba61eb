(** Lemmas behind property C135.  The [@PROP] blocks are copied into [PropLinPair.v]. *)
(*@PROP
(** Property C135: two [LinearDelay]s given corresponding calls, in [f32] and [f64].

    Vocabulary: [lin_session K O p d m ops] is [LinearDelay::new(d, m)] followed by the calls [ops] ([LinRun]); [float_line] says that
    the line is one of f32 or f64 samples ([LinFloatSpec]); [same_call r] and [same_answer r] relate calls and answers that are the
    same up to samples related by [r], [alike] says that both sessions complete or both panic, [raised], [raised_answer],
    [same_sample], [near_answer] relate samples ([LinPairSpec]). *)
From Coq Require Import ZArith Reals List Bool Lia Lra.
From Flocq Require Import Core.Core IEEE754.BinarySingleNaN.
From Verif Require Import Base Num NumR NumF FloatSpec Witness DelayM LinDelayM DelaySpec DelayRun LinSpec LinRun LinFloatSpec TrackSpec
  LinPairSpec LinPairLemmas.
Import ListNotations.
Open Scope R_scope.
@*)
From Coq Require Import ZArith Reals List Bool Lia Lra.
From Flocq Require Import Core.Core IEEE754.BinarySingleNaN.
From Verif Require Import Base BaseLemmas Num NumR NumF FloatSpec FloatFacts AnaFacts DelayM LinDelayM DelaySpec DelayRun DelayProofs
  LinSpec LinRun LinFloatSpec LinProofs LinCtlF LinInv LinFacts LinFloat OrderLemmas FltFilterFacts ScaleSpec ScaleLemmas TrackSpec
  LinPairSpec LinPairFacts.
Import ListNotations.
Open Scope R_scope.

Lemma F2_impl {A B} (P Q : A -> B -> Prop) l l' : (forall a b, P a b -> Q a b) -> Forall2 P l l' -> Forall2 Q l l'.
Proof. intros H F. induction F; auto. Qed.

Definition grid (g : Z) (r : R) : Prop := exists k : Z, r = IZR k * bpow radix2 g.

Lemma grid_finer g h r : (h <= g)%Z -> grid g r -> grid h r.
Proof.
  intros H [k ->]. exists (k * 2 ^ (g - h))%Z. rewrite mult_IZR. change 2%Z with (radix_val radix2). rewrite IZR_Zpower by lia.
  rewrite Rmult_assoc, <- bpow_plus. do 2 f_equal. lia.
Qed.
Lemma grid_add g a b : grid g a -> grid g b -> grid g (a + b).
Proof. intros [k ->] [l ->]. exists (k + l)%Z. rewrite plus_IZR. ring. Qed.
Lemma grid_opp g a : grid g a -> grid g (- a).
Proof. intros [k ->]. exists (- k)%Z. rewrite opp_IZR. ring. Qed.
Lemma grid_int g n : (g <= 0)%Z -> grid g (IZR n).
Proof. intros H. apply (grid_finer 0); [exact H|]. exists n. cbn. ring. Qed.
Lemma grid_zero g : grid g 0.
Proof. exists 0%Z. ring. Qed.

Section G.
  Context (prec emax : Z) {Hp : Prec_gt_0 prec} {Hm : Prec_lt_emax prec emax}.
  Notation fexp := (SpecFloat.fexp prec emax).
  Notation RN := (round radix2 fexp (round_mode mode_NE)).

  Lemma grid_format g r : (SpecFloat.emin prec emax <= g)%Z -> grid g r -> Rabs r < bpow radix2 (g + prec) -> generic_format radix2 fexp r.
  Proof using Hp.
    intros Hg [k ->] H. apply (generic_format_FLT radix2 (SpecFloat.emin prec emax) prec).
    exists (Float radix2 k g); [reflexivity| |exact Hg]. cbn [Fnum].
    apply lt_IZR. rewrite IZR_Zpower by (assert (0 < prec)%Z by exact Hp; lia). rewrite abs_IZR.
    rewrite Rabs_mult, (Rabs_pos_eq (bpow _ _)), Z.add_comm, bpow_plus in H by apply bpow_ge_0.
    apply Rmult_lt_reg_r with (bpow radix2 g); [apply bpow_gt_0|exact H].
  Qed.
  Lemma RN_grid g r : (SpecFloat.emin prec emax <= g)%Z -> grid g r -> grid g (RN r).
  Proof using Hp.
    intros Hg H. destruct (Rlt_or_le (Rabs r) (bpow radix2 (g + prec))) as [L|L].
    - rewrite round_generic; [exact H|apply valid_rnd_N|apply (grid_format g); assumption].
    - assert (P : (0 < prec)%Z) by exact Hp. apply (grid_finer (g + prec + 1 - prec)); [lia|].
      apply (fmt_grid prec emax); [apply generic_format_round; [apply fexp_correct; exact Hp|apply valid_rnd_N]|]. right.
      apply abs_round_ge_generic; try assumption; [apply fexp_correct; exact Hp|apply valid_rnd_N|].
      apply generic_format_bpow. unfold SpecFloat.fexp. lia.
  Qed.
End G.

(** The weights of a line of at most 2^24 slots are multiples of 2^-24. *)
Lemma pos_grid len w c : (1 <= len <= 2 ^ 24)%Z -> (0 <= w < len)%Z -> 0 <= c <= IZR len - 1 -> generic_format radix2 fexp32 c ->
  grid (-24) (pos32 len w c).
Proof.
  intros Hl Hw Hc Fc. unfold pos32.
  assert (Big : forall x, generic_format radix2 fexp32 x -> bpow radix2 (-1) <= Rabs x -> grid (-24) x).
  { intros x Fx Hx. exact (fmt_grid 24 128 x (-1) Fx (or_intror Hx)). }
  assert (Hal : forall x, bpow radix2 (-1) <= Rabs x -> bpow radix2 (-1) <= Rabs (RN32 x)).
  { intros x Hx. apply abs_round_ge_generic; try typeclasses eauto; [|exact Hx]. apply generic_format_bpow. cbn. lia. }
  assert (Hst : - (IZR len - 1) <= RN32 (IZR w - c)).
  { apply Rle_trans with (RN32 (- (IZR len - 1))).
    - rewrite (RN_opp 24 128), <- minus_IZR, RN32_small by lia. lra.
    - apply (RN_le 24 128). assert (0 <= IZR w) by (apply IZR_le; lia). lra. }
  change (bpow radix2 (-1)) with (/ 2) in *.
  case Rlt_bool_spec; intros H.
  - apply Big; [apply (RN_format 24 128)|]. apply Hal. rewrite Rabs_pos_eq; lra.
  - destruct (Z.eq_dec w 0) as [->|W0].
    + destruct (Rle_lt_or_eq_dec 0 c (proj1 Hc)) as [P|P].
      * assert (RN32 (0 - c) <= - c).
        { replace (0 - c) with (- c) by ring. rewrite (RN_id 24 128); [lra|]. apply generic_format_opp, Fc. }
        lra.
      * rewrite <- P, Rminus_0_r, (RN_0 24 128). apply grid_zero.
    + assert (1 <= IZR w) by (apply IZR_le; lia).
      destruct (Rle_or_lt (/ 2) c) as [L|L].
      * apply (RN_grid 24 128); [cbn; lia|]. apply grid_add; [apply grid_int; lia|]. apply grid_opp, Big; [exact Fc|]. rewrite Rabs_pos_eq; lra.
      * apply Big; [apply (RN_format 24 128)|]. apply Hal. rewrite Rabs_pos_eq; lra.
Qed.

Lemma weights_grid {T} (K : ctl_ops f32 T) (O : num_ops T) val fin rnd : float_line K O val fin rnd ->
  forall len w d dt r a, (1 <= len <= 2 ^ 24)%Z -> (0 <= w < len)%Z -> d <> B754_nan -> ctl K len w d = Ok (dt, r, a) ->
    let wn := c_cast K a in let wo := n_sub O (n_one O) wn in
    fin wn = true /\ fin wo = true /\ val wn = B2R a /\ val wo = 1 - B2R a /\ grid (-24) (B2R a) /\ Rabs (B2R a) <= IZR len /\ Rabs (1 - B2R a) <= IZR len.
Proof.
  intros HFL len w d dt r a Hl Hw Hd Ec wn wo. assert (HF := float_line_fline _ _ _ _ _ HFL).
  destruct (fl_ctl K O val fin rnd HF len w d Hl Hw Hd) as (dt' & a' & E' & Df & Dv & Af & Av).
  rewrite Ec in E'. injection E' as <- _ <-.
  assert (L1 : 1 <= IZR len) by (apply IZR_le; lia).
  assert (Hc : 0 <= clip32 d (IZR len - 1) <= IZR len - 1) by (apply clip32_range; lra).
  assert (Fc : generic_format radix2 fexp32 (clip32 d (IZR len - 1))) by (rewrite <- Dv; apply generic_format_B2R).
  assert (G := pos_grid len w _ Hl Hw Hc Fc).
  destruct (pos32_range len w _ Hl Hw Hc) as [[P0 P1] _].
  set (c := clip32 d (IZR len - 1)) in *.
  assert (Ga : grid (-24) (B2R a)).
  { rewrite Av. apply grid_add; [exact G|]. apply grid_opp, grid_int. lia. }
  destruct (ctl_clip K O val fin rnd HF len w d dt r a Hl Hw Ec Df) as (_ & Er & F1 & V1).
  destruct (weights_fin K O val fin rnd HF len w d dt r a Hl Hw Ec Df) as [F2 V2]. fold wn in F1, F2, V1, V2. fold wo in F2, V2.
  destruct (fl_cast _ _ _ _ _ HF a Af) as [_ V1']. fold wn in V1'.
  assert (Ra : 0 <= B2R a < 1 \/ B2R a = IZR len).
  { rewrite Av. destruct (Rle_lt_or_eq_dec _ _ P1) as [H|H].
    - left. apply (proj1 (alpha_range len w c Hl Hw Hc) H).
    - right. rewrite (proj2 (alpha_range len w c Hl Hw Hc) H), H. ring. }
  assert (Ex : rnd (1 - B2R a) = 1 - B2R a).
  { destruct Ra as [Ra|Ra].
    - destruct (Req_dec (B2R a) 0) as [Z0|Z0]; [rewrite Z0, Rminus_0_r; apply (fl_int _ _ _ _ _ HF 1); lia|].
      apply (fl_f32 _ _ _ _ _ HF). apply (grid_format 24 128 (-24)); [cbn; lia| |].
      + apply grid_add; [apply (grid_int (-24) 1); lia|apply grid_opp, Ga].
      + change (-24 + 24)%Z with 0%Z. cbn [bpow]. rewrite Rabs_pos_eq; lra.
    - rewrite Ra, <- minus_IZR. apply (fl_int _ _ _ _ _ HF). lia. }
  split; [exact F1|]. split; [exact F2|]. split; [exact V1'|]. split; [rewrite V2, V1'; exact Ex|]. split; [exact Ga|].
  destruct Ra as [Ra|Ra]; [split; rewrite Rabs_pos_eq; lra|]. rewrite Ra. split; [rewrite Rabs_pos_eq; lra|]. apply Rabs_le; lra.
Qed.

Section Raise.
  Context (prec emax : Z) {Hp : Prec_gt_0 prec} {Hm : Prec_lt_emax prec emax}.
  Notation F := (binary_float prec emax).
  Notation V := (ieee_view prec emax).
  Context (O : num_ops F) (cast : f32 -> F).
  Hypothesis Hadd : n_add O = f_add prec emax.
  Hypothesis Hmul : n_mul O = f_mul prec emax.
  Hypothesis Hzero : n_zero O = (B754_zero false : F).
  Hypothesis Hsz : (1 <= n_size_of O <= 64)%Z.
  Hypothesis HFL : float_line (f32_ctl_gen cast) O (val V) (fin V) (rnd V).
  Context (e : Z) (He : (0 <= e)%Z).
  Hypothesis Hp24 : (24 <= prec)%Z.

  Let g := (24 + (2 - emax))%Z.
  Definition rmr (a a' : F) : Prop := sc prec emax e a a' /\ (is_finite a = true -> grid g (B2R a)).
  Definition rW (wo wn wo' wn' : F) : Prop :=
    wo = wo' /\ wn = wn' /\ (grid (-24) (B2R wn) /\ grid (-24) (B2R wo) \/ forall a b, is_finite (n_add O (n_mul O a wo) (n_mul O b wn)) = false).

  Lemma mul_swap (a b : F) : f_mul prec emax a b = f_mul prec emax b a.
  Proof using.
    destruct a as [s|s| |s m x Hx], b as [t|t| |t m' x' Hx'];
      try reflexivity; try (destruct s, t; reflexivity).
    apply B2SF_inj. unfold f_mul, Bmult. rewrite !B2SF_SF2B.
    rewrite (xorb_comm s t), (Pos.mul_comm m m'), (Z.add_comm x x'). reflexivity.
  Qed.
  Lemma term_ok (w a : F) : grid (-24) (B2R w) -> (is_finite a = true -> grid g (B2R a)) -> zero_or (fmin V) (B2R w * B2R a).
  Proof using.
    intros [k Hk] Ha. destruct (is_finite a) eqn:Fa.
    - destruct (Ha eq_refl) as [l Hl]. rewrite Hk, Hl. cbn [fmin ieee_view].
      replace (IZR k * bpow radix2 (-24) * (IZR l * bpow radix2 g)) with (IZR (k * l) * bpow radix2 (2 - emax) - 0).
      + apply grid_zero_or; [eexists; reflexivity|exists 0%Z; ring].
      + rewrite mult_IZR. unfold g. rewrite bpow_plus, Rminus_0_r. 
        replace (bpow radix2 (-24)) with (/ bpow radix2 24) by (rewrite <- bpow_opp; reflexivity). field. apply Rgt_not_eq, bpow_gt_0.
    - left. destruct a; try discriminate; cbn; ring.
  Qed.

  Lemma raise_session p d m ops ops' : (0 <= m)%Z -> (m + 1 <= 2 ^ 24)%Z ->
    Forall2 (same_call (raised V e)) ops ops' -> Forall (stays_short (2 ^ 24)) ops ->
    alike (fun a b => Forall2 (same_answer (raised_answer V e)) (snd a) (snd b))
      (lin_session (f32_ctl_gen cast) O p d m ops) (lin_session (f32_ctl_gen cast) O p d m ops').
  Proof using Hadd Hmul Hzero Hsz HFL He Hp24.
    intros Hm0 Hm1 C Sh. assert (HF := float_line_fline _ _ _ _ _ HFL).
    assert (Hemin : (SpecFloat.emin prec emax <= g)%Z) by (unfold SpecFloat.emin, g; lia).
    apply (al_session O O cast cast p rmr (raised_answer V e) rW True (2 ^ 24) (fun _ => True)); try assumption; try lia; try tauto.
    - intros a a' [H _]. exact H.
    - rewrite Hzero. split; [apply sc_zero|]. intros _. apply grid_zero.
    - intros _ a a' b b' [A1 A2] [B1 B2]. rewrite Hadd. split; [apply sc_add; assumption|].
      intros Fs. destruct (fin_add prec emax a b Fs) as (Fa & Fb & ->). apply (RN_grid prec emax g); [exact Hemin|]. apply grid_add; auto.
    - intros wo wn wo' wn' a a' b b' (<- & <- & [[Gn Go]|N]) [A1 A2] [B1 B2].
      + rewrite Hadd, Hmul. apply sc_add; [exact He| |]; [rewrite !(mul_swap _ wo)|rewrite !(mul_swap _ wn)]; apply sc_mul; try assumption; apply term_ok; assumption.
      + intros Fy. exfalso. cbn [fin ieee_view] in Fy. rewrite N in Fy. discriminate.
    - intros len w d0 dt r a Hl Hw _ Ec. split; [reflexivity|]. split; [reflexivity|].
      assert (Dec : d0 = B754_nan \/ d0 <> B754_nan) by (destruct d0; (now left) || (right; discriminate)).
      destruct Dec as [->|Nd].
      + right. rewrite ctl_nan in Ec by (assert (2 ^ 24 < two64)%Z by reflexivity; lia). injection Ec as _ _ <-. exact (fl_nan _ _ _ _ _ HF).
      + left. destruct (weights_grid _ _ _ _ _ HFL len w d0 dt r a Hl Hw Nd Ec) as (_ & _ & Vn & Vo & G & _).
        cbn [val ieee_view c_cast f32_ctl_gen] in Vn, Vo. rewrite Vn, Vo. split; [exact G|].
        apply grid_add; [apply (grid_int (-24) 1); lia|apply grid_opp, G].
    - eapply F2_impl; [|exact C]. intros op op' H.
      assert (I : forall x x', raised V e x x' -> rmr x x').
      { intros x x' (F1 & F2 & E1 & k & E2). split; [intros _; split; [exact F1|exact E1]|]. intros _. exists k.
        cbn [val fmin ieee_view] in E2. rewrite E2. unfold g. rewrite bpow_plus. ring. }
      destruct op, op'; cbn [same_call] in *; try contradiction; auto; destruct H; auto.
    - clear. apply Forall_forall. intros op _. destruct op; exact Logic.I.
  Qed.
End Raise.

(*@PROP
(** C135: louder by a power of two.  Two lines with the same settings are given the same calls, of any kind and in any order, the
    second with every sample 2^e times as large.  Then they panic together or not at all, report the same sizes and delays, and every
    sample the second returns is, if finite, exactly 2^e times what the first returns.  Lines have at most 2^24 slots; samples must be
    multiples of 2^24 times the smallest normal number, so that the interpolation does not reach the subnormal numbers. *)
@*)
Lemma C135_raised_thm :
  forall (T : Type) (K : ctl_ops f32 T) (O : num_ops T) (V : float_view T),
    ieee O V -> float_line K O (val V) (fin V) (rnd V) ->
  forall (p : profile) (e : Z) (d : f32) (m : Z) (ops ops' : list (dl_op f32 T)),
    (0 <= e)%Z -> (0 <= m)%Z -> short (2 ^ 24) m ->
    Forall2 (same_call (raised V e)) ops ops' -> Forall (stays_short (2 ^ 24)) ops ->
    alike (fun r r' => Forall2 (same_answer (raised_answer V e)) (snd r) (snd r')) (lin_session K O p d m ops) (lin_session K O p d m ops').
Proof.
  intros T K O V HO HFL p e d m ops ops' He Hm0 Hm1 C Sh.
  destruct (fl_gen _ _ _ _ _ (float_line_fline _ _ _ _ _ HFL)) as [cast ->].
  destruct HO; [apply (raise_session 24 128)|apply (raise_session 53 1024)]; try reflexivity; try assumption; cbn; lia.
Qed.

(** The rounding of one blend with exact weights. *)
Lemma blend_round (S : Type) (Q : num_ops S) (U : float_view S) (a b wo wn : S) (M L : R) : ieee Q U ->
    fin U a = true -> fin U b = true -> fin U wo = true -> fin U wn = true ->
    Rabs (val U a) <= M -> Rabs (val U b) <= M -> Rabs (val U wo) <= L -> Rabs (val U wn) <= L -> 4 * (L * M) <= bpow radix2 126 ->
    let y := n_add Q (n_mul Q a wo) (n_mul Q b wn) in
    fin U y = true /\ Rabs (val U y - (val U a * val U wo + val U b * val U wn)) <= 8 * half_ulp U * (L * M) + 4 * half_tiny U.
Proof.
    intros HU Fa Fb Fo Fn Ba Bb Bo Bn HL y.
    assert (Core : forall (prec emax : Z) {Hp : Prec_gt_0 prec} {Hm : Prec_lt_emax prec emax} (a b wo wn : binary_float prec emax),
      (24 <= prec)%Z -> (128 <= emax)%Z ->
      is_finite a = true -> is_finite b = true -> is_finite wo = true -> is_finite wn = true ->
      Rabs (B2R a) <= M -> Rabs (B2R b) <= M -> Rabs (B2R wo) <= L -> Rabs (B2R wn) <= L ->
      let y := f_add prec emax (f_mul prec emax a wo) (f_mul prec emax b wn) in
      is_finite y = true /\ Rabs (B2R y - (B2R a * B2R wo + B2R b * B2R wn)) <= 8 * uro prec * (L * M) + 4 * eta prec emax).
    { clear - HL. intros prec emax Hp Hm a b wo wn P24 E128 Fa Fb Fo Fn Ba Bb Bo Bn y.
      assert (G : generic_format radix2 (SpecFloat.fexp prec emax) (bpow radix2 126)).
      { apply generic_format_bpow. unfold SpecFloat.fexp, SpecFloat.emin. lia. }
      assert (G4 : generic_format radix2 (SpecFloat.fexp prec emax) (bpow radix2 124)).
      { apply generic_format_bpow. unfold SpecFloat.fexp, SpecFloat.emin. lia. }
      assert (E4 : bpow radix2 126 = 4 * bpow radix2 124) by (change 126%Z with (2 + 124)%Z; rewrite bpow_plus; reflexivity).
      assert (BL : bpow radix2 126 < bpow radix2 emax) by (apply bpow_lt; lia).
      assert (BL4 : bpow radix2 124 < bpow radix2 emax) by (apply bpow_lt; lia).
      assert (Pa : Rabs (B2R a * B2R wo) <= L * M).
      { rewrite Rabs_mult, Rmult_comm. apply Rmult_le_compat; try apply Rabs_pos; assumption. }
      assert (Pb : Rabs (B2R b * B2R wn) <= L * M).
      { rewrite Rabs_mult, Rmult_comm. apply Rmult_le_compat; try apply Rabs_pos; assumption. }
      assert (B0 := bpow_gt_0 radix2 124).
      destruct (mul_ok prec emax a wo (bpow radix2 124) Fa Fo G4 BL4 ltac:(lra)) as [F1 E1].
      destruct (mul_ok prec emax b wn (bpow radix2 124) Fb Fn G4 BL4 ltac:(lra)) as [F2 E2].
      assert (Q1 : Rabs (B2R (f_mul prec emax a wo)) <= bpow radix2 124) by (rewrite E1; apply RN_abs_le; [assumption|exact G4|lra]).
      assert (Q2 : Rabs (B2R (f_mul prec emax b wn)) <= bpow radix2 124) by (rewrite E2; apply RN_abs_le; [assumption|exact G4|lra]).
      destruct (add_ok prec emax (f_mul prec emax a wo) (f_mul prec emax b wn) (bpow radix2 126) F1 F2 G BL) as [F3 E3].
      { eapply Rle_trans; [apply Rabs_triang|]. lra. }
      split; [exact F3|].
      pose proof (RN_err prec emax (B2R a * B2R wo)) as R1. pose proof (RN_err prec emax (B2R b * B2R wn)) as R2.
      rewrite <- E1 in R1. rewrite <- E2 in R2.
      pose proof (RN_err prec emax (B2R (f_mul prec emax a wo) + B2R (f_mul prec emax b wn))) as R3. rewrite <- E3 in R3. fold y in R3.
      set (A := B2R a * B2R wo) in *. set (B := B2R b * B2R wn) in *. set (A' := B2R (f_mul prec emax a wo)) in *. set (B' := B2R (f_mul prec emax b wn)) in *.
      assert (U0 := uro_pos prec). assert (U1 : uro prec <= / 16).
      { change (/ 16) with (bpow radix2 (-4)). apply bpow_le. lia. }
      assert (H0 : 0 <= eta prec emax) by (apply Rmult_le_pos; apply bpow_ge_0).
      set (u := uro prec) in *. set (h := eta prec emax) in *. set (Z := L * M) in *.
      assert (Z0 : 0 <= Z) by (assert (C := Rabs_pos A); lra).
      assert (S1 : Rabs (A' - A) <= u * Z + h) by nra. assert (S2 : Rabs (B' - B) <= u * Z + h) by nra.
      assert (S3 : Rabs (A' + B') <= 2 * Z + 2 * (u * Z + h)).
      { replace (A' + B') with (A + B + ((A' - A) + (B' - B))) by ring. eapply Rle_trans; [apply Rabs_triang|].
        eapply Rle_trans; [apply Rplus_le_compat; apply Rabs_triang|]. lra. }
      assert (S4 : Rabs (B2R y - (A' + B')) <= u * (2 * Z + 2 * (u * Z + h)) + h) by nra.
      replace (B2R y - (A + B)) with ((B2R y - (A' + B')) + ((A' - A) + (B' - B))) by ring.
      eapply Rle_trans; [apply Rabs_triang|]. eapply Rle_trans; [apply Rplus_le_compat; [exact S4|apply Rabs_triang]|].
      assert (u * Z <= / 16 * Z) by (apply Rmult_le_compat_r; lra). assert (u * h <= / 16 * h) by (apply Rmult_le_compat_r; lra).
      assert (u * (u * Z) <= / 16 * (u * Z)) by (apply Rmult_le_compat_r; nra). assert (0 <= u * Z) by nra. nra. }
    destruct HU; [apply (Core 24%Z 128%Z _ _ a b wo wn)|apply (Core 53%Z 1024%Z _ _ a b wo wn)]; try assumption; lia.
  Qed.

(*@PROP
(** C135: the same program in f32 and f64 (or twice in one type).  Two lines with the same settings are given the same calls and the
    same samples, of magnitude at most [M], in any order, [add_to] excepted.  They panic together or not at all, report the same sizes
    and delays, and every sample they return is finite, the two within the rounding errors of the two types of each other.  The lines
    have at most [lim] <= 2^24 slots; no delay asked for is NaN. *)
@*)
Lemma C135_types_agree_thm :
  forall (T T' : Type) (K : ctl_ops f32 T) (O : num_ops T) (V : float_view T) (K' : ctl_ops f32 T') (O' : num_ops T') (V' : float_view T'),
    ieee O V -> float_line K O (val V) (fin V) (rnd V) -> ieee O' V' -> float_line K' O' (val V') (fin V') (rnd V') ->
  forall (p : profile) (lim : Z) (M : R) (d : f32) (m : Z) (ops : list (dl_op f32 T)) (ops' : list (dl_op f32 T')),
    (lim <= 2 ^ 24)%Z -> 4 * (IZR lim * M) <= bpow radix2 126 -> 0 <= M ->
    d <> B754_nan -> (0 <= m)%Z -> short lim m ->
    Forall2 (same_call (same_sample V V' M)) ops ops' -> Forall (stays_short lim) ops -> Forall no_sum ops ->
    (forall d', In (DSetDelay d') ops -> d' <> B754_nan) ->
    alike (fun r r' => Forall2 (same_answer (near_answer V V' (8 * (half_ulp V + half_ulp V') * (IZR lim * M) + 4 * (half_tiny V + half_tiny V')))) (snd r) (snd r'))
      (lin_session K O p d m ops) (lin_session K' O' p d m ops').
Proof.
  intros T T' K O V K' O' V' HO HFL HO' HFL' p lim M d m ops ops' Hlim HM M0 Hd Hm0 Hm1 C Sh Sn Sd.
  destruct (fl_gen _ _ _ _ _ (float_line_fline _ _ _ _ _ HFL)) as [cast ->].
  destruct (fl_gen _ _ _ _ _ (float_line_fline _ _ _ _ _ HFL')) as [cast' ->].
  destruct (fl_zero _ _ _ _ _ (float_line_fline _ _ _ _ _ HFL)) as [Zf Zv].
  destruct (fl_zero _ _ _ _ _ (float_line_fline _ _ _ _ _ HFL')) as [Zf' Zv'].
  unfold short in Hm1.
  assert (L1 : 1 <= IZR lim) by (apply IZR_le; lia).
  assert (Pos : forall S (Q : num_ops S) (U : float_view S), ieee Q U -> 0 <= half_ulp U /\ 0 <= half_tiny U).
  { intros S Q U HU. split; [apply bpow_ge_0|]. apply Rmult_le_pos; [apply bpow_ge_0|]. destruct HU; apply bpow_ge_0. }
  destruct (Pos _ _ _ HO) as [U1 U2]. destruct (Pos _ _ _ HO') as [U1' U2'].
  assert (LM : 0 <= IZR lim * M) by (apply Rmult_le_pos; lra).
  set (E := 8 * (half_ulp V + half_ulp V') * (IZR lim * M) + 4 * (half_tiny V + half_tiny V')).
  assert (E0 : 0 <= E).
  { unfold E. assert (0 <= (half_ulp V + half_ulp V') * (IZR lim * M)) by (apply Rmult_le_pos; lra). lra. }
  set (W := fun (wo wn : T) (wo' wn' : T') => fin V wo = true /\ fin V wn = true /\ fin V' wo' = true /\ fin V' wn' = true
    /\ val V wo = val V' wo' /\ val V wn = val V' wn' /\ Rabs (val V wo) <= IZR lim /\ Rabs (val V wn) <= IZR lim).
  apply (al_session O O' cast cast' p (same_sample V V' M) (near_answer V V' E) W False lim (fun d => d <> B754_nan)); try assumption.
  - destruct HO; cbn; lia.
  - destruct HO'; cbn; lia.
  - intros a a' (F1 & F2 & E1 & B1). split; [exact F1|]. split; [exact F2|]. rewrite E1, Rminus_diag_eq, Rabs_R0 by reflexivity. exact E0.
  - split; [exact Zf|]. split; [exact Zf'|]. rewrite Zv, Zv', Rabs_R0. split; [reflexivity|exact M0].
  - intros [].
  - intros wo wn wo' wn' a a' b b' (Fo & Fn & Fo' & Fn' & Eo & En & Bo & Bn) (Fa & Fa' & Ea & Ba) (Fb & Fb' & Eb & Bb).
    destruct (blend_round T O V a b wo wn M (IZR lim) HO Fa Fb Fo Fn Ba Bb Bo Bn HM) as [F1 D1].
    rewrite Ea in Ba. rewrite Eb in Bb. rewrite Eo in Bo. rewrite En in Bn.
    destruct (blend_round T' O' V' a' b' wo' wn' M (IZR lim) HO' Fa' Fb' Fo' Fn' Ba Bb Bo Bn HM) as [F2 D2].
    split; [exact F1|]. split; [exact F2|]. rewrite Ea, Eb, Eo, En in D1.
    match type of D1 with Rabs (?x - ?t) <= _ => match type of D2 with Rabs (?y - _) <= _ => replace (x - y) with ((x - t) - (y - t)) by ring end end.
    eapply Rle_trans; [apply Rabs_triang|]. rewrite Rabs_Ropp. unfold E. lra.
  - intros len w d0 dt r a Hl Hw Nd Ec.
    assert (Hl24 : (1 <= len <= 2 ^ 24)%Z) by lia.
    destruct (weights_grid _ _ _ _ _ HFL len w d0 dt r a Hl24 Hw Nd Ec) as (F1 & F2 & V1 & V2 & _ & B1 & B2).
    assert (Ec' : ctl (f32_ctl_gen cast') len w d0 = Ok (dt, r, a)) by (rewrite (ctl_cast cast cast'); exact Ec).
    destruct (weights_grid _ _ _ _ _ HFL' len w d0 dt r a Hl24 Hw Nd Ec') as (F1' & F2' & V1' & V2' & _ & _ & _).
    cbn [c_cast f32_ctl_gen] in *. assert (IZR len <= IZR lim) by (apply IZR_le; lia).
    unfold W. rewrite V1, V2, V1', V2'. repeat split; try assumption; lra.
  - intros d0 m0 Hm2 Nd E1. destruct (clip_f32 cast d0 m0 Hm2 Nd) as [F _]. rewrite E1 in F. discriminate.
  - apply Forall_forall. intros op Hin. destruct op; try exact I. apply Sd. exact Hin.
  - right. exact Sn.
Qed.

(*@PROP
(** Corresponding sessions on a line of 8 slots: samples and 8 times these samples, ... *)
Example C135_raised_hyps :
  let V := ieee_view 24 128 in
  ieee O32 V /\ float_line f32_ctl_f32 O32 (val V) (fin V) (rnd V) /\ short (2 ^ 24) 7
  /\ Forall2 (same_call (raised V 3))
       [DProcess (fl32 1 0); DSetDelay (fl32 5 (-1)); DNextOut; DTapIn (fl32 1 0) 2; DAddTo (fl32 1 0) 2; DSetMaxDelay 20; DClear]
       [DProcess (fl32 8 0); DSetDelay (fl32 5 (-1)); DNextOut; DTapIn (fl32 8 0) 2; DAddTo (fl32 8 0) 2; DSetMaxDelay 20; DClear]
  /\ stays_short (2 ^ 24) (@DSetMaxDelay f32 f32 20).
Proof.
  cbv zeta. assert (E1 : B2R (fl32 1 0) = 1) by (cbn; unfold F2R; cbn; lra). assert (E8 : B2R (fl32 8 0) = 8) by (cbn; unfold F2R; cbn; lra).
  assert (R : raised (ieee_view 24 128) 3 (fl32 1 0) (fl32 8 0)).
  { split; [reflexivity|]. split; [reflexivity|]. cbn [val fmin ieee_view]. rewrite E1, E8. split; [cbn; lra|].
    exists (2 ^ 102)%Z. change (2 ^ 102)%Z with (radix2 ^ 102)%Z. rewrite IZR_Zpower by lia. rewrite <- !bpow_plus. reflexivity. }
  split; [constructor|]. split; [constructor|]. split; [unfold short; lia|]. split; [|cbn; unfold short; lia].
  repeat (constructor; [cbn [same_call]; auto|]). constructor.
Qed.

(** ... and the same samples in f32 and f64. *)
Example C135_types_agree_hyps :
  let V := ieee_view 24 128 in let V' := ieee_view 53 1024 in
  float_line f32_ctl_f32 O32 (val V) (fin V) (rnd V) /\ float_line f32_ctl_f64 O64 (val V') (fin V') (rnd V')
  /\ short 8 7 /\ 4 * (IZR 8 * 1) <= bpow radix2 126 /\ fl32 5 (-1) <> B754_nan
  /\ Forall2 (same_call (same_sample V V' 1))
       [DProcess (fl32 1 0); DSetDelay (fl32 5 (-1)); DNextOut; DTapIn (fl32 1 0) 2; DTapOut 2; DClear]
       [DProcess (fl64 1 0); DSetDelay (fl32 5 (-1)); DNextOut; DTapIn (fl64 1 0) 2; DTapOut 2; DClear].
Proof.
  cbv zeta. assert (E1 : B2R (fl32 1 0) = 1) by (cbn; unfold F2R; cbn; lra). assert (E2 : B2R (fl64 1 0) = 1) by (cbn; unfold F2R; cbn; lra).
  assert (R : same_sample (ieee_view 24 128) (ieee_view 53 1024) 1 (fl32 1 0) (fl64 1 0)).
  { split; [reflexivity|]. split; [reflexivity|]. cbn [val ieee_view]. rewrite E1, E2, Rabs_R1. lra. }
  split; [constructor|]. split; [constructor|]. split; [unfold short; lia|]. split.
  { apply Rle_trans with (bpow radix2 5); [cbn; lra|]. apply bpow_le. lia. }
  split; [intros E; apply (f_equal is_finite) in E; discriminate|].
  repeat (constructor; [cbn [same_call]; auto|]). constructor.
Qed.
@*)
