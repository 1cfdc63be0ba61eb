(** Proofs of C146.  The [@PROP] blocks are copied into [PropFltPair.v]. *)
(*@PROP
(** Property C146: complementary filters side by side in [f32] and [f64].

    Vocabulary: [branch], [both], [three], [without], [mixed], [branch_level], [rates] ([FltPairSpec]);
    [rated], [stage_error], [ideal_args] ([FltChainSpec], as in C142); [rbj_out]: the ideal filter
    ([RbjSpec]). *)
From Coq Require Import ZArith Reals List Bool Lra Lia.
From Flocq Require Import Core.Core IEEE754.BinarySingleNaN.
From Verif Require Import Base Num NumR NumF FloatSpec FloatFacts Witness CrLibm FilterM RbjM Device Signal FltFilterSpec
  RbjSpec RbjFltSpec RbjAccSpec DbSpec GainAccSpec FltChainSpec FltPairSpec FltCrossLemmas FltPairLemmas.
Import ListNotations.
Open Scope R_scope.
@*)
From Coq Require Import ZArith Reals List Bool Lra Lia.
From Coquelicot Require Import Coquelicot.
From Flocq Require Import Core.Core IEEE754.BinarySingleNaN.
From Verif Require Import Base Num NumR NumF FloatSpec FloatFacts Witness CrLibm FilterM RbjM Device Signal SignalFacts FilterFacts FilterLemmas
  FltFilterSpec FltFilterFacts FltFilterLemmas RbjSpec RbjLemmas RbjFltSpec RbjFltLemmas RbjAccSpec RbjAccLemmas DbSpec GainAccSpec GainAccLemmas
  FltChainSpec FltChainLemmas FltCrossLemmas FltPairSpec.
Import ListNotations.
Open Scope R_scope.

Lemma gap_close {T} (O : num_ops T) (V : float_view T) : ieee O V -> forall a b L, fin V a = true -> fin V b = true ->
  Rabs (val V a - val V b) <= L -> 2 * L <= fmax V ->
  fin V (n_sub O a b) = true /\ Rabs (val V (n_sub O a b) - (val V a - val V b)) <= bpow radix2 (- fprec V) * L.
Proof.
  intros HO. destruct HO as [lm p|lm p]; intros a b L Fa Fb Hl Hm.
  - assert (B : Rabs (B2R a - B2R b) <= bpow radix2 127).
    { cbn [fmax ieee_view val] in *. assert (X := bpow_gt_0 radix2 (-24)). change (- (24))%Z with (-24)%Z in Hm.
      assert (Y : bpow radix2 128 = 2 * bpow radix2 127) by (change 128%Z with (1 + 127)%Z; rewrite bpow_plus; reflexivity).
      assert (Z := bpow_gt_0 radix2 127). rewrite Y in Hm. nra. }
    destruct (sub_ok 24 128 a b (bpow radix2 127) Fa Fb ltac:(apply (format_bpow 24 128); unfold SpecFloat.emin; lia) ltac:(apply bpow_lt; lia) B) as [F E].
    split; [exact F|]. cbn [val ieee_view fprec]. change (n_sub (f32_ops lm p) a b) with (f_sub 24 128 a b). rewrite E.
    unfold Rminus at 2 3. eapply Rle_trans; [apply (RN_err_format 24 128); [|apply generic_format_opp]; apply generic_format_B2R|].
    apply Rmult_le_compat_l; [apply bpow_ge_0|exact Hl].
  - assert (B : Rabs (B2R a - B2R b) <= bpow radix2 1023).
    { cbn [fmax ieee_view val] in *. assert (X := bpow_gt_0 radix2 (-53)). change (- (53))%Z with (-53)%Z in Hm.
      assert (Y : bpow radix2 1024 = 2 * bpow radix2 1023) by (change 1024%Z with (1 + 1023)%Z; rewrite bpow_plus; reflexivity).
      assert (Z := bpow_gt_0 radix2 1023). rewrite Y in Hm. nra. }
    destruct (sub_ok 53 1024 a b (bpow radix2 1023) Fa Fb ltac:(apply (format_bpow 53 1024); unfold SpecFloat.emin; lia) ltac:(apply bpow_lt; lia) B) as [F E].
    split; [exact F|]. cbn [val ieee_view fprec]. change (n_sub (f64_ops lm p) a b) with (f_sub 53 1024 a b). rewrite E.
    unfold Rminus at 2 3. eapply Rle_trans; [apply (RN_err_format 53 1024); [|apply generic_format_opp]; apply generic_format_B2R|].
    apply Rmult_le_compat_l; [apply bpow_ge_0|exact Hl].
Qed.

(** One branch: near to the ideal filter, and not too loud. *)
Lemma branch_close (T : Type) (O : num_ops T) (V : float_view T) (HO : ieee O V) (HT : trig_close O V) (HP : pow10_close O V)
  r kind args M (x : nat -> T) : rates V r kind args M -> (forall n, fin V (x n) = true /\ Rabs (val V (x n)) <= M) ->
  forall n, fin V (branch O kind args x n) = true /\ Rabs (val V (branch O kind args x n)) <= branch_level V r M
    /\ Rabs (val V (branch O kind args x n) - rbj_out kind (ideal_args V args) (fun n => val V (x n)) n) <= stage_error V r M.
Proof.
  intros [E [Hr Hm]] Hx n.
  assert (S := stage_tracks T O V HO HT HP r M 0 x (fun n => val V (x n)) Hr Hm Hx
    ltac:(intros m; cbv beta; rewrite Rminus_eq_0, Rabs_R0; lra) n).
  cbv zeta in S. rewrite E in S. cbn [fst snd] in S. destruct S as [F [L B]]. split; [exact F|]. split; [exact L|].
  rewrite Rmult_0_r, Rplus_0_r in B. exact B.
Qed.

Lemma ideal_parts {T} (V : float_view T) sr f q r kind M (x : signal) n : rates V r kind (RbjQ sr f q) M ->
  let o kind := rbj_out kind (ideal_args V (RbjQ sr f q)) x n in
  o LowPass + o HighPass = o BandStop /\ o BandStop + o BandPass2 = x n /\ o AllPass = o BandStop - o BandPass2.
Proof.
  intros [E [[Hr _] _]]. rewrite E in Hr. cbn [in_range snd] in Hr. destruct Hr as [Ha [_ Hq]].
  assert (Sn := audible_sin V _ _ Ha). destruct Ha as [[_ Ar] _].
  assert (S0 : 0 < val V sr) by lra. assert (Q0 : 0 < val V q) by lra.
  assert (A0 : 0 <= sin (2 * PI * val V f / val V sr) / (2 * val V q)) by (apply Rmult_le_pos; [exact Sn|left; apply Rinv_0_lt_compat; lra]).
  assert (A1 : 0 < 1 + sin (omega (val V sr) (val V f)) / (2 * val V q)) by (unfold omega; lra).
  destruct (C45_complementary_thm (val V sr) (val V f) (val V q) x n (Rgt_not_eq _ _ S0) (Rgt_not_eq _ _ Q0) (Rgt_not_eq _ _ A1)) as [P1 [P2 [P3 _]]].
  split; [|split]; assumption.
Qed.

(*@PROP
(** C146: the float sum of LowPass and HighPass is the ideal BandStop, and the float sum of BandStop
    and BandPass2 is the input, up to the rounding errors of the two filters and of the addition. *)
@*)
Lemma C146_pairs_thm :
  forall (T : Type) (O : num_ops T) (V : float_view T), ieee O V -> trig_close O V -> pow10_close O V ->
  forall sr f q (a b : rated T) (M : R) (x : nat -> T),
    let args := RbjQ sr f q in let level := branch_level V a M + branch_level V b M in
    let error := stage_error V a M + stage_error V b M + bpow radix2 (- fprec V) * level in
    2 * level <= fmax V -> (forall n, fin V (x n) = true /\ Rabs (val V (x n)) <= M) ->
    (rates V a LowPass args M -> rates V b HighPass args M ->
       forall n, fin V (both O LowPass HighPass args x n) = true
         /\ Rabs (val V (both O LowPass HighPass args x n) - rbj_out BandStop (ideal_args V args) (fun n => val V (x n)) n) <= error)
    /\ (rates V a BandStop args M -> rates V b BandPass2 args M ->
       forall n, fin V (both O BandStop BandPass2 args x n) = true
         /\ Rabs (val V (both O BandStop BandPass2 args x n) - val V (x n)) <= error).
Proof.
  intros T O V HO HT HP sr f q a b M x args level error Hm Hx.
  assert (K : forall k k', rates V a k args M -> rates V b k' args M -> forall n, fin V (both O k k' args x n) = true
    /\ Rabs (val V (both O k k' args x n) - (rbj_out k (ideal_args V args) (fun n => val V (x n)) n
          + rbj_out k' (ideal_args V args) (fun n => val V (x n)) n)) <= error).
  { intros k k' Ra Rb n.
    destruct (branch_close T O V HO HT HP a k args M x Ra Hx n) as [Fa [La Ba]].
    destruct (branch_close T O V HO HT HP b k' args M x Rb Hx n) as [Fb [Lb Bb]].
    destruct (sum_close O V HO _ _ level Fa Fb) as [F B]; [eapply Rle_trans; [apply Rabs_triang|]; unfold level; lra|exact Hm|].
    split; [exact F|]. unfold both, error. apply Rabs_le_inv in Ba, Bb, B. apply Rabs_le. lra. }
  split; intros Ra Rb n; destruct (K _ _ Ra Rb n) as [F B]; (split; [exact F|]);
    destruct (ideal_parts V sr f q _ _ M (fun n => val V (x n)) n Ra) as [P1 [P2 _]]; fold args in P1, P2.
  - rewrite P1 in B. exact B.
  - rewrite P2 in B. exact B.
Qed.

(*@PROP
(** C146: the bands of LowPass, HighPass and BandPass2 add up to the input in floating point. *)
@*)
Lemma C146_three_bands_thm :
  forall (T : Type) (O : num_ops T) (V : float_view T), ieee O V -> trig_close O V -> pow10_close O V ->
  forall sr f q (a b c : rated T) (M : R) (x : nat -> T),
    let args := RbjQ sr f q in let u := bpow radix2 (- fprec V) in
    let two := branch_level V a M + branch_level V b M in let all := (1 + u) * two + branch_level V c M in
    rates V a LowPass args M -> rates V b HighPass args M -> rates V c BandPass2 args M ->
    2 * all <= fmax V -> (forall n, fin V (x n) = true /\ Rabs (val V (x n)) <= M) ->
    forall n, fin V (three O LowPass HighPass BandPass2 args x n) = true
      /\ Rabs (val V (three O LowPass HighPass BandPass2 args x n) - val V (x n))
         <= stage_error V a M + stage_error V b M + stage_error V c M + u * (two + all).
Proof.
  intros T O V HO HT HP sr f q a b c M x args u two all Ra Rb Rc Hm Hx n.
  assert (U0 : 0 < u) by apply bpow_gt_0.
  destruct (branch_close T O V HO HT HP a _ args M x Ra Hx n) as [Fa [La Ba]].
  destruct (branch_close T O V HO HT HP b _ args M x Rb Hx n) as [Fb [Lb Bb]].
  destruct (branch_close T O V HO HT HP c _ args M x Rc Hx n) as [Fc [Lc Bc]].
  assert (Pa : 0 <= branch_level V a M) by (eapply Rle_trans; [apply Rabs_pos|exact La]).
  assert (Pb : 0 <= branch_level V b M) by (eapply Rle_trans; [apply Rabs_pos|exact Lb]).
  assert (Pc : 0 <= branch_level V c M) by (eapply Rle_trans; [apply Rabs_pos|exact Lc]).
  assert (Tw : 0 <= two) by (unfold two; lra). assert (Ut : 0 <= u * two) by (apply Rmult_le_pos; lra).
  assert (L2 : Rabs (val V (branch O LowPass args x n) + val V (branch O HighPass args x n)) <= two)
    by (eapply Rle_trans; [apply Rabs_triang|]; unfold two; lra).
  destruct (sum_close O V HO _ _ two Fa Fb L2) as [F B]; [unfold all in Hm; lra|]. fold u in B. fold (both O LowPass HighPass args x n) in F, B.
  assert (L3 : Rabs (val V (both O LowPass HighPass args x n) + val V (branch O BandPass2 args x n)) <= all).
  { apply Rabs_le_inv in B, L2, Lc. unfold all. apply Rabs_le. lra. }
  destruct (sum_close O V HO _ _ all F Fc L3 Hm) as [F3 B3]. fold u in B3. split; [exact F3|].
  destruct (ideal_parts V sr f q _ _ M (fun n => val V (x n)) n Ra) as [P1 [P2 _]]. fold args in P1, P2.
  unfold three. apply Rabs_le_inv in Ba, Bb, Bc, B, B3. apply Rabs_le. lra.
Qed.

(*@PROP
(** C146: the input without BandPass2 is the ideal BandStop, and the input without BandStop the
    ideal BandPass2, up to rounding errors: the missing filter need not be run. *)
@*)
Lemma C146_without_thm :
  forall (T : Type) (O : num_ops T) (V : float_view T), ieee O V -> trig_close O V -> pow10_close O V ->
  forall sr f q k k' (r : rated T) (M : R) (x : nat -> T),
    let args := RbjQ sr f q in let level := M + branch_level V r M in
    (k, k') = (BandPass2, BandStop) \/ (k, k') = (BandStop, BandPass2) -> rates V r k args M ->
    2 * level <= fmax V -> (forall n, fin V (x n) = true /\ Rabs (val V (x n)) <= M) ->
    forall n, fin V (without O k args x n) = true
      /\ Rabs (val V (without O k args x n) - rbj_out k' (ideal_args V args) (fun n => val V (x n)) n)
         <= stage_error V r M + bpow radix2 (- fprec V) * level.
Proof.
  intros T O V HO HT HP sr f q k k' r M x args level Hk Rr Hm Hx n.
  destruct (branch_close T O V HO HT HP r k args M x Rr Hx n) as [F [L B]]. destruct (Hx n) as [Fx Lx].
  destruct (gap_close O V HO _ _ level Fx F) as [F2 B2]; [|exact Hm|].
  { apply Rabs_le_inv in L, Lx. unfold level. apply Rabs_le. lra. }
  split; [exact F2|]. destruct (ideal_parts V sr f q _ _ M (fun n => val V (x n)) n Rr) as [_ [P _]]. fold args in P. cbv beta in P.
  unfold without. apply Rabs_le_inv in B, B2.
  destruct Hk as [Hk|Hk]; injection Hk as -> ->; apply Rabs_le; lra.
Qed.

(*@PROP
(** C146: half a phaser: the input plus AllPass is twice the ideal BandStop, the input minus AllPass
    twice the ideal BandPass2, up to rounding errors. *)
@*)
Lemma C146_phaser_thm :
  forall (T : Type) (O : num_ops T) (V : float_view T), ieee O V -> trig_close O V -> pow10_close O V ->
  forall sr f q (r : rated T) (M : R) (x : nat -> T),
    let args := RbjQ sr f q in let level := M + branch_level V r M in
    let error := stage_error V r M + bpow radix2 (- fprec V) * level in
    let ideal kind := rbj_out kind (ideal_args V args) (fun n => val V (x n)) in
    rates V r AllPass args M -> 2 * level <= fmax V -> (forall n, fin V (x n) = true /\ Rabs (val V (x n)) <= M) ->
    forall n,
      (fin V (mixed O AllPass args x n) = true /\ Rabs (val V (mixed O AllPass args x n) - 2 * ideal BandStop n) <= error)
      /\ (fin V (without O AllPass args x n) = true /\ Rabs (val V (without O AllPass args x n) - 2 * ideal BandPass2 n) <= error).
Proof.
  intros T O V HO HT HP sr f q r M x args level error ideal Rr Hm Hx n.
  destruct (branch_close T O V HO HT HP r _ args M x Rr Hx n) as [F [L B]]. destruct (Hx n) as [Fx Lx].
  destruct (ideal_parts V sr f q _ _ M (fun n => val V (x n)) n Rr) as [_ [P2 P3]]. fold args in P2, P3. cbv beta in P2, P3.
  fold (ideal BandStop) (ideal BandPass2) (ideal AllPass) in P2, P3.
  change (rbj_out AllPass (ideal_args V args) (fun n => val V (x n)) n) with (ideal AllPass n) in *.
  change (rbj_out BandStop (ideal_args V args) (fun n => val V (x n)) n) with (ideal BandStop n) in *.
  change (rbj_out BandPass2 (ideal_args V args) (fun n => val V (x n)) n) with (ideal BandPass2 n) in *.
  unfold mixed, without, error. apply Rabs_le_inv in L, Lx.
  split.
  - destruct (sum_close O V HO _ _ level Fx F) as [F2 B2]; [unfold level; apply Rabs_le; lra|exact Hm|].
    split; [exact F2|]. apply Rabs_le_inv in B, B2. apply Rabs_le. lra.
  - destruct (gap_close O V HO _ _ level Fx F) as [F2 B2]; [unfold level; apply Rabs_le; lra|exact Hm|].
    split; [exact F2|]. apply Rabs_le_inv in B, B2. apply Rabs_le. lra.
Qed.

Lemma C146_hyps_aux : let O := f64_ops (cr_libm 53 1024) false in let V := ieee_view 53 1024 in
  let args := RbjQ (fl64 44100 0) (fl64 1000 0) (fl64 6369051672525773 (-53)) in
  ieee O V /\ trig_close O V /\ pow10_close O V
  /\ (forall kind, In kind [LowPass; HighPass; BandStop; BandPass2; AllPass] -> rates V (demo_cross kind) kind args 1)
  /\ (forall kind, branch_level V (demo_cross kind) 1 <= 1201) /\ (forall kind, stage_error V (demo_cross kind) 1 <= / 1000000)
  /\ 100000 <= fmax V
  /\ forall n : nat, fin V ((fun _ => fl64 1 0) n) = true /\ Rabs (val V ((fun _ => fl64 1 0) n)) <= 1.
Proof.
  intros O V args. set (q := fl64 6369051672525773 (-53)) in *. destruct C97_hyps_aux as [HO [HT [HP [Ha [_ [_ [_ [_ [_ [_ [_ [Hx _]]]]]]]]]]]].
  split; [exact HO|]. split; [exact HT|]. split; [exact HP|].
  assert (E1 : val V (fl64 44100 0) = 44100) by (unfold V; cbn [val ieee_view]; lit; lra).
  assert (E2 : val V (fl64 1000 0) = 1000) by (unfold V; cbn [val ieee_view]; lit; lra).
  assert (E4 : val V q = 6369051672525773 / 9007199254740992) by (unfold V, q; cbn [val ieee_view]; lit; lra).
  assert (Uv : bpow radix2 (- fprec V) = / 9007199254740992) by (cbn; lra).
  assert (HS : 9 / 100 <= sin (2 * PI * val V (fl64 1000 0) / val V (fl64 44100 0)) <= 1).
  { rewrite E1, E2. split; [|apply SIN_bound]. eapply Rle_trans; [exact sin_tenth|]. assert (P := ConstLemmas.pi_20).
    apply sin_incr_1; lra. }
  assert (Ec : forall kind, 0 <= coef_error V (r_set (demo_cross kind)) <= 300 * / 9007199254740992).
  { intros kind. unfold coef_error, q_error, demo_cross. cbn [r_set snd]. fold q. rewrite E4, Uv. lra. }
  assert (FM : 1073741824 <= fmax V).
  { cbn [fmax V ieee_view]. change (- (53))%Z with (-53)%Z. assert (B1 : bpow radix2 31 <= bpow radix2 1024) by (apply bpow_le; lia).
    assert (B2 : bpow radix2 (-53) <= / 2) by (change (/ 2) with (bpow radix2 (-1)); apply bpow_le; lia).
    assert (B3 : bpow radix2 31 = 2147483648) by (cbn; lra). nra. }
  assert (Hok : forall kind, In kind [LowPass; HighPass; BandStop; BandPass2; AllPass] -> rated_ok V (demo_cross kind)).
  { intros kind Hk.
    assert (Hr : in_range V (r_set (demo_cross kind))).
    { split; [exact Ha|]. split; [vm_compute; reflexivity|]. fold q. rewrite E4. lra. }
    assert (X : exists c0 c1 c2 d1 d2, rbj_coeffs R_ops kind (ideal_args V (snd (r_set (demo_cross kind)))) = Some (c0, c1, c2, d1, d2)).
    { destruct Hk as [<- |[<- |[<- |[<- |[<- |[]]]]]]; repeat eexists. }
    destruct X as [c0 [c1 [c2 [d1 [d2 Ed]]]]].
    assert (HG : peak_gain d1 d2 300).
    { destruct (C94_rbj_gain_thm kind (val V (fl64 44100 0)) (val V (fl64 1000 0)) (val V q) c0 c1 c2 d1 d2
        ltac:(lra) ltac:(lra) Ed) as [G _]. specialize (G ltac:(lra)). rewrite E4 in G.
      set (s := sin (2 * PI * val V (fl64 1000 0) / val V (fl64 44100 0))) in *. clearbody s.
      refine (peak_gain_mono _ _ _ _ _ G).
      assert (I : 0 < / s <= 100 / 9).
      { split; [apply Rinv_0_lt_compat; lra|]. replace (100 / 9) with (/ (9 / 100)) by field. apply Rinv_le_contravar; lra. }
      assert (Y : 0 <= 2 * (6369051672525773 / 9007199254740992) / s <= 1415 / 1000 * (100 / 9)).
      { unfold Rdiv at 1 3. split; [apply Rmult_le_pos; lra|]. apply Rmult_le_compat; lra. }
      apply Rle_trans with ((1 + 1415 / 1000 * (100 / 9)) ^ 2); [apply pow_incr; lra|lra]. }
    split; [exact Hr|]. split; [exists c0, c1, c2, d1, d2; split; [exact Ed|exact HG]|]. split.
    - cbn [demo_cross r_H]. replace 1200 with (4 * 300) by ring.
      exact (proj1 C142_levels_thm _ V (r_set (demo_cross kind)) c0 c1 c2 d1 d2 300 Hr Ed HG).
    - specialize (Ec kind). cbn [demo_cross r_G]. lra. }
  destruct (fmin_small _ O V HO) as [Fm _].
  assert (Fs : fmin V <= 1) by (change 1 with (bpow radix2 0); cbn [fmin V ieee_view]; apply bpow_le; lia).
  assert (St : forall kind, stage_error V (demo_cross kind) 1 <= / 1000000).
  { intros kind. specialize (Ec kind). unfold stage_error. change (r_H (demo_cross kind)) with 1200. change (r_G (demo_cross kind)) with 300.
    set (e := coef_error V (r_set (demo_cross kind))) in *. clearbody e. set (m := fmin V) in *. clearbody m.
    assert (0 <= e * (1 + 1200 * 1 + m) <= 300 * / 9007199254740992 * 1202).
    { split; [apply Rmult_le_pos; lra|]. apply Rmult_le_compat; lra. }
    lra. }
  split.
  { intros kind Hk. split; [reflexivity|]. split; [exact (Hok kind Hk)|]. change (r_H (demo_cross kind)) with 1200. lra. }
  split; [intros kind; specialize (St kind); unfold branch_level; change (r_H (demo_cross kind)) with 1200; lra|].
  split; [exact St|]. split; [lra|exact Hx].
Qed.

(*@PROP
(** C146 is met in [f64] by a library with correctly rounded functions: filters at 1 kHz, the sample
    rate being 44100 Hz, with the float next to 1/sqrt 2 for Q, on the input 1, 1, 1, ...; the errors
    of each filter are under 1/1000000, and the levels leave more than enough head room. *)
Example C146_hyps : let O := f64_ops (cr_libm 53 1024) false in let V := ieee_view 53 1024 in
  let args := RbjQ (fl64 44100 0) (fl64 1000 0) (fl64 6369051672525773 (-53)) in
  ieee O V /\ trig_close O V /\ pow10_close O V
  /\ (forall kind, In kind [LowPass; HighPass; BandStop; BandPass2; AllPass] -> rates V (demo_cross kind) kind args 1)
  /\ (forall kind, branch_level V (demo_cross kind) 1 <= 1201) /\ (forall kind, stage_error V (demo_cross kind) 1 <= / 1000000)
  /\ 100000 <= fmax V
  /\ forall n : nat, fin V ((fun _ => fl64 1 0) n) = true /\ Rabs (val V ((fun _ => fl64 1 0) n)) <= 1.
Proof. exact C146_hyps_aux. Qed.
@*)
