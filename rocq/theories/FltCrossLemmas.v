(** Proofs of C143.  The [@PROP] blocks are copied into [PropFltCross.v]. *)
(*@PROP
(** Property C143: a Linkwitz-Riley crossover in [f32] and [f64] adds up to the ideal all-pass.

    Vocabulary: [recombined], [cross_error], [cross_level] ([FltCrossSpec]); [rated], [chain_ok],
    [ideal_args] ([FltChainSpec]); [rbj_out] ([RbjSpec]); [trig_close], [pow10_close]: sine,
    cosine and power of the platform ([RbjFltSpec], [DbSpec]). *)
From Coq Require Import ZArith Reals List Bool Lra Lia.
From Flocq Require Import Core.Core IEEE754.BinarySingleNaN.
From Verif Require Import Base Num NumR NumF FloatSpec FloatFacts Witness CrLibm FilterM RbjM Device Signal FltFilterSpec
  RbjSpec RbjFltSpec RbjAccSpec DbSpec FltChainSpec FltCrossSpec FltCrossLemmas.
Import ListNotations.
Open Scope R_scope.
@*)
From Coq Require Import ZArith Reals List Bool Lra Lia.
From Flocq Require Import Core.Core IEEE754.BinarySingleNaN.
From Verif Require Import Base Num NumR NumF FloatSpec FloatFacts Witness CrLibm FilterM RbjM Device Signal
  FltFilterSpec FltFilterFacts FltFilterLemmas RbjSpec RbjFltSpec RbjFltLemmas RbjAccSpec RbjAccLemmas DbSpec DbLemmas GainAccLemmas CrossLemmas
  FltChainSpec FltChainLemmas FltCrossSpec.
Import ListNotations.
Open Scope R_scope.

(** The sum of two floats. *)
Lemma sum_close {T} (O : num_ops T) (V : float_view T) : ieee O V -> forall a b L, fin V a = true -> fin V b = true ->
  Rabs (val V a + val V b) <= L -> 2 * L <= fmax V ->
  fin V (n_add O a b) = true /\ Rabs (val V (n_add O a b) - (val V a + val V b)) <= bpow radix2 (- fprec V) * L.
Proof.
  intros HO. destruct HO as [lm p|lm p]; intros a b L Fa Fb Hl Hm.
  - assert (B : Rabs (B2R a + B2R b) <= bpow radix2 127).
    { cbn [fmax ieee_view val] in *. assert (X := bpow_gt_0 radix2 (-24)). change (- (24))%Z with (-24)%Z in Hm.
      assert (Y : bpow radix2 128 = 2 * bpow radix2 127) by (change 128%Z with (1 + 127)%Z; rewrite bpow_plus; reflexivity).
      assert (Z := bpow_gt_0 radix2 127). rewrite Y in Hm. nra. }
    destruct (add_ok 24 128 a b (bpow radix2 127) Fa Fb ltac:(apply (format_bpow 24 128); unfold SpecFloat.emin; lia) ltac:(apply bpow_lt; lia) B) as [F E].
    split; [exact F|]. cbn [val ieee_view fprec]. change (n_add (f32_ops lm p) a b) with (f_add 24 128 a b). rewrite E.
    eapply Rle_trans; [apply (RN_err_format 24 128); apply generic_format_B2R|]. apply Rmult_le_compat_l; [apply bpow_ge_0|exact Hl].
  - assert (B : Rabs (B2R a + B2R b) <= bpow radix2 1023).
    { cbn [fmax ieee_view val] in *. assert (X := bpow_gt_0 radix2 (-53)). change (- (53))%Z with (-53)%Z in Hm.
      assert (Y : bpow radix2 1024 = 2 * bpow radix2 1023) by (change 1024%Z with (1 + 1023)%Z; rewrite bpow_plus; reflexivity).
      assert (Z := bpow_gt_0 radix2 1023). rewrite Y in Hm. nra. }
    destruct (add_ok 53 1024 a b (bpow radix2 1023) Fa Fb ltac:(apply (format_bpow 53 1024); unfold SpecFloat.emin; lia) ltac:(apply bpow_lt; lia) B) as [F E].
    split; [exact F|]. cbn [val ieee_view fprec]. change (n_add (f64_ops lm p) a b) with (f_add 53 1024 a b). rewrite E.
    eapply Rle_trans; [apply (RN_err_format 53 1024); apply generic_format_B2R|]. apply Rmult_le_compat_l; [apply bpow_ge_0|exact Hl].
Qed.

(** C143: for any Q the two bands add up, within the rounding errors, to the ideal [AllPass] plus
    (1/q^2 - 2) times the ideal [LowPass] and [HighPass] in series. *)
Lemma C143_sum_thm :
  forall (T : Type) (O : num_ops T) (V : float_view T), ieee O V -> trig_close O V -> pow10_close O V ->
  forall sr f q (lo hi : rated T) (M : R) (x : nat -> T),
    let args := RbjQ sr f q in let ideal kind := rbj_out kind (ideal_args V args) in let q' := val V q in
    r_set lo = (LowPass, args) -> r_set hi = (HighPass, args) -> chain_ok V [lo; lo] M -> chain_ok V [hi; hi] M ->
    2 * cross_level V lo hi M <= fmax V -> (forall n, fin V (x n) = true /\ Rabs (val V (x n)) <= M) ->
    forall n, fin V (recombined O args x n) = true
      /\ Rabs (val V (recombined O args x n)
               - (ideal AllPass (fun n => val V (x n)) n + (/ (q' * q') - 2) * ideal LowPass (ideal HighPass (fun n => val V (x n))) n))
         <= cross_error V lo hi M + bpow radix2 (- fprec V) * cross_level V lo hi M.
Proof.
  intros T O V HO HT HP sr f q lo hi M x args ideal q' El Eh Ol Oh Hm Hx n.
  destruct (C142_chain_thm T O V HO HT HP [lo; lo] M x Ol Hx n) as [Fl Bl].
  destruct (C142_chain_thm T O V HO HT HP [hi; hi] M x Oh Hx n) as [Fh Bh].
  cbn [map] in Fl, Bl, Fh, Bh. rewrite El in Fl, Bl. rewrite Eh in Fh, Bh.
  cbn [ideal_chain fold_left fst snd] in Bl, Bh. fold (ideal LowPass) in Bl. fold (ideal HighPass) in Bh.
  change (rbj_out LowPass (ideal_args V args)) with (ideal LowPass) in Bl.
  change (rbj_out HighPass (ideal_args V args)) with (ideal HighPass) in Bh.
  cbn [chain_ok] in Ol, Oh. destruct Ol as [Rl _]. destruct Oh as [Rh _].
  assert (Hr := proj1 Rl). rewrite El in Hr. cbn [in_range snd] in Hr. destruct Hr as [Ha [_ Hq]].
  destruct Rl as [_ [[l0 [l1 [l2 [l3 [l4 [Kl _]]]]]] [Pl _]]]. destruct Rh as [_ [[h0 [h1 [h2 [h3 [h4 [Kh _]]]]]] [Ph _]]].
  rewrite El in Kl, Pl. rewrite Eh in Kh, Ph. cbn [fst snd] in Kl, Pl, Kh, Ph.
  set (xr := fun n => val V (x n)) in *. assert (Xr : forall n, Rabs (xr n) <= M) by (intros i; apply Hx).
  assert (Ll := level _ _ _ _ _ _ Kl Pl (level _ _ _ _ _ xr Kl Pl Xr) n).
  assert (Lh := level _ _ _ _ _ _ Kh Ph (level _ _ _ _ _ xr Kh Ph Xr) n).
  change (Rabs (ideal LowPass (ideal LowPass xr) n) <= r_H lo * (r_H lo * M)) in Ll.
  change (Rabs (ideal HighPass (ideal HighPass xr) n) <= r_H hi * (r_H hi * M)) in Lh.
  assert (Sn := audible_sin V _ _ Ha). destruct Ha as [[_ Ar] _].
  assert (Sum : ideal LowPass (ideal LowPass xr) n + ideal HighPass (ideal HighPass xr) n
    = ideal AllPass xr n + (/ (q' * q') - 2) * ideal LowPass (ideal HighPass xr) n).
  { assert (S0 : 0 < val V sr) by lra. assert (Q0 : 0 < val V q) by lra.
    assert (A0 : 0 <= sin (2 * PI * val V f / val V sr) / (2 * val V q)) by (apply Rmult_le_pos; [exact Sn|left; apply Rinv_0_lt_compat; lra]).
    assert (A1 : 0 < 1 + sin (omega (val V sr) (val V f)) / (2 * val V q)) by (unfold omega; lra).
    exact (C117_sum_thm (val V sr) (val V f) (val V q) xr n (Rgt_not_eq _ _ S0) (Rgt_not_eq _ _ Q0) (Rgt_not_eq _ _ A1)). }
  rewrite <- Sum. clear Sum. unfold recombined, cross_error in *. fold (low_band O args x n) in *.
  change (flt_chain O [(LowPass, args); (LowPass, args)] x n) with (low_band O args x n) in *.
  change (flt_chain O [(HighPass, args); (HighPass, args)] x n) with (high_band O args x n) in *.
  set (el := chain_error V [lo; lo] M 0) in *. set (eh := chain_error V [hi; hi] M 0) in *.
  assert (Lv : Rabs (val V (low_band O args x n) + val V (high_band O args x n)) <= cross_level V lo hi M).
  { unfold cross_level, cross_error. fold el eh. apply Rabs_le_inv in Bl, Bh, Ll, Lh. apply Rabs_le. nra. }
  destruct (sum_close O V HO _ _ _ Fl Fh Lv Hm) as [F B]. split; [exact F|].
  apply Rabs_le_inv in Bl, Bh, B. apply Rabs_le. lra.
Qed.

Lemma near_half q u : 0 <= u <= / 16777216 -> Rabs (q - / sqrt 2) <= u -> 0 < q /\ Rabs (/ (q * q) - 2) <= 6 * u.
Proof.
  intros Hu Hq. apply Rabs_le_inv in Hq.
  assert (P : 0 < sqrt 2) by (apply sqrt_lt_R0; lra). set (c := / sqrt 2) in *.
  assert (C0 : 0 < c) by (apply Rinv_0_lt_compat, P).
  assert (C2 : c * c = / 2) by (unfold c; rewrite <- Rinv_mult, sqrt_sqrt by lra; reflexivity). clearbody c.
  assert (C1 : 7071 / 10000 <= c <= 7072 / 10000) by (split; nra).
  assert (Q0 : 7070 / 10000 <= q <= 7073 / 10000) by lra. split; [lra|].
  assert (QQ : 4998 / 10000 <= q * q) by nra.
  replace (/ (q * q) - 2) with ((1 - 2 * (q * q)) * / (q * q)) by (field; lra).
  assert (I : 0 < / (q * q) <= 10000 / 4998).
  { split; [apply Rinv_0_lt_compat; lra|]. replace (10000 / 4998) with (/ (4998 / 10000)) by field. apply Rinv_le_contravar; lra. }
  rewrite Rabs_mult, (Rabs_pos_eq (/ (q * q))) by lra.
  assert (N : Rabs (1 - 2 * (q * q)) <= 283 / 100 * u).
  { replace (1 - 2 * (q * q)) with (2 * (c - q) * (c + q)) by (replace 1 with (2 * (c * c)) by lra; ring).
    apply Rabs_le. split; nra. }
  apply Rle_trans with (283 / 100 * u * (10000 / 4998)); [apply Rmult_le_compat; try lra; apply Rabs_pos|lra].
Qed.

(** C143: with a float next to 1/sqrt 2 for Q, the sum is the ideal [AllPass] up to the rounding
    errors, those of Q included.  So the crossover is flat for ever. *)
Lemma C143_flat_thm :
  forall (T : Type) (O : num_ops T) (V : float_view T), ieee O V -> trig_close O V -> pow10_close O V ->
  forall sr f q (lo hi : rated T) (M : R) (x : nat -> T),
    let args := RbjQ sr f q in let u := bpow radix2 (- fprec V) in
    r_set lo = (LowPass, args) -> r_set hi = (HighPass, args) -> chain_ok V [lo; lo] M -> chain_ok V [hi; hi] M ->
    2 * cross_level V lo hi M <= fmax V -> Rabs (val V q - / sqrt 2) <= u ->
    (forall n, fin V (x n) = true /\ Rabs (val V (x n)) <= M) ->
    forall n, fin V (recombined O args x n) = true
      /\ Rabs (val V (recombined O args x n) - rbj_out AllPass (ideal_args V args) (fun n => val V (x n)) n)
         <= cross_error V lo hi M + u * cross_level V lo hi M + 6 * u * (r_H lo * r_H hi * M).
Proof.
  intros T O V HO HT HP sr f q lo hi M x args u El Eh Ol Oh Hm Hq Hx n.
  destruct (C143_sum_thm T O V HO HT HP sr f q lo hi M x El Eh Ol Oh Hm Hx n) as [F B]. split; [exact F|].
  cbn [chain_ok] in Ol, Oh. destruct Ol as [Rl _]. destruct Oh as [Rh _].
  destruct Rl as [_ [[l0 [l1 [l2 [l3 [l4 [Kl _]]]]]] [Pl _]]]. destruct Rh as [_ [[h0 [h1 [h2 [h3 [h4 [Kh _]]]]]] [Ph _]]].
  rewrite El in Kl, Pl. rewrite Eh in Kh, Ph. cbn [fst snd] in Kl, Pl, Kh, Ph. fold args in B.
  set (xr := fun n => val V (x n)) in *. assert (Xr : forall n, Rabs (xr n) <= M) by (intros i; apply Hx).
  assert (L := level _ _ _ _ _ _ Kl Pl (level _ _ _ _ _ xr Kh Ph Xr) n).
  assert (Hu : 0 <= u <= / 16777216).
  { unfold u. split; [apply bpow_ge_0|]. replace (/ 16777216) with (bpow radix2 (-24)) by (cbn; lra). apply bpow_le. destruct HO; cbn; lia. }
  destruct (near_half _ u Hu Hq) as [_ N].
  set (d := / (val V q * val V q) - 2) in *. set (lh := rbj_out LowPass _ (rbj_out HighPass _ xr) n) in *.
  assert (K : Rabs (d * lh) <= 6 * u * (r_H lo * r_H hi * M)).
  { rewrite Rabs_mult. replace (r_H lo * r_H hi * M) with (r_H lo * (r_H hi * M)) by ring.
    apply Rmult_le_compat; try apply Rabs_pos; assumption. }
  fold u in B. apply Rabs_le_inv in B, K. apply Rabs_le. lra.
Qed.

Definition demo_cross (kind : rbj_kind) : rated f64 :=
  {| r_set := (kind, RbjQ (fl64 44100 0) (fl64 1000 0) (fl64 6369051672525773 (-53))); r_G := 300; r_H := 1200 |}.

Lemma half_between lo hi : 0 < lo -> 0 < hi -> lo * lo <= / 2 <= hi * hi -> lo <= / sqrt 2 <= hi.
Proof.
  intros L H [A B]. assert (P : 0 < sqrt 2) by (apply sqrt_lt_R0; lra). assert (C0 : 0 < / sqrt 2) by (apply Rinv_0_lt_compat, P).
  assert (C2 : / sqrt 2 * / sqrt 2 = / 2) by (rewrite <- Rinv_mult, sqrt_sqrt by lra; reflexivity).
  set (c := / sqrt 2) in *. clearbody c. split; nra.
Qed.

Lemma C143_hyps_aux : let O := f64_ops (cr_libm 53 1024) false in let V := ieee_view 53 1024 in
  let lo := demo_cross LowPass in let hi := demo_cross HighPass in let q := fl64 6369051672525773 (-53) in
  ieee O V /\ trig_close O V /\ pow10_close O V
  /\ chain_ok V [lo; lo] 1 /\ chain_ok V [hi; hi] 1 /\ 2 * cross_level V lo hi 1 <= fmax V
  /\ Rabs (val V q - / sqrt 2) <= bpow radix2 (- fprec V)
  /\ forall n : nat, fin V ((fun _ => fl64 1 0) n) = true /\ Rabs (val V ((fun _ => fl64 1 0) n)) <= 1.
Proof.
  intros O V lo hi q. destruct C97_hyps_aux as [HO [HT [HP [Ha [_ [_ [_ [_ [_ [_ [_ [Hx _]]]]]]]]]]]].
  split; [exact HO|]. split; [exact HT|]. split; [exact HP|].
  assert (E1 : val V (fl64 44100 0) = 44100) by (unfold V; cbn [val ieee_view]; lit; lra).
  assert (E2 : val V (fl64 1000 0) = 1000) by (unfold V; cbn [val ieee_view]; lit; lra).
  assert (E4 : val V q = 6369051672525773 / 9007199254740992) by (unfold V, q; cbn [val ieee_view]; lit; lra).
  assert (Uv : bpow radix2 (- fprec V) = / 9007199254740992) by (cbn; lra).
  assert (HS : 9 / 100 <= sin (2 * PI * val V (fl64 1000 0) / val V (fl64 44100 0)) <= 1).
  { rewrite E1, E2. split; [|apply SIN_bound]. eapply Rle_trans; [exact sin_tenth|]. assert (P := ConstLemmas.pi_20).
    apply sin_incr_1; lra. }
  assert (Ec : forall kind, 0 <= coef_error V (r_set (demo_cross kind)) <= 300 * / 9007199254740992).
  { intros kind. unfold coef_error, q_error, demo_cross. cbn [r_set snd]. fold q. rewrite E4, Uv. lra. }
  assert (Hok : forall kind, kind = LowPass \/ kind = HighPass -> rated_ok V (demo_cross kind)).
  { intros kind Hk.
    assert (Hr : in_range V (r_set (demo_cross kind))).
    { split; [exact Ha|]. split; [vm_compute; reflexivity|]. fold q. rewrite E4. lra. }
    assert (X : exists c0 c1 c2 d1 d2, rbj_coeffs R_ops kind (ideal_args V (snd (r_set (demo_cross kind)))) = Some (c0, c1, c2, d1, d2)).
    { destruct Hk as [-> | ->]; repeat eexists. }
    destruct X as [c0 [c1 [c2 [d1 [d2 Ed]]]]].
    assert (HG : peak_gain d1 d2 300).
    { destruct (C94_rbj_gain_thm kind (val V (fl64 44100 0)) (val V (fl64 1000 0)) (val V q) c0 c1 c2 d1 d2
        ltac:(lra) ltac:(lra) Ed) as [G _]. specialize (G ltac:(lra)). rewrite E4 in G.
      set (s := sin (2 * PI * val V (fl64 1000 0) / val V (fl64 44100 0))) in *. clearbody s.
      refine (peak_gain_mono _ _ _ _ _ G).
      assert (I : 0 < / s <= 100 / 9).
      { split; [apply Rinv_0_lt_compat; lra|]. replace (100 / 9) with (/ (9 / 100)) by field. apply Rinv_le_contravar; lra. }
      assert (Y : 0 <= 2 * (6369051672525773 / 9007199254740992) / s <= 1415 / 1000 * (100 / 9)).
      { unfold Rdiv at 1 3. split; [apply Rmult_le_pos; lra|]. apply Rmult_le_compat; lra. }
      apply Rle_trans with ((1 + 1415 / 1000 * (100 / 9)) ^ 2); [apply pow_incr; lra|lra]. }
    split; [exact Hr|]. split; [exists c0, c1, c2, d1, d2; split; [exact Ed|exact HG]|]. split.
    - cbn [demo_cross r_H]. replace 1200 with (4 * 300) by ring.
      exact (proj1 C142_levels_thm _ V (r_set (demo_cross kind)) c0 c1 c2 d1 d2 300 Hr Ed HG).
    - specialize (Ec kind). cbn [demo_cross r_G]. lra. }
  destruct (fmin_small _ O V HO) as [Fm _].
  assert (Fs : fmin V <= 1) by (change 1 with (bpow radix2 0); cbn [fmin V ieee_view]; apply bpow_le; lia).
  assert (FM : 1073741824 <= fmax V).
  { cbn [fmax V ieee_view]. change (- (53))%Z with (-53)%Z. assert (B1 : bpow radix2 31 <= bpow radix2 1024) by (apply bpow_le; lia).
    assert (B2 : bpow radix2 (-53) <= / 2) by (change (/ 2) with (bpow radix2 (-1)); apply bpow_le; lia).
    assert (B3 : bpow radix2 31 = 2147483648) by (cbn; lra). nra. }
  assert (St : forall kind M, 0 <= M <= 2000 -> 0 <= stage_error V (demo_cross kind) M <= 1).
  { intros kind M HM. specialize (Ec kind). unfold stage_error. change (r_H (demo_cross kind)) with 1200. change (r_G (demo_cross kind)) with 300.
    set (e := coef_error V (r_set (demo_cross kind))) in *. clearbody e. set (m := fmin V) in *. clearbody m.
    assert (0 <= e * (M + 1200 * M + m) <= 300 * / 9007199254740992 * (1201 * 2000 + 1)).
    { split; [apply Rmult_le_pos; lra|]. apply Rmult_le_compat; lra. }
    lra. }
  assert (S1 := fun kind => St kind 1 ltac:(lra)).
  assert (Ch : forall kind, kind = LowPass \/ kind = HighPass -> chain_ok V [demo_cross kind; demo_cross kind] 1).
  { intros kind Hk. specialize (S1 kind). cbn [chain_ok]. change (r_H (demo_cross kind)) with 1200.
    split; [exact (Hok kind Hk)|]. split; [lra|]. split; [exact (Hok kind Hk)|]. split; [lra|exact I]. }
  assert (Ce : forall kind, chain_error V [demo_cross kind; demo_cross kind] 1 0 <= 1201).
  { intros kind. cbn [chain_error]. change (r_H (demo_cross kind)) with 1200. specialize (S1 kind).
    assert (S2 := St kind (1200 * 1 + stage_error V (demo_cross kind) 1) ltac:(lra)). lra. }
  split; [apply Ch; tauto|]. split; [apply Ch; tauto|]. split.
  - unfold cross_level, cross_error, lo, hi. assert (C1 := Ce LowPass). assert (C2 := Ce HighPass).
    change (r_H (demo_cross LowPass)) with 1200. change (r_H (demo_cross HighPass)) with 1200. lra.
  - split; [|exact Hx]. rewrite E4, Uv.
    assert (B := half_between (6369051672525772 / 9007199254740992) (6369051672525774 / 9007199254740992) ltac:(lra) ltac:(lra) ltac:(lra)).
    apply Rabs_le. lra.
Qed.

(*@PROP
(** C143 is met in [f64] by a library with correctly rounded functions: a crossover at 1 kHz, the
    sample rate being 44100 Hz, with the float next to 1/sqrt 2, on the input 1, 1, 1, ... *)
Example C143_hyps : let O := f64_ops (cr_libm 53 1024) false in let V := ieee_view 53 1024 in
  let lo := demo_cross LowPass in let hi := demo_cross HighPass in let q := fl64 6369051672525773 (-53) in
  ieee O V /\ trig_close O V /\ pow10_close O V
  /\ chain_ok V [lo; lo] 1 /\ chain_ok V [hi; hi] 1 /\ 2 * cross_level V lo hi 1 <= fmax V
  /\ Rabs (val V q - / sqrt 2) <= bpow radix2 (- fprec V)
  /\ forall n : nat, fin V ((fun _ => fl64 1 0) n) = true /\ Rabs (val V ((fun _ => fl64 1 0) n)) <= 1.
Proof. exact C143_hyps_aux. Qed.
@*)
