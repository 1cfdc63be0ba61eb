(** Proofs of the properties of [LinearDelay], continued (C22-C27, C68-C70). *)
From Coq Require Import ZArith Reals List Bool Lia Lra ZifyBool.
From Flocq Require Import Core.Core IEEE754.BinarySingleNaN.
From Verif Require Import Base BaseLemmas Num NumR NumF FloatFacts DelayM LinDelayM DelaySpec DelayRun DelayProofs
  LinSpec LinRun PlaceSpec LinFloatSpec LinProofs LinCtlR LinCtlF LinInv LinFacts LinFloat.
Import ListNotations.
Open Scope Z_scope.

(*@PROP
(** Properties C22-C27 and C68-C71: [LinearDelay], what it computes.

    Vocabulary: [lin_session K O p d m ops] is [LinearDelay::new(d, m)] followed by
    the calls [ops], [lin_history] says that such a session completed ([LinRun]);
    [R_ctl], [R_ops] is exact arithmetic, [float_line] stands for
    [LinearDelay<f32>] and [LinearDelay<f64>] ([LinFloatSpec]). *)
From Coq Require Import ZArith Reals List Bool Lia Lra.
From Flocq Require Import Core.Core IEEE754.BinarySingleNaN.
From Verif Require Import Base Num NumR NumF Witness DelayM LinDelayM DelaySpec DelayRun
  LinSpec LinRun PlaceSpec LinFloatSpec LinLemmas2 LinWit.
Import ListNotations.
Open Scope R_scope.

(** A concrete [LinearDelay<f32>]: [new(1.5, 7)], some samples, a tap, and last
    [set_delay(d')].  The examples below reuse it. *)
Definition lin_ops2 (a b d' : f32) : list (dl_op f32 f32) :=
  [DProcess a; DProcess b; DTapIn a 3; DSetDelay (fl32 5 (-1)); DProcess b; DGetDelay] ++ [DSetDelay d'].
Lemma lin_ops2_ok (a b d' : f32) :
  exists s, lin_history f32_ctl_f32 O32 Debug (fl32 3 (-1)) 7 (lin_ops2 a b d') s
    /\ lin_get_max_delay Debug s = Ok 7%Z
    /\ (d' <> B754_nan -> is_finite (lin_get_delay s) = true /\ B2R (lin_get_delay s) = clip32 d' (IZR 7))
    /\ (d' = B754_nan -> lin_get_delay s = B754_nan).
Proof.
  apply wit_set; [easy|repeat constructor; easy|cbn; repeat split; discriminate|repeat constructor; discriminate].
Qed.
@*)

Lemma R_size : 1 <= n_size_of R_ops.
Proof. cbn. lia. Qed.
Lemma R_slots64 : max_slots R_ops < two64.
Proof. reflexivity. Qed.

Lemma R_range len w (d : R) : 1 <= len <= max_slots R_ops -> 0 <= w < len ->
  exists dt r a, ctl R_ctl len w d = Ok (dt, r, a) /\ 0 <= r < len.
Proof.
  intros Hl Hw. pose proof R_slots64. destruct (ctl_R len w d ltac:(lia) Hw) as [r [E [Hr _]]]. eauto.
Qed.

Lemma fits_R m : fits R_ops m <-> m + 1 <= max_slots R_ops.
Proof.
  unfold fits. pose proof (alloc_ok_iff R_ops R_size (m + 1)) as E. unfold alloc_ok in E. lia.
Qed.

(** C22: in exact arithmetic every sequence of calls within the documented domain
    behaves as the ideal interpolating line of [LinSpec]. *)
Lemma C22_refines_ideal_thm :
  forall (p : profile) (d : R) (m : Z) (ops : list (dl_op R R)),
    is_usize m -> fits R_ops m -> Forall op_usize_lin ops -> lin_use (max_slots R_ops) m ops ->
    exists s os i, lin_session R_ctl R_ops p d m ops = Ok (s, os)
      /\ ilin_run 0%R Rplus Rmult (max_slots R_ops) ideal_aim
           (ilin_new 0%R ideal_aim d (Z.to_nat m)) ops = Some (i, os).
Proof.
  intros p d m ops Hm Hf Hu Hn. unfold is_usize in Hm. apply fits_R in Hf.
  assert (HA := aims_R (max_slots R_ops) R_slots64).
  destruct (refine_lnew R_ctl R_ops p R_size (max_slots R_ops) _ (Z.le_refl _) HA d m) as [s0 [E0 [Hi0 Ha0]]]; [lia|lia|].
  assert (HL : vlen (ld_memory s0) = m + 1).
  { assert (G := f_equal (fun i => slots (i_line i)) Ha0). cbn beta in G. rewrite lin_abs_slots in G.
    unfold vlen. rewrite G. unfold ilin_new, ilin_aim. destruct (ideal_aim _ _ _) as [[[? ?] ?] ?]. cbn [i_line].
    unfold slots. cbn [l_hist line_new]. rewrite repeat_length. lia. }
  destruct (lin_run_ok R_ctl R_ops p R_size (max_slots R_ops) _ (Z.le_refl _) HA s0 ops Hi0 Hu) as [s [os [E [_ Er]]]].
  { rewrite HL. replace (m + 1 - 1) with m by lia. exact Hn. }
  exists s, os, (lin_abs s). split; [unfold lin_session; rewrite E0; exact E|].
  rewrite <- Er, Ha0. f_equal. apply ilin_new_ext.
  rewrite R_clip by lia. unfold ideal_aim.
  fold (clipR d (INR (S (Z.to_nat m)) - 1)).
  assert (EI : (INR (S (Z.to_nat m)) - 1 = IZR m)%R).
  { rewrite S_INR, INR_IZR_INZ, Z2Nat.id by lia. ring. }
  rewrite EI. fold (clipR (clipR d (IZR m)) (IZR m)).
  rewrite (clipR_id (clipR d (IZR m))); [reflexivity|]. apply clipR_range. apply IZR_le. lia.
Qed.
(*@PROP
Example C22_refines_ideal_hyps (a b : R) :
  is_usize 7 /\ fits R_ops 7
  /\ Forall op_usize_lin [DProcess a; DSetDelay b; DNextOut; DSetMaxDelay 9; DTapOut 8; DProcess b]
  /\ lin_use (max_slots R_ops) 7 [DProcess a; DSetDelay b; DNextOut; DSetMaxDelay 9; DTapOut 8; DProcess b].
Proof.
  split; [easy|]. split; [discriminate|]. split; [repeat constructor; easy|]. cbn. repeat split; discriminate.
Qed.
@*)

Lemma ceil_floor (c : R) : (c = IZR (Zfloor c) /\ Zceil c = Zfloor c) \/ ((IZR (Zfloor c) < c)%R /\ Zceil c = Zfloor c + 1).
Proof.
  assert (H := Zfloor_lb c). destruct (Rle_lt_or_eq_dec _ _ H) as [L|E].
  - right. split; [exact L|]. apply Zceil_floor_neq. lra.
  - left. split; [lra|]. rewrite <- E. rewrite Zceil_IZR, Zfloor_IZR. reflexivity.
Qed.

Open Scope R_scope.

(** C22: a new line with delay [d] = k + f in [0, m] turns any signal [x] into
      (1 - f) x[n - k] + f x[n - k - 1], with zeros before the start. *)
Lemma C22_interpolates_thm :
    forall (p : profile) (d : R) (m : Z) (x : nat -> R) (n : nat),
      is_usize m -> fits R_ops m -> 0 <= d <= IZR m ->
      let k := Z.to_nat (Zfloor d) in
      let f := d - IZR (Zfloor d) in
      exists s, lin_session R_ctl R_ops p d m (map (fun i => DProcess (x i)) (seq 0 n))
        = Ok (s, map OSample (map (fun i => (1 - f) * behind 0 x k i + f * behind 0 x (S k) i) (seq 0 n))).
Proof.
    intros p d m x n Hm Hf Hd k f. unfold is_usize in Hm. apply fits_R in Hf.
    destruct (ctl_R (m + 1) 0 (clip_delay R_ctl d m)) as [r [E [Hr Hlag]]];
      [pose proof R_slots64; lia|lia|].
    rewrite R_clip in E, Hlag by lia. rewrite (clipR_id d) in E, Hlag by exact Hd.
    rewrite (clipR_id d) in E, Hlag by (rewrite plus_IZR; lra).
    assert (E' : ctl R_ctl (m + 1) 0 (clip_delay R_ctl d m) = Ok (d, r, IZR (Zceil d) - d)).
    { rewrite R_clip, (clipR_id d) by (lia || exact Hd). exact E. }
    destruct (new_ctl R_ctl R_ops p R_size d m d r (IZR (Zceil d) - d) ltac:(lia) ltac:(lia) E' Hr)
      as [s0 [En [Hi [HL [Hh [Hno [Hdl [Hlg [Hal [Hom _]]]]]]]]]].
    destruct (new_stream R_ctl R_ops p R_size d m s0 x n En Hi ltac:(lia) HL eq_refl Hh Hno) as [s' Es].
    exists s'. rewrite Es. do 3 f_equal. apply map_ext. intros i.
    unfold stream_out. rewrite Hlg, Hlag, Hal, Hom. cbn [R_ops n_add n_mul n_sub n_one n_zero c_cast R_ctl].
    assert (Hfl : (0 <= Zfloor d)%Z) by (apply Zfloor_lub; lra).
    destruct (ceil_floor d) as [[A B]|[A B]].
    - assert (Ef : f = 0) by (unfold f; lra). rewrite Ef, B. fold k. rewrite <- A. ring.
    - rewrite B. rewrite Z2Nat.inj_add by lia. fold k. change (Z.to_nat 1) with 1%nat. rewrite Nat.add_1_r.
      rewrite plus_IZR. unfold f. ring.
Qed.
(*@PROP
Example C22_interpolates_hyps : is_usize 7 /\ fits R_ops 7 /\ (0 <= 5 / 2 <= IZR 7)%R.
Proof. split; [easy|]. split; [discriminate|]. lra. Qed.
@*)

Lemma history_state_R p d m ops s mx :
    lin_history R_ctl R_ops p d m ops s -> lin_get_max_delay p s = Ok mx -> lin_trusted ops ->
    let c := lin_get_delay s in
    lin_inv R_ops s /\ vlen (ld_memory s) = (mx + 1)%Z /\ 0 <= c <= IZR mx
    /\ llag s = Zceil c /\ ld_alpha s = IZR (Zceil c) - c /\ ld_om_alpha s = 1 - (IZR (Zceil c) - c)
    /\ (unpeeked ops -> ld_do_next_out s = true).
Proof.
    intros Hh Hmx Ht c.
    assert (Hw := history_winv R_ctl R_ops p R_size d m ops s Hh).
    assert (HL := get_max_winv R_ops p R_size s mx Hw Hmx).
    destruct (history_hinv R_ctl R_ops p R_size (max_slots R_ops) R_range d m ops s Hh ltac:(apply Hw)) as [[Hi _] [Ha Hn]].
    destruct (Ha Ht) as [w0 [d0 [dt [r [a [A1 [A2 [A3 [A4 [A5 A6]]]]]]]]]].
    destruct Hw as [Hw _]. rewrite HL in *.
    destruct (ctl_R (mx + 1) w0 d0 ltac:(pose proof R_slots64; lia) A1) as [r' [E [Hr Hlag]]].
    rewrite A2 in E. injection E as E1 E2 E3. unfold c, lin_get_delay. rewrite A3, E1.
    split; [exact Hi|]. split; [reflexivity|].
    split.
    { assert (G := clipR_range d0 (IZR (mx + 1) - 1)). rewrite plus_IZR in *.
      assert (0 <= IZR mx) by (apply IZR_le; lia). lra. }
    split; [unfold llag; rewrite HL, A4, E2; exact Hlag|]. rewrite A5, A6, E3. cbn [c_cast R_ctl n_sub n_one R_ops].
    repeat split. exact Hn.
Qed.

(** C22, mid-stream: after any history, with [get_delay()] = k + f, [process(x)]
      returns (1 - f) times the value k behind x plus f times the value k + 1
      behind, provided the line was not grown since the delay was set and no peek
      is pending. *)
Lemma C22_mid_stream_thm :
    forall (p : profile) (d : R) (m : Z) (ops : list (dl_op R R)) (s : lin_delay R R) (mx : Z) (x : R),
      lin_history R_ctl R_ops p d m ops s -> lin_get_max_delay p s = Ok mx ->
      lin_trusted ops -> unpeeked ops ->
      let c := lin_get_delay s in
      let k := Zfloor c in
      let f := c - IZR k in
      0 <= c <= IZR mx
      /\ exists s' u v, value_behind p s x k u /\ value_behind p s x (k + 1) v
           /\ lin_process R_ops p s x = Ok (s', (1 - f) * u + f * v).
Proof.
    intros p d m ops s mx x Hh Hmx Ht Hu c k f.
    destruct (history_state_R p d m ops s mx Hh Hmx Ht) as [Hi [HL [Hc [Hlag [Hal [Hom Hn]]]]]].
    fold c in Hc, Hlag, Hal, Hom. specialize (Hn Hu). split; [exact Hc|].
    destruct (process_blend R_ops p R_size s x Hi Hn) as [s' [older [newer [E [H1 [H2 _]]]]]].
    rewrite Hal, Hom in E. cbn [n_add n_mul R_ops] in E. rewrite Hlag in *.
    assert (Hk : (0 <= k)%Z) by (apply Zfloor_lub; lra).
    assert (Hk2 : (k <= mx)%Z) by (apply le_IZR; apply Rle_trans with c; [apply Zfloor_lb|lra]).
    destruct (ceil_floor c) as [[A B]|[A B]]; fold k in A, B.
    - assert (Ef : f = 0) by (unfold f; lra).
      exists s', older, (nth (Z.to_nat k) (l_hist (i_line (lin_abs s))) 0).
      rewrite B in *. split; [exact H1|]. split.
      + unfold value_behind. replace (k + 1 =? 0)%Z with false by lia.
        replace (k + 1 - 1)%Z with k by lia.
        change (lin_tap_out p s k) with (delay_tap_out p (dl_of s) k).
        rewrite (refine_tap_out R_ops p R_size (dl_of s) k Hi) by (cbn [dl_of dl_memory]; lia). reflexivity.
      + rewrite E, Ef, <- A. do 2 f_equal. ring.
    - exists s', newer, older. rewrite B in *. replace (k + 1 =? 0)%Z with false in H2 by lia.
      replace (k + 1 - 1)%Z with k in H2 by lia. split; [exact H2|]. split; [exact H1|].
      rewrite E. do 2 f_equal. rewrite plus_IZR. unfold f. ring.
Qed.
(*@PROP
(** A new line in exact arithmetic always completes; with [C22_refines_ideal] so
    does every session within the documented domain, such as this one, which meets
    the hypotheses of [C22_mid_stream] and of C25 below. *)
Example C22_mid_stream_hyps (a b : R) :
exists s, lin_history R_ctl R_ops Debug (5 / 2)%R 7 [DProcess a; DTapIn b 3; DProcess b; DNextOut; DProcess a] s
    /\ lin_trusted [@DProcess R R a; DTapIn b 3; DProcess b; DNextOut; DProcess a]
    /\ unpeeked [@DProcess R R a; DTapIn b 3; DProcess b; DNextOut; DProcess a].
Proof.
destruct (C22_refines_ideal_thm Debug (5 / 2) 7 [DProcess a; DTapIn b 3; DProcess b; DNextOut; DProcess a]) as [s [os [_ [E _]]]].
- easy.
- discriminate.
- repeat constructor; easy.
- cbn. repeat split; discriminate.
- exists s. split; [|split; reflexivity]. split; [easy|]. split; [discriminate|].
    split; [repeat constructor; easy|]. exists os. exact E.
Qed.
@*)

(** C23: if the delay reported by a [LinearDelay<f32>] or [LinearDelay<f64>] is a
    multiple of 2^-j and (max + 1) * 2^j <= 2^24, the weights carry no rounding
    error: [process(x)] is the rounded blend of the values ceil(delay) and
    ceil(delay) - 1 behind x, with weights exactly 1 - (ceil(delay) - delay) and
    ceil(delay) - delay. *)
Lemma C23_dyadic_delays_exact_thm :
  forall (T : Type) (K : ctl_ops f32 T) (O : num_ops T) (val : T -> R) (fin : T -> bool) (rnd : R -> R)
         (p : profile) (d : f32) (m : Z) (ops : list (dl_op f32 T)) (s : lin_delay f32 T)
         (mx j n : Z) (x : T),
    float_line K O val fin rnd ->
    lin_history K O p d m ops s -> lin_trusted ops -> unpeeked ops ->
    lin_get_max_delay p s = Ok mx -> (0 <= j)%Z -> ((mx + 1) * 2 ^ j <= 2 ^ 24)%Z ->
    is_finite (lin_get_delay s) = true -> B2R (lin_get_delay s) = IZR n / IZR (2 ^ j) ->
    let c := B2R (lin_get_delay s) in
    exists s' older newer wo wn,
      lin_process O p s x = Ok (s', n_add O (n_mul O older wo) (n_mul O newer wn))
      /\ value_behind p s x (Zceil c) older
      /\ (0 < c -> value_behind p s x (Zceil c - 1) newer)
      /\ fin wn = true /\ val wn = IZR (Zceil c) - c
      /\ fin wo = true /\ val wo = 1 - (IZR (Zceil c) - c).
Proof.
  intros T K O val fin rnd p d m ops s mx j n x HFL Hh Ht Hu Hmx Hj Hlim Hfin Hv c.
  assert (HF := float_line_fline _ _ _ _ _ HFL). assert (Hsize := fl_size _ _ _ _ _ HF).
  assert (Hj1 : (1 <= 2 ^ j)%Z) by (assert (0 < 2 ^ j)%Z by (apply Z.pow_pos_nonneg; lia); lia).
  assert (Hw := history_winv K O p Hsize d m ops s Hh).
  assert (HL := get_max_winv O p Hsize s mx Hw Hmx).
  assert (Hmx0 : (0 <= mx)%Z) by (destruct Hw as [? _]; lia).
  assert (Hmx24 : (mx < 2 ^ 24)%Z) by nia.
  destruct (history_state K O val fin rnd HF p d m ops s mx Hh Ht Hu Hmx Hmx24 Hfin)
    as [Hi [Hn [_ [Hc [w [Hwr [Hlag [Fa [Va [Fo Vo]]]]]]]]]]. fold c in Hc, Hlag, Va, Hv.
  set (J := IZR (2 ^ j)) in *. assert (HJ : 1 <= J) by (apply IZR_le; exact Hj1).
  (* all the numbers are multiples of 1/J, hence exact *)
  assert (Hfmt : forall k, (Z.abs k <= 2 ^ 24)%Z -> generic_format radix2 fexp32 (IZR k / J)).
  { intros k Hk. replace (IZR k / J) with (F2R (Float radix2 k (- j))).
    - destruct (Z.eq_dec (Z.abs k) (2 ^ 24)) as [E|E].
      + assert (G : generic_format radix2 fexp32 (bpow radix2 (24 - j))).
        { apply (format_bpow 24 128). change (SpecFloat.emin 24 128) with (-149)%Z.
          assert (j <= 24)%Z; [|lia]. apply Z.pow_le_mono_r_iff with 2%Z; nia. }
        unfold F2R; cbn [Fnum Fexp].
        assert (EB : IZR (2 ^ 24) * bpow radix2 (- j) = bpow radix2 (24 - j)).
        { change (2 ^ 24)%Z with (radix2 ^ 24)%Z. rewrite (IZR_Zpower radix2) by lia. rewrite <- bpow_plus. reflexivity. }
        destruct (Z.abs_eq_or_opp k) as [A|A]; rewrite A in E.
        * rewrite E, EB. exact G.
        * replace k with (- 2 ^ 24)%Z by lia. rewrite opp_IZR.
          replace (- IZR (2 ^ 24) * bpow radix2 (- j)) with (- (IZR (2 ^ 24) * bpow radix2 (- j))) by ring.
          rewrite EB. apply generic_format_opp. exact G.
      + apply generic_format_F2R. intros Hnz. cbn [Fnum Fexp]. unfold cexp, SpecFloat.fexp.
        assert (Hmag : (mag radix2 (F2R (Float radix2 k (- j))) <= 24 - j)%Z).
        { apply mag_le_bpow.
          - apply F2R_neq_0. exact Hnz.
          - rewrite <- F2R_Zabs. unfold F2R; cbn [Fnum Fexp].
            replace (bpow radix2 (24 - j)) with (IZR (2 ^ 24) * bpow radix2 (- j)).
            + apply Rmult_lt_compat_r; [apply bpow_gt_0|]. apply IZR_lt. lia.
            + change (2 ^ 24)%Z with (radix2 ^ 24)%Z. rewrite (IZR_Zpower radix2) by lia. rewrite <- bpow_plus. reflexivity. }
        assert (j <= 24)%Z by (apply Z.pow_le_mono_r_iff with 2%Z; nia).
        change (SpecFloat.emin 24 128) with (-149)%Z. lia.
    - unfold F2R; cbn [Fnum Fexp]. rewrite bpow_opp. unfold Rdiv, J. f_equal. f_equal.
      change (2 ^ j)%Z with (radix2 ^ j)%Z. rewrite (IZR_Zpower radix2) by lia. reflexivity. }
  assert (Hrn : forall k, (Z.abs k <= 2 ^ 24)%Z -> RN32 (IZR k / J) = IZR k / J)
    by (intros k Hk; apply (RN_id 24 128); apply Hfmt; exact Hk).
  assert (HcJ : c * J = IZR n) by (rewrite Hv; field; lra).
  assert (Hn0 : (0 <= n <= mx * 2 ^ j)%Z).
  { split; apply le_IZR; rewrite <- HcJ.
    - apply Rmult_le_pos; lra.
    - rewrite mult_IZR. fold J. apply Rmult_le_compat_r; lra. }
  assert (Hpos : pos32 (mx + 1) w c = IZR (if (w * 2 ^ j - n <? 0)%Z then (w + (mx + 1)) * 2 ^ j - n else w * 2 ^ j - n)%Z / J).
  { unfold pos32.
    assert (E1 : IZR w - c = IZR (w * 2 ^ j - n) / J).
    { rewrite Hv, minus_IZR, mult_IZR. fold J. field. lra. }
    rewrite E1, Hrn by nia.
    case Rlt_bool_spec; intros Hneg.
    - assert (Hz : (w * 2 ^ j - n < 0)%Z).
      { apply lt_IZR. apply Rmult_lt_reg_r with (/ J); [apply Rinv_0_lt_compat; lra|]. lra. }
      replace (w * 2 ^ j - n <? 0)%Z with true by lia.
      replace (IZR (w * 2 ^ j - n) / J + IZR (mx + 1)) with (IZR ((w + (mx + 1)) * 2 ^ j - n) / J).
      + apply Hrn. nia.
      + rewrite !minus_IZR, !mult_IZR, !plus_IZR. fold J. field. lra.
    - assert (Hz : (0 <= w * 2 ^ j - n)%Z).
      { apply le_IZR. apply Rmult_le_reg_r with (/ J); [apply Rinv_0_lt_compat; lra|]. lra. }
      replace (w * 2 ^ j - n <? 0)%Z with false by lia. reflexivity. }
  (* position = w - c, or w - c + len *)
  assert (Hpos2 : exists b : bool, pos32 (mx + 1) w c = IZR (if b then w + (mx + 1) else w)%Z - c
     /\ 0 <= IZR (if b then w + (mx + 1) else w)%Z - c < IZR (mx + 1)).
  { assert (Hww : 0 <= IZR w <= IZR mx) by (split; apply IZR_le; lia).
    destruct (Z.ltb_spec (w * 2 ^ j - n) 0) as [H|H].
    - exists true. split.
      + rewrite Hpos, Hv, minus_IZR, mult_IZR. fold J. field. lra.
      + rewrite !plus_IZR.
        assert (IZR w - c < 0).
        { apply Rmult_lt_reg_r with J; [lra|]. rewrite Rmult_minus_distr_r, HcJ, Rmult_0_l. unfold J.
          rewrite <- mult_IZR, <- minus_IZR. apply IZR_lt. exact H. }
        lra.
    - exists false. split.
      + rewrite Hpos, Hv, minus_IZR, mult_IZR. fold J. field. lra.
      + rewrite plus_IZR.
        assert (0 <= IZR w - c).
        { apply Rmult_le_reg_r with J; [lra|]. rewrite Rmult_minus_distr_r, HcJ, Rmult_0_l. unfold J.
          rewrite <- mult_IZR, <- minus_IZR. apply IZR_le. exact H. }
        lra. }
  clear Hpos. destruct Hpos2 as [b [Hpos Hposr]]. set (W := (if b then w + (mx + 1) else w)%Z) in *.
  assert (Hfl : Zfloor (IZR W - c) = (W - Zceil c)%Z).
  { assert (C1 := Zceil_ub c). assert (C2 := Zceil_lb c).
    apply Zfloor_imp. rewrite plus_IZR, minus_IZR. lra. }
  assert (Hread : read32 (mx + 1) w c = (W - Zceil c)%Z).
  { unfold read32. rewrite Hpos, Hfl.
    assert ((W - Zceil c < mx + 1)%Z).
    { apply lt_IZR. rewrite <- Hfl. apply Rle_lt_trans with (2 := proj2 Hposr). apply Zfloor_lb. }
    destruct (Z.eqb_spec (W - Zceil c) (mx + 1)); [lia|reflexivity]. }
  assert (Hceil : (0 <= Zceil c <= mx)%Z).
  { split; [apply le_IZR; assert (C1 := Zceil_ub c); lra|]. apply Zceil_glb. lra. }
  assert (Hlag2 : llag s = Zceil c).
  { rewrite Hlag. unfold lag32. rewrite Hread. unfold W. destruct b.
    - replace (w - (w + (mx + 1) - Zceil c))%Z with (Zceil c + (-1) * (mx + 1))%Z by ring.
      rewrite Z_mod_plus_full. apply Z.mod_small. lia.
    - replace (w - (w - Zceil c))%Z with (Zceil c) by ring. apply Z.mod_small. lia. }
  assert (Hal : val (ld_alpha s) = IZR (Zceil c) - c).
  { rewrite Va, Hpos, Hread, minus_IZR. ring. }
  destruct (process_blend O p Hsize s x Hi Hn) as [s' [older [newer [E [H1 [H2 _]]]]]].
  rewrite Hlag2 in H1, H2.
  exists s', older, newer, (ld_om_alpha s), (ld_alpha s).
  split; [exact E|]. split; [exact H1|]. split.
  { intros Hpc. assert (Zceil c <> 0)%Z.
    { intros E0. assert (C1 := Zceil_ub c). rewrite E0 in C1. lra. }
    replace (Zceil c =? 0)%Z with false in H2 by lia. exact H2. }
  split; [exact Fa|]. split; [exact Hal|]. split; [exact Fo|].
  rewrite Vo, Hal. apply (fl_f32 _ _ _ _ _ HF).
  replace (1 - (IZR (Zceil c) - c)) with (IZR (2 ^ j - (Zceil c * 2 ^ j - n)) / J).
  - apply Hfmt.
    assert (Hd1 : (0 <= Zceil c * 2 ^ j - n < 2 ^ j)%Z).
    { assert (C1 := Zceil_ub c). assert (C2 := Zceil_lb c).
      split; [apply le_IZR|apply lt_IZR]; rewrite minus_IZR, mult_IZR, <- HcJ; fold J; nra. }
    assert (2 ^ j <= 2 ^ 24)%Z by nia. lia.
  - rewrite !minus_IZR, mult_IZR. fold J. rewrite <- HcJ. field. lra.
Qed.
(*@PROP
Example C23_dyadic_delays_exact_hyps (a b : f32) :
  exists s, lin_history f32_ctl_f32 O32 Debug (fl32 3 (-1)) 7 (lin_ops2 a b (fl32 5 (-1))) s
    /\ lin_trusted (lin_ops2 a b (fl32 5 (-1))) /\ unpeeked (lin_ops2 a b (fl32 5 (-1)))
    /\ lin_get_max_delay Debug s = Ok 7%Z /\ ((7 + 1) * 2 ^ 1 <= 2 ^ 24)%Z
    /\ is_finite (lin_get_delay s) = true /\ B2R (lin_get_delay s) = IZR 5 / IZR (2 ^ 1).
Proof.
  destruct (lin_ops2_ok a b (fl32 5 (-1))) as [s [H [H1 [H2 _]]]]. exists s. repeat (split; [easy|]).
  destruct (H2 ltac:(discriminate)) as [H3 H4]. split; [exact H3|]. rewrite H4.
  cbn. unfold clipR, F2R; cbn. rewrite Rmin_left, Rmax_right by lra. lra.
Qed.
@*)

(** C24: exactly which weights [set_delay(d')] installs.  With [m] the maximum
    delay and [w] the write position after any history, [c] the clipped request, and
    [q] the position w - c computed with two [f32] roundings: if [q] stays below
    the line length, the weight of the newer value is its fractional part, in
    [0, 1); if [q] rounds up to the line length, the weights are [m + 1] and
    [- m]. *)
Lemma C24_weights_thm :
  forall (T : Type) (K : ctl_ops f32 T) (O : num_ops T) (val : T -> R) (fin : T -> bool) (rnd : R -> R)
         (p : profile) (d : f32) (m0 : Z) (ops : list (dl_op f32 T)) (s : lin_delay f32 T)
         (d' : f32) (x : T),
    float_line K O val fin rnd ->
    lin_history K O p d m0 ops s -> unpeeked ops -> short (2 ^ 24) (max_after m0 ops) ->
    d' <> B754_nan ->
    let m := max_after m0 ops in
    let w := write_after m0 ops in
    let c := clip32 d' (IZR m) in
    let q := pos32 (m + 1) w c in
    let L := lag32 (m + 1) w c in
    exists s1 s2 older newer wo wn,
      lin_set_delay K O p s d' = Ok s1
      /\ lin_process O p s1 x = Ok (s2, n_add O (n_mul O older wo) (n_mul O newer wn))
      /\ value_behind p s1 x L older
      /\ value_behind p s1 x (if (L =? 0)%Z then m else L - 1)%Z newer
      /\ fin wn = true /\ fin wo = true
      /\ val wo = rnd (1 - val wn)
      /\ q <= IZR (m + 1)
      /\ (q < IZR (m + 1) -> 0 <= val wn < 1 /\ val wn = q - IZR (Zfloor q))
      /\ (q = IZR (m + 1) -> val wn = IZR (m + 1) /\ val wo = - IZR m).
Proof.
  intros T K O val fin rnd p d m0 ops s d' x HFL Hh Hu Hsh Hd m w c q L.
  assert (HF := float_line_fline _ _ _ _ _ HFL). assert (Hsize := fl_size _ _ _ _ _ HF).
  destruct (set_state K O val fin rnd HF p d m0 ops s d' Hh Hu Hsh Hd)
    as [s1 [E1 [Hi [Hn [HL [Hw [Hc [Df [Dv [Hlag [Fa [Va [Fo Vo]]]]]]]]]]]]].
  fold m in Hc, Hlag, HL, Va, Hw, Dv. fold w in Hw, Hlag, Va. fold c in Hc, Dv, Hlag, Va. fold q in Va. fold L in Hlag.
  destruct (process_blend O p Hsize s1 x Hi Hn) as [s2 [older [newer [E2 [H1 [H2 _]]]]]].
  rewrite Hlag, HL in H2. rewrite Hlag in H1. replace (m + 1 - 1)%Z with m in H2 by lia.
  exists s1, s2, older, newer, (ld_om_alpha s1), (ld_alpha s1).
  split; [exact E1|]. split; [exact E2|]. split; [exact H1|]. split; [exact H2|].
  split; [exact Fa|]. split; [exact Fo|]. split; [exact Vo|].
  unfold short in Hsh. fold m in Hsh.
  assert (Hm0 : (0 <= m)%Z) by lia.
  assert (Hc' : 0 <= c <= IZR (m + 1) - 1) by (rewrite plus_IZR; lra).
  destruct (alpha_range (m + 1) w c ltac:(lia) Hw Hc') as [A1 A2]. fold q in A1, A2.
  destruct (pos32_range (m + 1) w c ltac:(lia) Hw Hc') as [[_ P1] _]. fold q in P1.
  split; [exact P1|]. split.
  - intros Hq. destruct (A1 Hq) as [B1 B2]. rewrite Va. split; [exact B1|]. rewrite B2. reflexivity.
  - intros Hq. rewrite (A2 Hq), Hq, Rminus_0_r in Va. split; [exact Va|].
    rewrite Vo, Va. replace (1 - IZR (m + 1)) with (IZR (- m)) by (rewrite opp_IZR, plus_IZR; ring).
    rewrite (fl_int _ _ _ _ _ HF) by lia. apply opp_IZR.
Qed.
(*@PROP
Example C24_weights_hyps (a b : f32) :
  exists s, lin_history f32_ctl_f32 O32 Debug (fl32 3 (-1)) 7 (lin_ops2 a b (fl32 3 (-2))) s
    /\ unpeeked (lin_ops2 a b (fl32 3 (-2)))
    /\ short (2 ^ 24) (max_after 7 (lin_ops2 a b (fl32 3 (-2))))
    /\ write_after 7 (lin_ops2 a b (fl32 3 (-2))) = 3%Z
    /\ (fl32 1 (-1) : f32) <> B754_nan.
Proof.
  destruct (lin_ops2_ok a b (fl32 3 (-2))) as [s [H _]]. exists s. split; [exact H|].
  split; [reflexivity|]. split; [discriminate|]. split; [reflexivity|discriminate].
Qed.
@*)

Lemma realised_delay :
  forall (len w : Z) (c : R),
    (1 <= len <= 2 ^ 24)%Z -> (0 <= w < len)%Z -> 0 <= c <= IZR len - 1 ->
    let q := pos32 len w c in
    let L := lag32 len w c in
    (Zfloor c <= L <= Zceil c)%Z
    /\ (q < IZR len -> Rabs (IZR L - (q - IZR (Zfloor q)) - c) <= IZR len * bpow radix2 (-23)).
Proof.
  intros len w c Hl Hw Hc q L.
  split; [split; [apply lag32_ge|apply lag32_le]; auto; [apply Zfloor_lb|apply Zceil_ub]|].
  intros Hq. destruct (alpha_range len w c Hl Hw Hc) as [A1 _]. destruct (A1 Hq) as [_ Hr].
  assert (Hrr := read32_range len w c Hl Hw Hc). rewrite Hr in Hrr.
  unfold L. rewrite <- lag_of_lag32 by assumption. rewrite Hr. fold q. fold q in Hrr.
  assert (Hlen : 1 <= IZR len) by (apply IZR_le; lia).
  assert (Hwl : 0 <= IZR w <= IZR len - 1) by (rewrite <- minus_IZR; split; apply IZR_le; lia).
  assert (Herr : forall z, Rabs z <= IZR len -> Rabs (RN32 z - z) <= IZR len * bpow radix2 (-24)).
  { intros z Hz. apply Rle_trans with (/ 2 * ulp radix2 fexp32 z).
    - apply error_le_half_ulp. apply (fexp_correct 24 128 Hprec32).
    - assert (U : ulp radix2 fexp32 z <= IZR len * bpow radix2 (-23)).
      { apply Rle_trans with (ulp radix2 fexp32 (IZR len)).
        - apply ulp_le; [apply (fexp_correct 24 128 Hprec32)|apply (fexp_monotone 24 128)|].
          rewrite (Rabs_pos_eq (IZR len)) by lra. exact Hz.
        - change (-23)%Z with (1 - 24)%Z. rewrite <- (Rabs_pos_eq (IZR len)) at 2 by lra.
          apply (ulp_FLT_le radix2 (-149) 24).
          rewrite Rabs_pos_eq by lra. apply Rle_trans with (bpow radix2 0); [apply bpow_le; lia|exact Hlen]. }
      replace (bpow radix2 (-23)) with (2 * bpow radix2 (-24)) in U by (cbn; lra). lra. }
  assert (H24 : bpow radix2 (-23) = 2 * bpow radix2 (-24)) by (cbn; lra).
  assert (Hp24 : 0 <= IZR len * bpow radix2 (-24)) by (apply Rmult_le_pos; [lra|apply bpow_ge_0]).
  rewrite H24. unfold lag_of.
  assert (E1 : Rabs (RN32 (IZR w - c) - (IZR w - c)) <= IZR len * bpow radix2 (-24))
    by (apply Herr; apply Rabs_le; lra).
  unfold q, pos32 in *. revert Hrr Hq. case Rlt_bool_spec; intros Hneg Hrr Hq.
  - assert (Hst : IZR (w - (len - 1)) <= RN32 (IZR w - c)).
    { apply RN32_geZ; [lia|]. rewrite !minus_IZR. lra. }
    rewrite !minus_IZR in Hst.
    assert (Hge : (w < Zfloor (RN32 (RN32 (IZR w - c) + IZR len)))%Z).
    { apply Z.lt_le_trans with (w + 1)%Z; [lia|]. apply Zfloor_lub. apply RN32_geZ; [lia|].
      rewrite plus_IZR. lra. }
    destruct (Z.leb_spec (Zfloor (RN32 (RN32 (IZR w - c) + IZR len))) w); [lia|].
    assert (E2 := Herr (RN32 (IZR w - c) + IZR len) ltac:(apply Rabs_le; lra)).
    rewrite plus_IZR, minus_IZR. apply Rabs_le_inv in E1, E2. apply Rabs_le. lra.
  - assert (Hle : (Zfloor (RN32 (IZR w - c)) <= w)%Z).
    { apply le_IZR. apply Rle_trans with (RN32 (IZR w - c)); [apply Zfloor_lb|].
      apply RN32_leZ; [lia|lra]. }
    destruct (Z.leb_spec (Zfloor (RN32 (IZR w - c))) w); [|lia].
    rewrite minus_IZR. apply Rabs_le_inv in E1. apply Rabs_le. lra.
Qed.

(** C68: after [set_delay(d')], unless the read position rounds up to the line
    length, the line blends the values [L] and [L - 1] samples back with weights
    [wo] and [wn] such that the latency it realises, [L - wn] samples, is within
    (m + 1) * 2^-23 of the delay it reports; and the two values are the neighbours
    of the reported delay: floor <= L <= ceil. *)
Lemma C68_realised_delay_thm :
  forall (T : Type) (K : ctl_ops f32 T) (O : num_ops T) (val : T -> R) (fin : T -> bool) (rnd : R -> R)
         (p : profile) (d : f32) (m0 : Z) (ops : list (dl_op f32 T)) (s : lin_delay f32 T)
         (d' : f32) (x : T),
    float_line K O val fin rnd ->
    lin_history K O p d m0 ops s -> unpeeked ops -> short (2 ^ 24) (max_after m0 ops) ->
    d' <> B754_nan ->
    let m := max_after m0 ops in
    pos32 (m + 1) (write_after m0 ops) (clip32 d' (IZR m)) < IZR (m + 1) ->
    exists s1 s2 older newer wo wn L,
      lin_set_delay K O p s d' = Ok s1
      /\ B2R (lin_get_delay s1) = clip32 d' (IZR m)
      /\ lin_process O p s1 x = Ok (s2, n_add O (n_mul O older wo) (n_mul O newer wn))
      /\ value_behind p s1 x L older
      /\ value_behind p s1 x (if (L =? 0)%Z then m else L - 1)%Z newer
      /\ fin wn = true /\ fin wo = true
      /\ val wo = rnd (1 - val wn)
      /\ (Zfloor (B2R (lin_get_delay s1)) <= L <= Zceil (B2R (lin_get_delay s1)))%Z
      /\ Rabs (IZR L - val wn - B2R (lin_get_delay s1)) <= IZR (m + 1) * bpow radix2 (-23).
Proof.
  intros T K O val fin rnd p d m0 ops s d' x HFL Hh Hu Hsh Hd m Hq.
  assert (HF := float_line_fline _ _ _ _ _ HFL). assert (Hsize := fl_size _ _ _ _ _ HF).
  destruct (set_state K O val fin rnd HF p d m0 ops s d' Hh Hu Hsh Hd)
    as [s1 [E1 [Hi [Hn [HL [Hw [Hc [Df [Dv [Hlag [Fa [Va [Fo Vo]]]]]]]]]]]]].
  fold m in Hc, Hlag, HL, Va, Hw, Dv.
  destruct (process_blend O p Hsize s1 x Hi Hn) as [s2 [older [newer [E2 [H1 [H2 _]]]]]].
  rewrite Hlag, HL in H2. rewrite Hlag in H1. replace (m + 1 - 1)%Z with m in H2 by lia.
  exists s1, s2, older, newer, (ld_om_alpha s1), (ld_alpha s1), (lag32 (m + 1) (write_after m0 ops) (clip32 d' (IZR m))).
  unfold short in Hsh. fold m in Hsh.
  assert (Hm0 : (0 <= m)%Z) by lia.
  assert (Hc' : 0 <= clip32 d' (IZR m) <= IZR (m + 1) - 1) by (rewrite plus_IZR; lra).
  destruct (alpha_range (m + 1) _ _ ltac:(lia) Hw Hc') as [A1 _].
  destruct (A1 Hq) as [_ B2].
  destruct (realised_delay (m + 1) _ _ ltac:(lia) Hw Hc') as [R1 R2]. specialize (R2 Hq).
  unfold lin_get_delay in *. rewrite Dv, Vo, Va, B2.
  repeat (split; [first [reflexivity|assumption]|]). exact R2.
Qed.
(*@PROP
Example C68_realised_delay_hyps (a b : f32) :
  exists s, lin_history f32_ctl_f32 O32 Debug (fl32 3 (-1)) 7 (lin_ops2 a b (fl32 3 (-2))) s
    /\ unpeeked (lin_ops2 a b (fl32 3 (-2)))
    /\ short (2 ^ 24) (max_after 7 (lin_ops2 a b (fl32 3 (-2))))
    /\ write_after 7 (lin_ops2 a b (fl32 3 (-2))) = 3%Z
    /\ (fl32 1 0 : f32) <> B754_nan.
Proof.
  destruct (lin_ops2_ok a b (fl32 3 (-2))) as [s [H _]]. exists s. split; [exact H|].
  split; [reflexivity|]. split; [discriminate|]. split; [reflexivity|discriminate].
Qed.
(* and the position condition is met by every whole-sample delay *)
Example C68_position_ok : pos32 8 2 1 < IZR 8.
Proof.
  unfold pos32. replace (IZR 2 - 1) with (IZR 1) by (simpl; ring).
  rewrite (LinCtlF.RN32_small 1) by lia. rewrite Rlt_bool_false by (simpl; lra). simpl; lra.
Qed.
@*)

(** C24, the blow-up: for every line of two to 2^24 slots and every positive delay
    up to 2^-25, [new(d, m)] followed by [process(x)] multiplies [x] by [- m]
    instead of returning about [x]. *)
Lemma C24_tiny_delay_blows_up_refuted_thm :
  forall (T : Type) (K : ctl_ops f32 T) (O : num_ops T) (val : T -> R) (fin : T -> bool) (rnd : R -> R)
         (p : profile) (d : f32) (m : Z) (x : T),
    float_line K O val fin rnd ->
    (1 <= m < 2 ^ 24)%Z -> is_finite d = true -> 0 < B2R d <= bpow radix2 (-25) ->
    exists s wo wn,
      lin_session K O p d m [DProcess x]
        = Ok (s, [OSample (n_add O (n_mul O x wo) (n_mul O (n_zero O) wn))])
      /\ fin wo = true /\ val wo = - IZR m
      /\ fin wn = true /\ val wn = IZR (m + 1).
Proof.
  intros T K O val fin rnd p d m x HFL Hm Hfin Hd.
  assert (HF := float_line_fline _ _ _ _ _ HFL). assert (Hsize := fl_size _ _ _ _ _ HF).
  assert (Hfits := fl_fits _ _ _ _ _ HF).
  assert (Hnan : d <> B754_nan) by (intros ->; discriminate).
  assert (Hm1 : 1 <= IZR m) by (apply IZR_le; lia).
  assert (Hsmall : B2R d <= 1) by (apply Rle_trans with (1 := proj2 Hd); apply Rle_trans with (bpow radix2 0); [apply bpow_le; lia|apply Rle_refl]).
  (* clipping twice *)
  destruct (fl_gen _ _ _ _ _ HF) as [cast EK].
  assert (Hm64 : (0 <= m < two64)%Z) by (split; [lia|apply Z.lt_trans with (2 ^ 24)%Z; [lia|reflexivity]]).
  destruct (clip_f32 cast d m Hm64 Hnan) as [F1 V1]. rewrite <- EK in F1, V1.
  rewrite RN32_small, clip32_finite, clipR_id in V1 by (assumption || lia || lra).
  set (d1 := clip_delay K d m) in *.
  assert (Hn1 : d1 <> B754_nan) by (intros E; rewrite E in F1; discriminate).
  assert (Hlen : (1 <= m + 1 <= 2 ^ 24)%Z) by lia.
  destruct (fl_ctl K O val fin rnd HF (m + 1) 0 d1 Hlen ltac:(lia) Hn1) as [dt [a [E [Df [Dv [Af Av]]]]]].
  rewrite clip32_finite, V1, clipR_id in E, Dv, Av by (try assumption; rewrite plus_IZR; lra).
  assert (Hc : 0 <= B2R d <= IZR (m + 1) - 1) by (rewrite plus_IZR; lra).
  (* the position rounds up *)
  assert (Hq : pos32 (m + 1) 0 (B2R d) = IZR (m + 1)).
  { destruct (pos32_range (m + 1) 0 (B2R d) Hlen ltac:(lia) Hc) as [[_ P1] _].
    apply Rle_antisym; [exact P1|]. unfold pos32.
    rewrite Rminus_0_l, (RN_opp 24 128), (RN_B2R 24 128).
    rewrite Rlt_bool_true by lra.
    set (len := IZR (m + 1)) in *.
    assert (Hlen2 : 2 <= len) by (apply IZR_le; lia).
    assert (Hlf : generic_format radix2 fexp32 len) by (apply (format_IZR 24 128); lia).
    (* the predecessor of len is at least 2^-23 below *)
    assert (Hpred : pred radix2 fexp32 len <= len - bpow radix2 (-23)).
    { assert (Hx : pred radix2 fexp32 len < len) by (apply pred_lt_id; lra).
      assert (Hb := bpow_gt_0 radix2 (-23)).
      assert (Hb1 : bpow radix2 (-23) <= bpow radix2 0) by (apply bpow_le; lia).
      change (bpow radix2 0) with 1 in Hb1.
      destruct (Rle_lt_dec 1 (pred radix2 fexp32 len)) as [Hone|Hone]; [|lra].
      assert (Hmul : forall z, generic_format radix2 fexp32 z -> 1 <= z -> exists k, z = IZR k * bpow radix2 (-23)).
      { intros z Hz Hz1.
        assert (Hmg : (1 <= mag radix2 z)%Z).
        { apply mag_ge_bpow. rewrite Rabs_pos_eq by lra. exact Hz1. }
        unfold generic_format in Hz. unfold F2R in Hz. cbn [Fnum Fexp] in Hz.
        set (M := Ztrunc (scaled_mantissa radix2 fexp32 z)) in *.
        assert (Hce : (-23 <= cexp radix2 fexp32 z)%Z).
        { unfold cexp, SpecFloat.fexp. change (SpecFloat.emin 24 128) with (-149)%Z. lia. }
        exists (M * 2 ^ (cexp radix2 fexp32 z + 23))%Z. rewrite Hz at 1. rewrite mult_IZR.
        change (2 ^ (cexp radix2 fexp32 z + 23))%Z with (radix2 ^ (cexp radix2 fexp32 z + 23))%Z.
        rewrite (IZR_Zpower radix2) by lia. rewrite Rmult_assoc, <- bpow_plus.
        do 2 f_equal. lia. }
      assert (Hpf : generic_format radix2 fexp32 (pred radix2 fexp32 len)).
      { apply generic_format_pred; [apply (fexp_correct 24 128 Hprec32)|exact Hlf]. }
      destruct (Hmul len Hlf ltac:(lra)) as [k1 K1]. destruct (Hmul _ Hpf ltac:(lra)) as [k2 K2].
      rewrite K2, K1 in Hx. apply Rmult_lt_reg_r in Hx; [|exact Hb]. apply lt_IZR in Hx.
      rewrite K2, K1. apply Rle_trans with (IZR (k1 - 1) * bpow radix2 (-23)).
      - apply Rmult_le_compat_r; [lra|]. apply IZR_le. lia.
      - rewrite minus_IZR. lra. }
    apply round_N_ge_midp; [apply (fexp_correct 24 128 Hprec32)|exact Hlf|].
    replace (bpow radix2 (-23)) with (4 * bpow radix2 (-25)) in Hpred by (cbn; lra).
    assert (Hb := bpow_gt_0 radix2 (-25)). lra. }
  destruct (alpha_range (m + 1) 0 (B2R d) Hlen ltac:(lia) Hc) as [_ A2].
  specialize (A2 Hq). rewrite A2 in E. rewrite A2, Hq, Rminus_0_r in Av.
  destruct (new_ctl K O p Hsize d m dt 0%Z a ltac:(lia) ltac:(lia) E ltac:(lia))
    as [s [En [Hi [HL [Hh [Hn [_ [Hlag [Ha [Ho _]]]]]]]]]].
  destruct (new_stream K O p Hsize d m s (fun _ => x) 1 En Hi ltac:(lia) HL eq_refl Hh Hn) as [s' Es].
  assert (Hlag0 : llag s = 0%Z) by (rewrite Hlag; reflexivity).
  rewrite Hlag0 in Es. cbn [seq map] in Es. unfold stream_out, behind in Es.
  change (Z.to_nat 0) with 0%nat in Es. cbn iota in Es.
  replace (Z.to_nat m <=? 0)%nat with false in Es by (symmetry; apply Nat.leb_gt; lia). cbn [Nat.leb] in Es.
  destruct (fl_cast _ _ _ _ _ HF a Af) as [C1 C2].
  assert (Hwn : val (ld_alpha s) = IZR (m + 1)) by (rewrite Ha, C2; exact Av).
  assert (Hom : fin (ld_om_alpha s) = true /\ val (ld_om_alpha s) = rnd (1 - val (ld_alpha s))).
  { rewrite Ho, Ha. apply (fl_om _ _ _ _ _ HF); [exact C1|]. rewrite C2, Av.
    rewrite plus_IZR. apply Rabs_le. assert (IZR m <= IZR (2 ^ 24)) by (apply IZR_le; lia). lra. }
  destruct Hom as [O1 O2].
  exists s', (ld_om_alpha s), (ld_alpha s). split; [exact Es|]. split; [exact O1|]. split.
  - rewrite O2, Hwn. replace (1 - IZR (m + 1)) with (IZR (- m)) by (rewrite opp_IZR, plus_IZR; ring).
    rewrite (fl_int _ _ _ _ _ HF) by lia. apply opp_IZR.
  - split; [rewrite Ha; exact C1|exact Hwn].
Qed.
(*@PROP
(* 2^-34 is about 6e-11 samples; the line has 4096 slots *)
Example C24_tiny_delay_blows_up_refuted_hyps :
  (1 <= 4095 < 2 ^ 24)%Z /\ is_finite (fl32 1 (-34) : f32) = true
  /\ 0 < B2R (fl32 1 (-34) : f32) <= bpow radix2 (-25).
Proof. split; [lia|]. split; [reflexivity|]. cbn. unfold F2R; cbn. lra. Qed.
@*)
