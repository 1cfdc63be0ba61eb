(** Lemmas behind property C108, floating point.  The [@PROP] blocks are copied into [PropModF.v]. *)
(*@PROP
(** Property C108, [LinearDelay<f32>] and [LinearDelay<f64>]: delay lines whose delay changes
    with every sample.

    Vocabulary: [ModSpec] ([modulated], [heard], [earlier]); [lin_session K O p d0 m ops] is
    [LinearDelay::new(d0, m)] followed by the calls [ops] ([LinRun]);
    [float_line K O val fin rnd] stands for [LinearDelay<f32>] and [LinearDelay<f64>], whose
    delay is an [f32] in both cases; [clip32 d m] is the request [d] clipped to [0, m],
    [pos32 len w c] the read position w - c modulo the line length as computed with two [f32]
    roundings ([LinFloatSpec]). *)
From Coq Require Import ZArith Reals List Bool Lia Lra.
From Flocq Require Import Core.Core IEEE754.BinarySingleNaN.
From Verif Require Import Base Num NumR NumF Witness DelayM LinDelayM DelaySpec DelayRun
  LinSpec LinRun LinFloatSpec ModSpec ModFLemmas.
Import ListNotations.
Open Scope R_scope.
@*)
From Coq Require Import ZArith Reals List Bool Lia Lra Arith ZifyBool.
From Flocq Require Import Core.Core IEEE754.BinarySingleNaN.
From Verif Require Import Base BaseLemmas Num NumR NumF FloatFacts DelayM LinDelayM DelaySpec DelayRun DelayProofs
  LinSpec LinRun LinFloatSpec LinProofs LinCtlR LinCtlF LinInv LinFacts LinFloat LinLemmas2 LinAccLemmas Witness ModSpec ModLemmas.
Import ListNotations.
Open Scope R_scope.

(** ** The abstract line with any control arithmetic *)
Section Gen.
  Context {C T : Type} (zero : T) (add mul : T -> T -> T) (lim : Z) (aim : nat -> nat -> C -> C * nat * T * T).
  Context (N : nat) (HN : (1 <= N)%nat) (d : nat -> C) (x : nat -> T).
  Hypothesis aim_lag : forall w c, (w < N)%nat -> (snd (fst (fst (aim N w c))) < N)%nat.

  Definition mod_out (i : nat) : T :=
    let '(_, L, wn, wo) := aim N (i mod N) (d i) in
    add (mul (behind zero x L i) wo) (mul (behind zero x (match L with O => N - 1 | S k => k end) i) wn).

  Lemma ilin_gen n : forall i l, holds zero x N (l_hist (i_line l)) i -> l_phase (i_line l) = (i mod N)%nat -> i_peek l = None ->
    exists l', ilin_run zero add mul lim aim l (flat_map (fun i => [DSetDelay (d i); DProcess (x i)]) (seq i n))
      = Some (l', flat_map (fun i => [ONone; OSample (mod_out i)]) (seq i n)).
  Proof.
    induction n as [|n IH]; intros i l Hl Hph Hp; [exists l; reflexivity|].
    cbn [seq flat_map app ilin_run ilin_step]. unfold ilin_aim.
    assert (HS : slots (i_line l) = N) by apply Hl. rewrite HS, Hph.
    assert (HL := aim_lag (i mod N)%nat (d i) (Nat.mod_upper_bound i N ltac:(lia))).
    unfold mod_out at 1. destruct (aim N (i mod N)%nat (d i)) as [[[rep L] wn] wo]. cbn [fst snd] in HL.
    unfold ilin_process. cbn [i_line i_peek i_new i_old i_delay l_hist l_lag l_phase l_delay l_last]. rewrite Hp.
    destruct (holds_push zero x N (l_hist (i_line l)) i HN Hl) as [H1 H2].
    unfold blend. rewrite (proj1 H1).
    assert (Hj : (match L with O => N - 1 | S k => k end < N)%nat) by (destruct L; lia).
    rewrite (H2 L HL), (H2 _ Hj).
    match goal with |- context [ilin_run _ _ _ _ _ ?l1 _] => destruct (IH (S i) l1 H1) as [l' E] end.
    - cbn [i_line l_phase]. unfold slots. cbn [l_hist]. unfold slots in HS. rewrite HS.
      rewrite Nat.add_mod_idemp_l by lia. f_equal. lia.
    - reflexivity.
    - rewrite E. exists l'. reflexivity.
  Qed.
End Gen.

Lemma lin_use_mod' {C T} (lim m : Z) (d : nat -> C) (x : nat -> T) l :
  lin_use lim m (flat_map (fun i => [DSetDelay (d i); DProcess (x i)]) l).
Proof. induction l as [|a l IH]; [exact I|]. exact IH. Qed.

Section Line.
  Context {T : Type} (K : ctl_ops f32 T) (O : num_ops T) (val : T -> R) (fin : T -> bool) (rnd : R -> R).
  Hypothesis HF : fline K O val fin rnd.
  Context (p : profile) (m : Z) (Hm0 : (0 <= m)%Z) (Hm : (m + 1 <= 2 ^ 24)%Z).

  (** What a modulated line computes: at step [i] the blend at the lag that the control
      arithmetic yields for write position [i mod (m + 1)]. *)
  Definition mod_y (d : nat -> f32) (x : nat -> T) : nat -> T :=
    mod_out (n_zero O) (n_add O) (n_mul O) (aim_ctl K O) (Z.to_nat (m + 1)) d x.

  Lemma mod_session d0 d x n :
    exists s, lin_session K O p d0 m (modulated d x n) = Ok (s, heard (mod_y d x) n).
  Proof.
    assert (Hsize := fl_size _ _ _ _ _ HF). assert (Hfits := fl_fits _ _ _ _ _ HF).
    assert (HR : forall len w d, (1 <= len <= 2 ^ 24)%Z -> (0 <= w < len)%Z ->
      exists dt r a, ctl K len w d = Ok (dt, r, a) /\ (0 <= r < len)%Z) by (intros; eapply fl_range; eauto).
    assert (HA := aims_ctl K O (2 ^ 24) HR).
    destruct (refine_lnew K O p Hsize (2 ^ 24) _ Hfits HA d0 m Hm0 Hm) as [s0 [E0 [Hi0 Ha0]]].
    assert (HL : vlen (ld_memory s0) = (m + 1)%Z).
    { assert (G := f_equal (fun i => slots (i_line i)) Ha0). cbn beta in G. rewrite lin_abs_slots in G.
      unfold vlen. rewrite G. unfold ilin_new, ilin_aim.
      destruct (aim_ctl _ _ _ _ _) as [[[? ?] ?] ?]. cbn [i_line]. unfold slots. cbn [l_hist line_new].
      rewrite repeat_length. lia. }
    destruct (lin_run_ok K O p Hsize (2 ^ 24) _ Hfits HA s0 (modulated d x n) Hi0) as [s [os [E [_ Er]]]].
    { apply Forall_forall. intros op. unfold modulated. rewrite in_flat_map. intros [i [_ [<-|[<-|[]]]]]; exact I. }
    { apply lin_use_mod'. }
    exists s. unfold lin_session. rewrite E0. cbn [bind]. rewrite E. do 2 f_equal.
    destruct (ilin_gen (n_zero O) (n_add O) (n_mul O) (2 ^ 24) (aim_ctl K O) (Z.to_nat (m + 1)) ltac:(lia) d x) with (n := n) (i := 0%nat) (l := lin_abs s0)
      as [l' El].
    - intros w c Hw. unfold aim_ctl. rewrite Z2Nat.id by lia.
      destruct (HR (m + 1)%Z (Z.of_nat w) c ltac:(lia) ltac:(lia)) as [dt [r [a [Ec Hr]]]]. rewrite Ec. cbn [fst snd].
      unfold lag_of. destruct (Z.leb_spec r (Z.of_nat w)); lia.
    - rewrite Ha0. unfold ilin_new, ilin_aim. destruct (aim_ctl _ _ _ _ _) as [[[? ?] ?] ?]. cbn [i_line l_hist line_new].
      replace (Datatypes.S (Z.to_nat m)) with (Z.to_nat (m + 1)) by lia. apply holds_new.
    - rewrite Ha0. unfold ilin_new, ilin_aim. destruct (aim_ctl _ _ _ _ _) as [[[? ?] ?] ?]. cbn [i_line l_phase line_new].
      rewrite Nat.mod_0_l by lia. reflexivity.
    - rewrite Ha0. unfold ilin_new, ilin_aim. destruct (aim_ctl _ _ _ _ _) as [[[? ?] ?] ?]. reflexivity.
    - unfold modulated in Er. rewrite El in Er. injection Er as _ <-. reflexivity.
  Qed.

  (** The step in numbers. *)
  Lemma mod_y_step d x i : d i <> B754_nan ->
    let w := (Z.of_nat i mod (m + 1))%Z in
    let c := clip32 (d i) (IZR m) in
    let L := lag32 (m + 1) w c in
    (0 <= w < m + 1)%Z /\ 0 <= c <= IZR (m + 1) - 1 /\ (0 <= L <= m)%Z
    /\ exists wn wo,
      mod_y d x i = n_add O (n_mul O (behind (n_zero O) x (Z.to_nat L) i) wo)
                     (n_mul O (behind (n_zero O) x (Z.to_nat (if (L =? 0)%Z then m else L - 1)) i) wn)
      /\ fin wn = true /\ val wn = pos32 (m + 1) w c - IZR (read32 (m + 1) w c)
      /\ fin wo = true /\ val wo = rnd (1 - val wn).
  Proof.
    intros Hd w c L. assert (Hw : (0 <= w < m + 1)%Z) by (apply Z.mod_pos_bound; lia).
    assert (EM : IZR (m + 1) - 1 = IZR m) by (rewrite plus_IZR; lra).
    assert (Hc : 0 <= c <= IZR (m + 1) - 1).
    { rewrite EM. apply clip32_range. apply IZR_le. lia. }
    destruct (fl_ctl K O val fin rnd HF (m + 1) w (d i) ltac:(lia) Hw Hd) as [dt [a [E [Df [Dv [Af Av]]]]]].
    rewrite EM in E, Dv, Av. fold c in E, Dv, Av.
    destruct (weights_fin K O val fin rnd HF (m + 1) w _ dt _ a ltac:(lia) Hw E Df) as [Fo Vo].
    destruct (fl_cast _ _ _ _ _ HF a Af) as [C1 C2].
    assert (EL := lag_of_lag32 (m + 1) w c ltac:(lia) Hw Hc). fold L in EL.
    assert (HL : (0 <= L <= m)%Z).
    { assert (Hr := read32_range (m + 1) w c ltac:(lia) Hw Hc). rewrite <- EL. unfold lag_of.
      destruct (Z.leb_spec (read32 (m + 1) w c) w); lia. }
    split; [exact Hw|]. split; [exact Hc|]. split; [exact HL|].
    exists (c_cast K a), (n_sub O (n_one O) (c_cast K a)). split.
    - unfold mod_y, mod_out, aim_ctl. rewrite Z2Nat.id by lia.
      assert (EW : Z.of_nat (i mod Z.to_nat (m + 1)) = w).
      { unfold w. rewrite Nat2Z.inj_mod, Z2Nat.id by lia. reflexivity. }
      rewrite EW, E, EL. do 2 f_equal. f_equal.
      destruct (Z.eqb_spec L 0) as [H0|H0]; [rewrite H0; cbn; lia|].
      destruct (Z.to_nat L) eqn:EN; lia.
    - split; [exact C1|]. split; [rewrite C2; exact Av|]. split; [exact Fo|exact Vo].
  Qed.
End Line.

(** Reading at the write position leaves nothing for the other value. *)
Lemma lag_zero_pos len w c : (1 <= len <= 2 ^ 24)%Z -> (0 <= w < len)%Z -> 0 <= c <= IZR len - 1 ->
  pos32 len w c < IZR len -> lag32 len w c = 0%Z -> pos32 len w c - IZR (read32 len w c) = 0.
Proof.
  intros Hl Hw Hc Hq HL. rewrite <- lag_of_lag32 in HL by assumption.
  destruct (alpha_range len w c Hl Hw Hc) as [A1 _]. destruct (A1 Hq) as [A2 A3].
  assert (Hr := read32_range len w c Hl Hw Hc).
  assert (Er : read32 len w c = w).
  { unfold lag_of in HL. destruct (Z.leb_spec (read32 len w c) w); lia. }
  rewrite A3 in Er. rewrite A3, Er.
  assert (Hfl := Zfloor_lb (pos32 len w c)). rewrite Er in Hfl.
  enough (pos32 len w c <= IZR w) by lra.
  assert (Hst2 : RN32 (IZR w - c) <= IZR w).
  { apply Rle_trans with (RN32 (IZR w)); [apply (RN_le 24 128); lra|]. rewrite RN32_small by lia. lra. }
  revert Er. unfold pos32. case Rlt_bool_spec; intros Hneg Er; [|exact Hst2].
  exfalso.
  assert (Hst : - (IZR len - 1) + IZR w <= RN32 (IZR w - c)).
  { apply Rle_trans with (RN32 (IZR w - (IZR len - 1))).
    - replace (IZR w - (IZR len - 1)) with (- IZR (len - 1 - w)) by (rewrite !minus_IZR; ring).
      rewrite (RN_opp 24 128), RN32_small by lia. rewrite !minus_IZR. lra.
    - apply (RN_le 24 128). lra. }
  assert (w + 1 <= Zfloor (RN32 (RN32 (IZR w - c) + IZR len)))%Z; [|lia].
  apply Zfloor_lub. rewrite <- (RN32_small (w + 1)) by lia. apply (RN_le 24 128). rewrite plus_IZR. lra.
Qed.

(** On a grid of 2^-j the position carries no rounding error. *)
Lemma grid_exact (m w j n : Z) (c : R) :
  (0 <= m)%Z -> (0 <= w < m + 1)%Z -> (0 <= j)%Z -> ((m + 1) * 2 ^ j <= 2 ^ 24)%Z ->
  0 <= c <= IZR m -> c = IZR n / IZR (2 ^ j) ->
  pos32 (m + 1) w c < IZR (m + 1)
  /\ lag32 (m + 1) w c = Zceil c /\ pos32 (m + 1) w c - IZR (read32 (m + 1) w c) = IZR (Zceil c) - c.
Proof.
  intros Hmx0 Hwr Hj Hlim Hc Hv.
  assert (Hj1 : (1 <= 2 ^ j)%Z) by (assert (0 < 2 ^ j)%Z by (apply Z.pow_pos_nonneg; lia); lia).
  set (J := IZR (2 ^ j)) in *. assert (HJ : 1 <= J) by (apply IZR_le; exact Hj1).
  assert (Hfmt : forall k, (Z.abs k <= 2 ^ 24)%Z -> generic_format radix2 fexp32 (IZR k / J)).
  { intros k Hk. replace (IZR k / J) with (F2R (Float radix2 k (- j))).
    - destruct (Z.eq_dec (Z.abs k) (2 ^ 24)) as [E|E].
      + assert (G : generic_format radix2 fexp32 (bpow radix2 (24 - j))).
        { apply (format_bpow 24 128). change (SpecFloat.emin 24 128) with (-149)%Z.
          assert (j <= 24)%Z; [|lia]. apply Z.pow_le_mono_r_iff with 2%Z; nia. }
        unfold F2R; cbn [Fnum Fexp].
        assert (EB : IZR (2 ^ 24) * bpow radix2 (- j) = bpow radix2 (24 - j)).
        { change (2 ^ 24)%Z with (radix2 ^ 24)%Z. rewrite (IZR_Zpower radix2) by lia. rewrite <- bpow_plus. reflexivity. }
        destruct (Z.abs_eq_or_opp k) as [A|A]; rewrite A in E.
        * rewrite E, EB. exact G.
        * replace k with (- 2 ^ 24)%Z by lia. rewrite opp_IZR.
          replace (- IZR (2 ^ 24) * bpow radix2 (- j)) with (- (IZR (2 ^ 24) * bpow radix2 (- j))) by ring.
          rewrite EB. apply generic_format_opp. exact G.
      + apply generic_format_F2R. intros Hnz. cbn [Fnum Fexp]. unfold cexp, SpecFloat.fexp.
        assert (Hmag : (mag radix2 (F2R (Float radix2 k (- j))) <= 24 - j)%Z).
        { apply mag_le_bpow.
          - apply F2R_neq_0. exact Hnz.
          - rewrite <- F2R_Zabs. unfold F2R; cbn [Fnum Fexp].
            replace (bpow radix2 (24 - j)) with (IZR (2 ^ 24) * bpow radix2 (- j)).
            + apply Rmult_lt_compat_r; [apply bpow_gt_0|]. apply IZR_lt. lia.
            + change (2 ^ 24)%Z with (radix2 ^ 24)%Z. rewrite (IZR_Zpower radix2) by lia. rewrite <- bpow_plus. reflexivity. }
        assert (j <= 24)%Z by (apply Z.pow_le_mono_r_iff with 2%Z; nia).
        change (SpecFloat.emin 24 128) with (-149)%Z. lia.
    - unfold F2R; cbn [Fnum Fexp]. rewrite bpow_opp. unfold Rdiv, J. f_equal. f_equal.
      change (2 ^ j)%Z with (radix2 ^ j)%Z. rewrite (IZR_Zpower radix2) by lia. reflexivity. }
  assert (Hrn : forall k, (Z.abs k <= 2 ^ 24)%Z -> RN32 (IZR k / J) = IZR k / J)
    by (intros k Hk; apply (RN_id 24 128); apply Hfmt; exact Hk).
  assert (HcJ : c * J = IZR n) by (rewrite Hv; field; lra).
  assert (Hn0 : (0 <= n <= m * 2 ^ j)%Z).
  { split; apply le_IZR; rewrite <- HcJ.
    - apply Rmult_le_pos; lra.
    - rewrite mult_IZR. fold J. apply Rmult_le_compat_r; lra. }
  assert (Hpos : pos32 (m + 1) w c = IZR (if (w * 2 ^ j - n <? 0)%Z then (w + (m + 1)) * 2 ^ j - n else w * 2 ^ j - n)%Z / J).
  { unfold pos32.
    assert (E1 : IZR w - c = IZR (w * 2 ^ j - n) / J).
    { rewrite Hv, minus_IZR, mult_IZR. fold J. field. lra. }
    rewrite E1, Hrn by nia.
    case Rlt_bool_spec; intros Hneg.
    - assert (Hz : (w * 2 ^ j - n < 0)%Z).
      { apply lt_IZR. apply Rmult_lt_reg_r with (/ J); [apply Rinv_0_lt_compat; lra|]. lra. }
      replace (w * 2 ^ j - n <? 0)%Z with true by lia.
      replace (IZR (w * 2 ^ j - n) / J + IZR (m + 1)) with (IZR ((w + (m + 1)) * 2 ^ j - n) / J).
      + apply Hrn. nia.
      + rewrite !minus_IZR, !mult_IZR, !plus_IZR. fold J. field. lra.
    - assert (Hz : (0 <= w * 2 ^ j - n)%Z).
      { apply le_IZR. apply Rmult_le_reg_r with (/ J); [apply Rinv_0_lt_compat; lra|]. lra. }
      replace (w * 2 ^ j - n <? 0)%Z with false by lia. reflexivity. }
  assert (Hpos2 : exists b : bool, pos32 (m + 1) w c = IZR (if b then w + (m + 1) else w)%Z - c
     /\ 0 <= IZR (if b then w + (m + 1) else w)%Z - c < IZR (m + 1)).
  { assert (Hww : 0 <= IZR w <= IZR m) by (split; apply IZR_le; lia).
    destruct (Z.ltb_spec (w * 2 ^ j - n) 0) as [H|H].
    - exists true. split.
      + rewrite Hpos, Hv, minus_IZR, mult_IZR. fold J. field. lra.
      + rewrite !plus_IZR.
        assert (IZR w - c < 0).
        { apply Rmult_lt_reg_r with J; [lra|]. rewrite Rmult_minus_distr_r, HcJ, Rmult_0_l. unfold J.
          rewrite <- mult_IZR, <- minus_IZR. apply IZR_lt. exact H. }
        lra.
    - exists false. split.
      + rewrite Hpos, Hv, minus_IZR, mult_IZR. fold J. field. lra.
      + rewrite plus_IZR.
        assert (0 <= IZR w - c).
        { apply Rmult_le_reg_r with J; [lra|]. rewrite Rmult_minus_distr_r, HcJ, Rmult_0_l. unfold J.
          rewrite <- mult_IZR, <- minus_IZR. apply IZR_le. exact H. }
        lra. }
  clear Hpos. destruct Hpos2 as [b [Hpos Hposr]]. set (W := (if b then w + (m + 1) else w)%Z) in *.
  assert (Hfl : Zfloor (IZR W - c) = (W - Zceil c)%Z).
  { assert (C1 := Zceil_ub c). assert (C2 := Zceil_lb c).
    apply Zfloor_imp. rewrite plus_IZR, minus_IZR. lra. }
  assert (Hread : read32 (m + 1) w c = (W - Zceil c)%Z).
  { unfold read32. rewrite Hpos, Hfl.
    assert ((W - Zceil c < m + 1)%Z).
    { apply lt_IZR. rewrite <- Hfl. apply Rle_lt_trans with (2 := proj2 Hposr). apply Zfloor_lb. }
    destruct (Z.eqb_spec (W - Zceil c) (m + 1)); [lia|reflexivity]. }
  assert (Hceil : (0 <= Zceil c <= m)%Z).
  { split; [apply le_IZR; assert (C1 := Zceil_ub c); lra|]. apply Zceil_glb. lra. }
  split; [rewrite Hpos; lra|]. split.
  - unfold lag32. rewrite Hread. unfold W. destruct b.
    + replace (w - (w + (m + 1) - Zceil c))%Z with (Zceil c + (-1) * (m + 1))%Z by ring.
      rewrite Z_mod_plus_full. apply Z.mod_small. lia.
    + replace (w - (w - Zceil c))%Z with (Zceil c) by ring. apply Z.mod_small. lia.
  - rewrite Hpos, Hread, minus_IZR. ring.
Qed.

(*@PROP
(** C108, floating point: a modulated [LinearDelay] of at most 2^24 slots never fails,
    whatever the requested delays (even NaN).  At every step [i] with a delay that is not NaN
    and whose read position does not round up to the line length, the output is finite and
    within (m + 2) 2^-22 M (plus the rounding of the very smallest numbers) of the input
    signal the clipped delay earlier, [M] bounding the samples: no matter what was requested
    in the steps before. *)
@*)
Lemma C108_float_thm :
  forall (T : Type) (K : ctl_ops f32 T) (O : num_ops T) (val : T -> R) (fin : T -> bool) (rnd : R -> R)
         (p : profile) (d0 : f32) (m : Z) (d : nat -> f32) (x : nat -> T) (M : R) (n : nat),
    float_line K O val fin rnd -> (0 <= m)%Z -> short (2 ^ 24) m ->
    exists s y, lin_session K O p d0 m (modulated d x n) = Ok (s, heard y n)
      /\ ((forall i, fin (x i) = true /\ Rabs (val (x i)) <= M) -> M <= bpow radix2 126 ->
          forall i, let c := clip32 (d i) (IZR m) in
            d i <> B754_nan -> pos32 (m + 1) (Z.of_nat i mod (m + 1)) c < IZR (m + 1) ->
            fin (y i) = true
            /\ Rabs (val (y i) - earlier (fun k => val (x k)) c i)
               <= IZR (m + 2) * bpow radix2 (-22) * M + bpow radix2 (-148)).
Proof.
  intros T K O val fin rnd p d0 m d x M n HFL Hm0 Hm. unfold short in Hm.
  assert (HF := float_line_fline _ _ _ _ _ HFL). destruct (fl_zero _ _ _ _ _ HF) as [Zf Zv].
  destruct (mod_session K O val fin rnd HF p m Hm0 Hm d0 d x n) as [s E].
  exists s, (mod_y K O m d x). split; [exact E|]. intros Hx HM i c Hd Hq.
  destruct (mod_y_step K O val fin rnd HF m Hm0 Hm d x i Hd) as [Hw [Hc [HL [wn [wo [Ey [Fn [Vn [Fo Vo]]]]]]]]].
  fold c in Hc, HL, Ey, Vn. set (w := (Z.of_nat i mod (m + 1))%Z) in *. set (L := lag32 (m + 1) w c) in *.
  assert (HM0 : 0 <= M) by (eapply Rle_trans; [apply Rabs_pos|apply (Hx 0%nat)]).
  assert (HB : forall j, fin (behind (n_zero O) x j i) = true /\ Rabs (val (behind (n_zero O) x j i)) <= M).
  { intros j. apply (behind_fin (fun v => fin v = true /\ Rabs (val v) <= M)); [|exact Hx].
    split; [exact Zf|]. rewrite Zv, Rabs_R0. exact HM0. }
  destruct (alpha_range (m + 1) w c ltac:(lia) Hw Hc) as [A1 _]. destruct (A1 Hq) as [A2 A3].
  destruct (realised_delay (m + 1) w c ltac:(lia) Hw Hc) as [R1 R2]. specialize (R2 Hq).
  rewrite <- A3, <- Vn in R2. rewrite <- Vn in A2. fold L in R1, R2.
  destruct (line_blend K O val fin rnd HFL (behind (n_zero O) x (Z.to_nat L) i)
     (behind (n_zero O) x (Z.to_nat (if (L =? 0)%Z then m else (L - 1)%Z)) i) wo wn M) as [B1 B2];
      try apply HB; auto; [lra|].
  rewrite Ey. split; [exact B1|].
  rewrite !(behind_val val) in B2 by exact Zv.
  set (X := fun k => val (x k)) in *. set (XX := fun j : Z => behind 0 X (Z.to_nat j) i).
  assert (HXX : forall j, Rabs (XX j) <= M).
  { intros j. unfold XX, X. rewrite <- (behind_val val (n_zero O)) by exact Zv. apply HB. }
  assert (G := interp_lipschitz XX M c (IZR (m + 1) * bpow radix2 (-23)) (val wn) L HXX R1 (proj1 A2) R2).
  assert (Hk0 : (0 <= Zfloor c)%Z) by (apply Zfloor_lub; lra).
  assert (E2 : (1 - val wn) * behind 0 X (Z.to_nat L) i + val wn * behind 0 X (Z.to_nat (if (L =? 0)%Z then m else (L - 1)%Z)) i
     = (1 - val wn) * XX L + val wn * XX (L - 1)%Z).
  { unfold XX. destruct (Z.eqb_spec L 0) as [H0|H0]; [|reflexivity].
    rewrite Vn, (lag_zero_pos (m + 1) w c ltac:(lia) Hw Hc Hq H0). ring. }
  rewrite E2 in B2. unfold earlier.
  unfold XX at 3 4 in G. replace (Z.to_nat (Zfloor c + 1)) with (Z.to_nat (Zfloor c) + 1)%nat in G by lia.
  replace (IZR (m + 2)) with (IZR (m + 1) + 1) by (rewrite !plus_IZR; ring).
  replace (bpow radix2 (-22)) with (2 * bpow radix2 (-23)) in * by (cbn; lra).
  match goal with |- Rabs (?y - ?z) <= _ => match type of B2 with Rabs (_ - ?w) <= _ =>
      replace (y - z) with ((y - w) + (w - z)) by ring end end.
  eapply Rle_trans; [apply Rabs_triang|]. eapply Rle_trans; [apply Rplus_le_compat; [exact B2|exact G]|]. lra.
Qed.

(*@PROP
(** A sweep of whole-sample delays on 8 slots of [f32]: no position rounds up. *)
Example C108_float_hyps :
  let d := fun i : nat => fl32 (Z.of_nat (i mod 4)) 0 in
  short (2 ^ 24) 7 /\ (forall i, d i <> B754_nan)
  /\ pos32 (7 + 1) (Z.of_nat 3 mod (7 + 1)) 1 < IZR (7 + 1)
  /\ is_finite (fl32 1 0) = true /\ Rabs (B2R (fl32 1 0)) <= 1 /\ 1 <= bpow radix2 126.
Proof.
  intros d. unfold d. split; [unfold short; lia|]. split; [|split].
  { intros i. assert (H : (i mod 4 < 4)%nat) by (apply Nat.mod_upper_bound; lia).
    destruct (i mod 4)%nat as [|[|[|[|k]]]]; try discriminate; lia. }
  { change (Z.of_nat 3 mod (7 + 1))%Z with 3%Z. unfold pos32. replace (3 - 1) with (IZR 2) by (simpl; ring).
    rewrite (LinCtlF.RN32_small 2) by lia. rewrite Rlt_bool_false by (simpl; lra). simpl; lra. }
  replace (B2R (fl32 1 0)) with 1 by (cbn; unfold F2R; cbn; lra).
  split; [reflexivity|]. split; [rewrite Rabs_R1; lra|].
  change 1 with (bpow radix2 0). apply bpow_le. lia.
Qed.
@*)

(*@PROP
(** C108, delays on a grid: if every requested delay is a multiple of 2^-j samples with
    (m + 1) 2^j <= 2^24, every step is finite and accurate to 2^-22 of full scale: the error
    then depends neither on the length of the line nor on time. *)
@*)
Lemma C108_float_grid_thm :
  forall (T : Type) (K : ctl_ops f32 T) (O : num_ops T) (val : T -> R) (fin : T -> bool) (rnd : R -> R)
         (p : profile) (d0 : f32) (m j : Z) (d : nat -> f32) (x : nat -> T) (M : R) (n : nat),
    float_line K O val fin rnd -> (0 <= m)%Z -> (0 <= j)%Z -> ((m + 1) * 2 ^ j <= 2 ^ 24)%Z ->
    (forall i, is_finite (d i) = true /\ exists k, B2R (d i) = IZR k / IZR (2 ^ j)) ->
    (forall i, fin (x i) = true /\ Rabs (val (x i)) <= M) -> M <= bpow radix2 126 ->
    exists s y, lin_session K O p d0 m (modulated d x n) = Ok (s, heard y n)
      /\ forall i, fin (y i) = true
           /\ Rabs (val (y i) - earlier (fun k => val (x k)) (Rmax 0 (Rmin (B2R (d i)) (IZR m))) i)
              <= bpow radix2 (-22) * M + bpow radix2 (-148).
Proof.
  intros T K O val fin rnd p d0 m j d x M n HFL Hm0 Hj Hlim Hd Hx HM.
  assert (Hj1 : (1 <= 2 ^ j)%Z) by (assert (0 < 2 ^ j)%Z by (apply Z.pow_pos_nonneg; lia); lia).
  assert (Hm : (m + 1 <= 2 ^ 24)%Z) by nia.
  assert (HF := float_line_fline _ _ _ _ _ HFL). destruct (fl_zero _ _ _ _ _ HF) as [Zf Zv].
  destruct (mod_session K O val fin rnd HF p m Hm0 Hm d0 d x n) as [s E].
  exists s, (mod_y K O m d x). split; [exact E|]. intros i.
  destruct (Hd i) as [Hdf [k Hk]].
  assert (Hdn : d i <> B754_nan) by (intros E0; rewrite E0 in Hdf; discriminate).
  destruct (mod_y_step K O val fin rnd HF m Hm0 Hm d x i Hdn) as [Hw [Hc [HL [wn [wo [Ey [Fn [Vn [Fo Vo]]]]]]]]].
  rewrite clip32_finite in * by exact Hdf. unfold clipR in *.
  set (c := Rmax 0 (Rmin (B2R (d i)) (IZR m))) in *.
  set (w := (Z.of_nat i mod (m + 1))%Z) in *. set (L := lag32 (m + 1) w c) in *.
  assert (Hc' : 0 <= c <= IZR m) by (rewrite plus_IZR in Hc; lra).
  assert (Hg : exists k', c = IZR k' / IZR (2 ^ j)).
  { assert (HJ : 1 <= IZR (2 ^ j)) by (apply IZR_le; exact Hj1).
    unfold c, Rmax, Rmin. repeat destruct (Rle_dec _ _).
    - exists k. exact Hk.
    - exists (m * 2 ^ j)%Z. rewrite mult_IZR. field. lra.
    - exists 0%Z. unfold Rdiv. ring.
    - exists 0%Z. unfold Rdiv. ring. }
  destruct Hg as [k' Hk'].
  destruct (grid_exact m w j k' c Hm0 Hw Hj Hlim Hc' Hk') as [Hq [GL GA]]. fold L in GL. rewrite GA in Vn.
  assert (HM0 : 0 <= M) by (eapply Rle_trans; [apply Rabs_pos|apply (Hx 0%nat)]).
  assert (HB : forall j, fin (behind (n_zero O) x j i) = true /\ Rabs (val (behind (n_zero O) x j i)) <= M).
  { intros jj. apply (behind_fin (fun v => fin v = true /\ Rabs (val v) <= M)); [|exact Hx].
    split; [exact Zf|]. rewrite Zv, Rabs_R0. exact HM0. }
  assert (C1 := Zceil_ub c). assert (C2 := Zceil_lb c).
  destruct (line_blend K O val fin rnd HFL (behind (n_zero O) x (Z.to_nat L) i)
     (behind (n_zero O) x (Z.to_nat (if (L =? 0)%Z then m else (L - 1)%Z)) i) wo wn M) as [B1 B2];
      try apply HB; auto; [lra|].
  rewrite Ey. split; [exact B1|].
  rewrite !(behind_val val) in B2 by exact Zv.
  set (X := fun k => val (x k)) in *.
  match type of B2 with Rabs (_ - ?e) <= _ => replace (earlier X c i) with e; [exact B2|] end.
  unfold earlier. rewrite Vn.
  assert (Hfl : (0 <= Zfloor c)%Z) by (apply Zfloor_lub; lra).
  destruct (ceil_floor c) as [[A B]|[A B]].
  - rewrite GL, B, <- A. replace (c - c) with 0 by ring. ring.
  - rewrite GL, B. destruct (Z.eqb_spec (Zfloor c + 1) 0) as [H0|H0]; [lia|].
    replace (Zfloor c + 1 - 1)%Z with (Zfloor c) by ring. rewrite Z2Nat.inj_add by lia. change (Z.to_nat 1) with 1%nat.
    rewrite plus_IZR. ring.
Qed.

(*@PROP
(** Delays in steps of 1/4 sample on a line of 8 slots, sweeping between 0 and 7.75. *)
Example C108_float_grid_hyps :
  let d := fun i : nat => fl32 (Z.of_nat (i mod 32)) (-2) in
  (0 <= 7)%Z /\ (0 <= 2)%Z /\ ((7 + 1) * 2 ^ 2 <= 2 ^ 24)%Z
  /\ forall i, is_finite (d i) = true /\ exists k, B2R (d i) = IZR k / IZR (2 ^ 2).
Proof.
  intros d. unfold d. split; [lia|]. split; [lia|]. split; [lia|].
  intros i. assert (H : (i mod 32 < 32)%nat) by (apply Nat.mod_upper_bound; lia).
  set (r := (i mod 32)%nat) in *. clearbody r.
  do 32 (destruct r as [|r]; [split; [reflexivity|]; match goal with |- exists k, B2R (fl32 ?z _) = _ => exists z end; cbn; unfold F2R; cbn; lra|]). lia.
Qed.
@*)

(** ** The blow-up in mid-stream *)
Lemma near_len (m : Z) : (4 <= m < 2 ^ 24)%Z -> RN32 (IZR (m + 1) - bpow radix2 (-23)) = IZR (m + 1).
Proof.
  intros Hm. set (len := IZR (m + 1)). set (z := len - bpow radix2 (-23)).
  assert (Hlen5 : 5 <= len) by (apply IZR_le; lia).
  assert (Hb := bpow_gt_0 radix2 (-23)).
  assert (Hb1 : 4 * bpow radix2 (-23) = bpow radix2 (-21)) by (cbn; lra).
  assert (Hb2 : bpow radix2 (-21) <= 1) by (cbn; lra).
  assert (Hlf : generic_format radix2 fexp32 len) by (apply (format_IZR 24 128); lia).
  assert (Hzl : RN32 z <= len).
  { rewrite <- (RN_id 24 128 len Hlf) . apply (RN_le 24 128). unfold z. lra. }
  assert (Hz4 : 4 <= RN32 z).
  { rewrite <- (RN32_small 4) by lia. apply (RN_le 24 128). unfold z. lra. }
  assert (Hmul : forall v, generic_format radix2 fexp32 v -> 4 <= v -> exists k, v = IZR k * bpow radix2 (-21)).
  { intros v Hv Hv1.
    assert (Hmg : (3 <= mag radix2 v)%Z).
    { apply mag_ge_bpow. rewrite Rabs_pos_eq by lra. exact Hv1. }
    unfold generic_format in Hv. unfold F2R in Hv. cbn [Fnum Fexp] in Hv.
    set (Mt := Ztrunc (scaled_mantissa radix2 fexp32 v)) in *.
    assert (Hce : (-21 <= cexp radix2 fexp32 v)%Z).
    { unfold cexp, SpecFloat.fexp. change (SpecFloat.emin 24 128) with (-149)%Z. lia. }
    exists (Mt * 2 ^ (cexp radix2 fexp32 v + 21))%Z. rewrite Hv at 1. rewrite mult_IZR.
    change (2 ^ (cexp radix2 fexp32 v + 21))%Z with (radix2 ^ (cexp radix2 fexp32 v + 21))%Z.
    rewrite (IZR_Zpower radix2) by lia. rewrite Rmult_assoc, <- bpow_plus.
    do 2 f_equal. lia. }
  destruct (Rle_lt_or_eq_dec _ _ Hzl) as [H|H]; [exfalso|exact H].
  destruct (Hmul _ Hlf ltac:(lra)) as [k1 K1]. destruct (Hmul _ (RN_format 24 128 z) Hz4) as [k2 K2].
  assert (Hk : (k2 + 1 <= k1)%Z).
  { rewrite K1, K2 in H. apply Rmult_lt_reg_r in H; [|apply bpow_gt_0]. apply lt_IZR in H. lia. }
  apply IZR_le in Hk. rewrite plus_IZR in Hk.
  assert (HH : RN32 z + bpow radix2 (-21) <= len).
  { rewrite K1, K2. replace (IZR k2 * bpow radix2 (-21) + bpow radix2 (-21)) with ((IZR k2 + 1) * bpow radix2 (-21)) by ring.
    apply Rmult_le_compat_r; [apply bpow_ge_0|exact Hk]. }
  assert (HN := round_N_pt radix2 fexp32 (fun n => negb (Z.even n)) z).
  destruct HN as [_ HN]. specialize (HN len Hlf).
  change (round radix2 fexp32 (Znearest (fun n => negb (Z.even n))) z) with (RN32 z) in HN.
  replace (len - z) with (bpow radix2 (-23)) in HN by (unfold z; ring).
  rewrite (Rabs_pos_eq (bpow radix2 (-23))) in HN by lra.
  apply Rabs_le_inv in HN. unfold z in HN at 2. unfold z in *. lra.
Qed.

(*@PROP
(** C108, refuted without the grid: on every line of 5 to 2^24 slots, a sweep that passes
    through the delay 1 + 2^-23 at its second step returns there - m times the first sample
    plus m + 1 times the second, where the signal about one sample earlier was asked for. *)
@*)
Lemma C108_sweep_blows_up_refuted_thm :
  forall (T : Type) (K : ctl_ops f32 T) (O : num_ops T) (val : T -> R) (fin : T -> bool) (rnd : R -> R)
         (p : profile) (d0 : f32) (m : Z) (d : nat -> f32) (x : nat -> T) (n : nat),
    float_line K O val fin rnd -> (4 <= m < 2 ^ 24)%Z -> d 1%nat = fl32 8388609 (-23) ->
    B2R (d 1%nat) = 1 + bpow radix2 (-23)
    /\ exists s y wo wn, lin_session K O p d0 m (modulated d x n) = Ok (s, heard y n)
      /\ y 1%nat = n_add O (n_mul O (x 0%nat) wo) (n_mul O (x 1%nat) wn)
      /\ fin wo = true /\ val wo = - IZR m
      /\ fin wn = true /\ val wn = IZR (m + 1).
Proof.
  intros T K O val fin rnd p d0 m d x n HFL Hm Hd.
  assert (HF := float_line_fline _ _ _ _ _ HFL).
  assert (Ev : B2R (d 1%nat) = 1 + bpow radix2 (-23)).
  { rewrite Hd. cbn. unfold F2R; cbn. lra. }
  assert (Ef : is_finite (d 1%nat) = true) by (rewrite Hd; reflexivity).
  split; [exact Ev|].
  destruct (mod_session K O val fin rnd HF p m ltac:(lia) ltac:(lia) d0 d x n) as [s E].
  assert (Hdn : d 1%nat <> B754_nan) by (rewrite Hd; discriminate).
  destruct (mod_y_step K O val fin rnd HF m ltac:(lia) ltac:(lia) d x 1 Hdn) as [Hw [Hc [HL [wn [wo [Ey [Fn [Vn [Fo Vo]]]]]]]]].
  exists s, (mod_y K O m d x), wo, wn. split; [exact E|].
  rewrite clip32_finite in * by exact Ef.
  assert (Hm4 : 4 <= IZR m) by (apply IZR_le; lia).
  assert (Hb : 0 < bpow radix2 (-23) <= 1) by (split; [apply bpow_gt_0|cbn; lra]).
  rewrite clipR_id in * by (rewrite Ev; lra). rewrite Ev in *.
  replace (Z.of_nat 1 mod (m + 1))%Z with 1%Z in * by (symmetry; apply Z.mod_small; lia).
  assert (Hq : pos32 (m + 1) 1 (1 + bpow radix2 (-23)) = IZR (m + 1)).
  { unfold pos32. replace (IZR 1 - (1 + bpow radix2 (-23))) with (- bpow radix2 (-23)) by ring.
    rewrite (RN_opp 24 128), (RN_id 24 128) by (apply (format_bpow 24 128); cbv; discriminate).
    rewrite Rlt_bool_true by lra. rewrite <- (near_len m Hm) at 2. f_equal. ring. }
  assert (Hr := proj2 (alpha_range (m + 1) 1 (1 + bpow radix2 (-23)) ltac:(lia) Hw Hc) Hq).
  assert (EL : lag32 (m + 1) 1 (1 + bpow radix2 (-23)) = 1%Z).
  { unfold lag32. rewrite Hr. apply Z.mod_small. lia. }
  rewrite EL in Ey. rewrite Hr, Hq, Rminus_0_r in Vn.
  split; [rewrite Ey; reflexivity|]. split; [exact Fo|]. split; [|split; [exact Fn|exact Vn]].
  rewrite Vo, Vn, plus_IZR. replace (1 - (IZR m + 1)) with (- IZR m) by ring.
  rewrite <- opp_IZR. apply (fl_int _ _ _ _ _ HF). lia.
Qed.

(*@PROP
Example C108_sweep_blows_up_refuted_hyps :
  (4 <= 4095 < 2 ^ 24)%Z /\ (fun _ : nat => fl32 8388609 (-23)) 1%nat = fl32 8388609 (-23).
Proof. split; [lia|reflexivity]. Qed.
@*)
